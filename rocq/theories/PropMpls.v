(** C38: MPLS-labelled NLRI. *)
From Coq Require Import Lia.
From Verif Require Import Base BaseFacts Reader Net NetSpec Mpls MplsSpec MplsFacts.

(** Encoding a list of labelled prefixes of one family, as the configuration
    prescribes, and parsing it under the same configuration returns the same
    labels, identifiers and prefixes, host bits cleared. *)
Theorem C38_labeled_roundtrip a c l bs :
  Forall labeled_ok l -> Forall (fun p => net_family (lp_net p) = a) l ->
  Forall (fun p => is_some (lp_id p) = lc_add_path c) l ->
  Forall (fun p => stack_allowed c (lp_labels p)) l ->
  rmap (fun p => encode_labeled_prefix p (lc_mode c) (lc_add_path c) (lc_peer c)) l = Ok bs ->
  parse_labeled_nlri (concat bs) a c = Ok (map labeled_trunc l).
Proof. exact (labeled_list_roundtrip a c l bs). Qed.
Print Assumptions C38_labeled_roundtrip.

(** The encoder succeeds on exactly the well-formed prefixes its arguments
    allow, and what it writes is the RFC 8277 form: in [stack_wire] the
    bottom-of-stack bit is set on the last label and on no other. *)
Theorem C38_labeled_wire p m ap peer : labeled_ok p ->
  (encode_labeled_prefix p m ap peer = Ok (labeled_wire p) <->
   (lp_id p = None \/ ap = true) /\
   (m = SingleLabel -> nlen (lp_labels p) = 1) /\
   (m = MultiLabel -> forall q, peer = Some q -> nlen (lp_labels p) <= q)) /\
  (forall b, encode_labeled_prefix p m ap peer = Ok b -> b = labeled_wire p).
Proof. exact (encode_labeled_iff p m ap peer). Qed.
Print Assumptions C38_labeled_wire.

(** A stack deeper than the configured or the negotiated limit is refused. *)
Theorem C38_deep_stack_refused c p r : labeled_ok p -> lc_mode c = MultiLabel ->
  is_some (lp_id p) = lc_add_path c ->
  (lc_max c < nlen (lp_labels p) \/ exists q, lc_peer c = Some q /\ q < nlen (lp_labels p)) ->
  exists e, parse_labeled_nlri (labeled_wire p ++ r) (net_family (lp_net p)) c = Err e /\
    (e = EMaxLabel \/ e = EPeerMax).
Proof. exact (parse_labeled_deep c p r). Qed.
Print Assumptions C38_deep_stack_refused.

(** Whatever is accepted respects the limits, has labels below 2^20, no host
    bits, the requested family, and an identifier exactly in Add-Path mode. *)
Theorem C38_accepted s a c l : bytes_ok s -> parse_labeled_nlri s a c = Ok l ->
  Forall (fun p => labeled_ok p /\ canonical (lp_net p) /\ net_family (lp_net p) = a /\
    stack_allowed c (lp_labels p) /\ is_some (lp_id p) = lc_add_path c) l.
Proof. exact (parse_labeled_inv s a c l). Qed.
Print Assumptions C38_accepted.

(** Withdrawals: encoding and parsing returns the prefix with host bits cleared,
    whatever the three compatibility octets are. *)
Theorem C38_withdrawal_roundtrip a c l compat :
  Forall prefix_ok l -> Forall (fun p => family p = a) l ->
  Forall (fun p => has_id p = lc_add_path c) l -> length compat = 3%nat ->
  parse_labeled_withdrawal_nlri (flat_map (fun p => withdrawal_wire p compat) l) a c
  = Ok (map (fun p => Pfx (net_trunc (p_net p)) (p_id p)) l).
Proof. exact (withdrawal_list_roundtrip a c l compat). Qed.
Print Assumptions C38_withdrawal_roundtrip.
Theorem C38_withdrawal_wire p : prefix_ok p ->
  encode_labeled_withdrawal p = Ok (withdrawal_wire p [0x80; 0; 0]).
Proof. exact (encode_withdrawal_ok p). Qed.
Print Assumptions C38_withdrawal_wire.

(** No octets make either parser panic or run for ever. *)
Theorem C38_no_panic s a c :
  parse_labeled_nlri s a c <> Panic /\ parse_labeled_withdrawal_nlri s a c <> Panic.
Proof. exact (conj (parse_labeled_np s a c) (parse_labeled_withdrawal_np s a c)). Qed.
Print Assumptions C38_no_panic.

(** 10.1.2.3/22 with labels 100 and 200 and path id 5. *)
Definition ex_lp := Labeled (Net (V4 167838211) 22) [100; 200] (Some 5).
Definition ex_cfg := LCfg true MultiLabel 16 (Some 2).
Example C38_ex_hyps : labeled_ok ex_lp /\ net_family (lp_net ex_lp) = AIpv4 /\
  is_some (lp_id ex_lp) = lc_add_path ex_cfg /\ stack_allowed ex_cfg (lp_labels ex_lp).
Proof.
  unfold labeled_ok, net_ok, stack_allowed. cbn. repeat split; try lia; try discriminate.
  - repeat constructor; lia.
  - intros p H; inversion H; lia.
Qed.
Example C38_ex_bytes :
  encode_labeled_prefix ex_lp MultiLabel true (Some 2)
  = Ok [0;0;0;5; 70; 0;6;64; 0;12;129; 10;1;2] /\
  parse_labeled_nlri [0;0;0;5; 70; 0;6;64; 0;12;129; 10;1;2] AIpv4 ex_cfg
  = Ok [Labeled (Net (V4 167837696) 22) [100; 200] (Some 5)].
Proof. split; reflexivity. Qed.
Example C38_ex_deep :
  lc_max (LCfg true MultiLabel 1 None) < nlen (lp_labels ex_lp) /\
  parse_labeled_nlri (labeled_wire ex_lp) AIpv4 (LCfg true MultiLabel 1 None) = Err EMaxLabel.
Proof. split; reflexivity. Qed.
Example C38_ex_withdrawal :
  parse_labeled_withdrawal_nlri [46; 128;0;0; 10;1;2] AIpv4 label_cfg_default
  = Ok [Pfx (Net (V4 167837696) 22) None].
Proof. reflexivity. Qed.

(** Finding: with Add-Path negotiated, a labelled prefix without identifier is
    written without one, and its octets do not read back. *)
Theorem C38_missing_path_id_refuted :
  exists p b, labeled_ok p /\ encode_labeled_prefix p MultiLabel true None = Ok b /\
    parse_labeled_nlri b (net_family (lp_net p)) (LCfg true MultiLabel 16 None) <> Ok [labeled_trunc p].
Proof.
  exists (Labeled (Net (V4 167837696) 22) [100] None), [46; 0;6;65; 10;1;0].
  split; [|split; [reflexivity|discriminate]].
  unfold labeled_ok, net_ok. cbn. repeat split; try lia; try discriminate. repeat constructor; lia.
Qed.

(** A configuration is accepted exactly when it allows between 1 and 254 labels and the peer's
    limit, if there is one, is not zero. *)
Theorem C38_config ap m mx peer c : label_cfg_try_new ap m mx peer = Some c <-> 1 <= mx <= 254 /\ peer <> Some 0 /\ c = LCfg ap m mx peer.
Proof.
  unfold label_cfg_try_new. destruct (N.eqb_spec mx 0) as [Z|Z], (N.ltb_spec 254 mx) as [M|M]; cbn [orb]; try (split; [discriminate|intros (H & _); lia]).
  destruct peer as [p|]; [destruct (N.eqb_spec p 0) as [P|P]|].
  - split; [discriminate|]. intros (_ & H & _). congruence.
  - split; [|intros (_ & _ & ->); reflexivity]. intros H. assert (c = LCfg ap m mx (Some p)) by congruence. split; [lia|]. split; [congruence|assumption].
  - split; [|intros (_ & _ & ->); reflexivity]. intros H. assert (c = LCfg ap m mx None) by congruence. split; [lia|]. split; [discriminate|assumption].
Qed.
Print Assumptions C38_config.
Example C38_ex_config : label_cfg_try_new true SingleLabel 254 (Some 1) = Some (LCfg true SingleLabel 254 (Some 1)) /\
  label_cfg_try_new false MultiLabel 255 None = None /\ label_cfg_try_new false MultiLabel 16 None = Some label_cfg_default.
Proof. repeat split; reflexivity. Qed.
