(** C80, C81: the JSON forms of AS paths and of elements. *)
From Coq Require Import String Lia Floats.SpecFloat.
From Verif Require Import Tac Base BaseFacts Net NetSpec AsPath Community Attr Elem Text Filter Json JsonSpec JsonFacts.

(** C80.  An AS path written as JSON and read back is the same path, exactly if it has no empty
    sequence or is written in the long form. *)
Theorem C80_roundtrip p : path_u32 p -> (de_path (ser_path p) = Some p <-> path_kept p).
Proof. exact (path_roundtrip p). Qed.
Print Assumptions C80_roundtrip.
(** What is written: paths of sequences and sets with no two sequences in a row in the short
    form, all others in the long form. *)
Theorem C80_form p : (plain p -> exists l, Forall2 short p l /\ ser_path p = JList (concat l)) /\
  (~ plain p -> exists l, Forall2 long p l /\ ser_path p = JList l).
Proof. exact (path_form p). Qed.
Print Assumptions C80_form.
(** AS numbers of a path that is read are never cut to 32 bits. *)
Theorem C80_in_range j p : de_path j = Some p -> path_u32 p.
Proof. exact (path_in j p). Qed.
Print Assumptions C80_in_range.
Definition ex_short : aspath := [Seg KSeq [231; 432]; Seg KSet [643; 836]; Seg KSeq [4200000000]].
Definition ex_long : aspath := [Seg KCSeq [123; 942]; Seg KSeq [773]; Seg KSeq []].
Lemma ex_short_plain : plain ex_short.
Proof. apply simplified_iff. reflexivity. Qed.
Lemma ex_long_not : ~ plain ex_long.
Proof. intros P. apply simplified_iff in P. discriminate. Qed.
Example C80_ex :
  ser_path ex_short = JList [JNum 231; JNum 432; JList [JNum 643; JNum 836]; JNum 4200000000] /\ plain ex_short /\ path_u32 ex_short /\ path_kept ex_short /\
  ser_path ex_long = JList [JObject [(str "ty", JText (str "AS_CONFED_SEQUENCE")); (str "values", JList [JNum 123; JNum 942])];
    JObject [(str "ty", JText (str "AS_SEQUENCE")); (str "values", JList [JNum 773])]; JObject [(str "ty", JText (str "AS_SEQUENCE")); (str "values", JList [])]]
  /\ path_u32 ex_long /\ path_kept ex_long.
Proof.
  split; [reflexivity|]. split; [exact ex_short_plain|]. split; [repeat constructor|]. split.
  { intros _ X. repeat (inversion X as [? ? H E|? ? H E]; subst; [discriminate|]; clear X; rename H into X). inversion X. }
  split; [reflexivity|]. split; [repeat constructor|]. intros P. elim (ex_long_not P).
Qed.
(** A path with an empty sequence is read back without it. *)
Theorem C80_empty_refuted : exists p, path_u32 p /\ p <> [] /\ de_path (ser_path p) = Some [].
Proof. exists [Seg KSeq []]. split; [repeat constructor|]. split; [discriminate|reflexivity]. Qed.
Print Assumptions C80_empty_refuted.
(** In a mixture of the two forms a number that follows a labelled sequence is appended to that
    sequence: the flag that is to prevent this is never set. *)
Theorem C80_mixed_refuted : exists s, long (Seg KSeq [1]) s /\ de_path (JList [s; JNum 2]) = Some [Seg KSeq [1; 2]].
Proof. eexists. split; reflexivity. Qed.
Print Assumptions C80_mixed_refuted.

(** C81.  An element written as JSON and read back is the same element, whatever is in its
    fields, except that there must be no NaN or infinity and no path that C80 excludes. *)
Theorem C81_roundtrip ps tx e : texts_ok ps tx -> elem_ranged e -> elem_finite e -> opt_all path_kept (e_path e) ->
  de_elem ps (ser_elem tx e) = Some e.
Proof. exact (elem_read ps tx e). Qed.
Print Assumptions C81_roundtrip.
(** Every community is read back as one of its own kind. *)
Theorem C81_community ps tx m : texts_ok ps tx -> meta_ranged m -> meta_finite m -> de_meta ps (ser_meta tx m) = Some m.
Proof. exact (meta_read ps tx m). Qed.
Print Assumptions C81_community.
(** Whatever JSON is read, each number of the element is in the range of its field: a larger
    number is refused. *)
Theorem C81_in_range ps j e : parsers_typed ps -> de_elem ps j = Some e -> elem_ranged e.
Proof. exact (elem_in ps j e). Qed.
Print Assumptions C81_in_range.
(** An element with a time or rate that is not a finite number is not read back: such numbers
    are written as null, and never as something else. *)
Theorem C81_finite ps tx e e' : de_elem ps (ser_elem tx e) = Some e' -> elem_finite e.
Proof. exact (elem_read_finite ps tx e e'). Qed.
Print Assumptions C81_finite.
(** The names of the fields, in their order, and of the two types of elements. *)
Theorem C81_names tx e : exists l, ser_elem tx e = JObject l /\
  map fst l = map str ["timestamp"; "type"; "peer_ip"; "peer_asn"; "peer_bgp_id"; "prefix"; "next_hop"; "as_path"; "origin_asns"; "origin"; "local_pref"; "med";
    "communities"; "atomic"; "aggr_asn"; "aggr_ip"; "only_to_customer"; "unknown"; "deprecated"]%string /\
  In (str "type", JText (str (match e_type e with Announce => "ANNOUNCE" | Withdraw => "WITHDRAW" end))) l.
Proof. eexists. split; [reflexivity|]. split; [reflexivity|]. right; left. destruct (e_type e); reflexivity. Qed.
Print Assumptions C81_names.

(** Some texts that can be read back (the octets of the address). *)
Definition ex_tx : texts :=
  let ip i := match i with V4 n => be 4 n | V6 n => be 16 n end in Texts ip (fun n => net_len n :: ip (net_addr n)).
Definition ex_ip (s : bytes) : option ip :=
  if nlen s =? 4 then Some (V4 (be_val s mod 2 ^ 32)) else if nlen s =? 16 then Some (V6 (be_val s mod 2 ^ 128)) else None.
Definition ex_ip4 (s : bytes) : option N := match ex_ip s with Some (V4 n) => Some n | _ => None end.
Definition ex_net (s : bytes) : option ipnet :=
  match s with l :: a => match ex_ip a with Some i => if l <=? net_width i then Some (Net i l) else None | None => None end | [] => None end.
Definition ex_ps : parsers := Parsers ex_net ex_ip ex_ip4 (fun _ => None) (fun _ => None).
Lemma ex_ip_tx i : ip_ok i -> ex_ip (tx_ip ex_tx i) = Some i.
Proof.
  destruct i as [n|n]; cbn [ip_ok tx_ip ex_tx]; intros H; unfold ex_ip; rewrite nlen_be; cbn [N.eqb N.of_nat Pos.eqb Pos.of_succ_nat Pos.succ];
    rewrite be_val_be_small by exact H; rewrite N.mod_small by exact H; reflexivity.
Qed.
Lemma ex_texts : texts_ok ex_ps ex_tx /\ parsers_typed ex_ps.
Proof.
  assert (IP : forall s i, ex_ip s = Some i -> ip_ok i).
  { intros s i. unfold ex_ip. destruct (nlen s =? 4); [intros [= <-]; apply N.mod_lt; discriminate|]. destruct (nlen s =? 16); [intros [= <-]; apply N.mod_lt; discriminate|discriminate]. }
  split; split; [exact ex_ip_tx| |exact IP|]; split; cbn [ps_ip4 ps_net ex_ps].
  - intros n H. unfold ex_ip4. rewrite (ex_ip_tx (V4 n) H). reflexivity.
  - intros [a l] [A L]. cbn [tx_net ex_tx net_len net_addr ex_net] in *. pose proof (ex_ip_tx a A) as E. cbn [tx_ip ex_tx] in E. rewrite E. apply N.leb_le in L. rewrite L. reflexivity.
  - intros s n. unfold ex_ip4. destruct (ex_ip s) as [[m|m]|] eqn:E; try discriminate. intros [= <-]. exact (IP _ _ E).
  - intros [|l s] n; cbn [ex_net]; [discriminate|]. destruct (ex_ip s) as [a|] eqn:E; [|discriminate]. destruct (l <=? net_width a) eqn:L; [|discriminate]. intros [= <-].
    split; [exact (IP _ _ E)|apply N.leb_le, L].
Qed.
Definition ex_elem : elem :=
  Elem (f64_of_N 1700000000) Announce (V6 (2 ^ 127 + 5)) 65000 (Some 16909060) (Pfx (Net (V4 167772160) 8) (Some 7)) (Some (V4 1)) (Some ex_short) (Some [4200000000])
    (Some EGP) (Some 100) None
    (Some [MPlain (CCustom 65000 77); MPlain CNoExport; MExtended (XLinkBandwidth true 3 1065353216); MExtended (XIpv4 false 2 16909060 [1; 2]);
           MIpv6Extended (Ipv6Ext (TUnknown 9) 3 (2 ^ 100) 4 5); MLarge (Large 1 2 3)]) true (Some 64512) (Some 5) None (Some [(99, [1; 2; 255])]) None.
Example C81_ex : texts_ok ex_ps ex_tx /\ parsers_typed ex_ps /\ elem_ranged ex_elem /\ elem_finite ex_elem /\ opt_all path_kept (e_path ex_elem).
Proof.
  split; [apply ex_texts|]. split; [apply ex_texts|]. split; [|split].
  - unfold elem_ranged. cbn [ex_elem e_peer e_asn e_id e_hop e_aggr_ip e_prefix e_path e_origins e_pref e_med e_comms e_aggr_asn e_otc e_unknown e_depr opt_all ip_ok].
    repeat match goal with |- _ /\ _ => split end; try reflexivity; try exact I; try (repeat constructor; fail); try (split; [split; [reflexivity|discriminate]|reflexivity]).
  - split; [exact I|]. repeat constructor. discriminate.
  - apply C80_ex.
Qed.
(** A rate that is not a number is written as null, which cannot be read: the whole element is lost. *)
Theorem C81_nan_refuted ps tx e : e_comms e = Some [MExtended (XLinkBandwidth true 64500 (2 ^ 31 - 1))] -> de_elem ps (ser_elem tx e) = None.
Proof.
  intros E. unfold de_elem.
  assert (C : opt_field "communities" (de_list (de_meta ps)) (map (fun p : string * json => (str (fst p), snd p))
     [("communities"%string, jopt (fun l => JList (map (ser_meta tx) l)) (e_comms e))]) = None) by (rewrite E; reflexivity).
  destruct (de_object elem_fields (ser_elem tx e)) as [l|] eqn:O; [|reflexivity].
  assert (C' : opt_field "communities" (de_list (de_meta ps)) l = None).
  { injection O as <-. exact C. }
  cbn [obind]. rewrite C'.
  repeat match goal with |- obind ?x _ = None => destruct x; cbn [obind]; [|reflexivity] end. reflexivity.
Qed.
Print Assumptions C81_nan_refuted.
