(** C49: the MP_REACH_NLRI and MP_UNREACH_NLRI attributes. *)
From Coq Require Import Lia.
From Verif Require Import Base BaseFacts Net NetSpec Mpls MplsSpec FlowSpec LinkState Nlri NlriSpec NlriFacts.

(** Announcements: what is written is the RFC 4760 form, and parsing it (whatever the
    reserved octet) gives the family, the next hop and the routes back. *)
Theorem C49_reach_roundtrip a sf h l ap : a <> ALinkState -> sf <> SMplsLabel -> nh_ok h -> routes_ok ap a l ->
  exists b, encode_nlri (Nlri a sf (Some h) l None None None) true ap = Ok b /\
    b = reach_wire a sf (Some h) 0 (flat_map encode_prefix l) /\
    parse_nlri b None None None true ap = Ok (Nlri a sf (Some h) (map wire_prefix l) None None None).
Proof.
  intros Ha Hs Hn Hl. eexists. split; [apply encode_plain_reach; auto|]. split; [reflexivity|].
  apply parse_plain_reach; auto.
Qed.
Print Assumptions C49_reach_roundtrip.
Theorem C49_reach_parse a sf nh x l ap : a <> ALinkState -> sf <> SMplsLabel -> nh_opt_ok nh -> routes_ok ap a l ->
  parse_nlri (reach_wire a sf nh x (flat_map encode_prefix l)) None None None true ap =
  Ok (Nlri a sf nh (map wire_prefix l) None None None).
Proof. exact (parse_plain_reach a sf nh x l ap). Qed.
Print Assumptions C49_reach_parse.
(** Withdrawals. *)
Theorem C49_unreach_roundtrip a sf l ap : a <> ALinkState -> sf <> SMplsLabel -> routes_ok ap a l ->
  exists b, encode_nlri (Nlri a sf None l None None None) false ap = Ok b /\
    b = unreach_wire a sf (flat_map encode_prefix l) /\
    parse_nlri b None None None false ap = Ok (Nlri a sf None (map wire_prefix l) None None None).
Proof.
  intros Ha Hs Hl. eexists. split; [apply encode_plain_unreach; auto|]. split; [reflexivity|].
  apply parse_plain_unreach; auto.
Qed.
Print Assumptions C49_unreach_roundtrip.
(** A next hop is link-local exactly when its address is in 169.254.0.0/16 or fe80::/10, or
    when it comes with a link-local address of its own. *)
Theorem C49_link_local h : nh_ok h -> (nh_link_local h = true <->
  match h with
  | NH4 a => 0xA9FE0000 <= a < 0xA9FF0000
  | NH6 a | NHVpn _ a => 0xFE80 * 2 ^ 112 <= a < 0xFEC0 * 2 ^ 112
  | NH6L _ _ | NHVpnL _ _ _ _ => True
  end).
Proof. exact (link_local_iff h). Qed.
Print Assumptions C49_link_local.
Example C49_ex_link_local : nh_link_local (NH4 0xA9FE0001) = true /\ nh_link_local (NH4 0xA9FD0001) = false /\
  nh_link_local (NH6 (0xFEBF * 2 ^ 112 + 1)) = true /\ nh_link_local (NHVpn 0 (0xFEC0 * 2 ^ 112)) = false.
Proof. repeat split. Qed.
(** Iterating over what was parsed gives the networks on the wire, in order. *)
Theorem C49_networks a sf nh x l ap n : a <> ALinkState -> sf <> SMplsLabel -> nh_opt_ok nh -> routes_ok ap a l ->
  parse_nlri (reach_wire a sf nh x (flat_map encode_prefix l)) None None None true ap = Ok n \/
  parse_nlri (unreach_wire a sf (flat_map encode_prefix l)) None None None false ap = Ok n ->
  nlri_nets n = map (fun p => wire_trunc (p_net p)) l.
Proof.
  intros Ha Hs Hn Hl [H|H].
  - rewrite parse_plain_reach in H by auto. injection H as <-. unfold nlri_nets. cbn [nl_prefixes nl_labeled]. rewrite app_nil_r, map_map. reflexivity.
  - rewrite parse_plain_unreach in H by auto. injection H as <-. unfold nlri_nets. cbn [nl_prefixes nl_labeled]. rewrite app_nil_r, map_map. reflexivity.
Qed.
Print Assumptions C49_networks.
Theorem C49_labeled_networks a h x l ap n : a <> ALinkState -> nh_ok h -> labeled_routes_ok ap a l -> x = 0 ->
  parse_nlri (reach_wire a SMplsLabel (Some h) x (flat_map labeled_wire l)) None None None true ap = Ok n ->
  nlri_nets n = map (fun p => net_trunc (lp_net p)) l.
Proof.
  intros Ha Hn Hl -> H. rewrite parse_labeled_reach in H by auto. injection H as <-. unfold nlri_nets. cbn [nl_prefixes nl_labeled]. cbn [map app].
  rewrite map_map. reflexivity.
Qed.
Print Assumptions C49_labeled_networks.
(** Labelled announcements (SAFI 4). *)
Theorem C49_labeled_roundtrip a h l ap : a <> ALinkState -> nh_ok h -> labeled_routes_ok ap a l ->
  exists b, encode_nlri (Nlri a SMplsLabel (Some h) [] (Some l) None None) true ap = Ok b /\
    b = reach_wire a SMplsLabel (Some h) 0 (flat_map labeled_wire l) /\
    parse_nlri b None None None true ap = Ok (Nlri a SMplsLabel (Some h) [] (Some (map labeled_trunc l)) None None).
Proof.
  intros Ha Hn Hl. eexists. split; [|split; [reflexivity|apply parse_labeled_reach; auto]].
  destruct Hl as (H1 & _ & H3 & _). apply encode_labeled_reach; auto.
  revert H3. apply Forall_impl. intros p E. destruct (lp_id p); auto.
Qed.
Print Assumptions C49_labeled_roundtrip.
(** A labelled prefix with a path identifier is refused without Add-Path. *)
Theorem C49_labeled_id_refused a h l p : In p l -> labeled_ok p -> lp_id p <> None -> Forall labeled_ok l ->
  encode_nlri (Nlri a SMplsLabel (Some h) [] (Some l) None None) true false = Err EUnenc.
Proof. intros H1 H2 H3 H4. exact (encode_labeled_fail a h l false p H1 (conj H2 (conj H3 eq_refl)) H4). Qed.
Print Assumptions C49_labeled_id_refused.
(** Labelled withdrawals come back as plain prefixes whatever the compatibility
    field. *)
Theorem C49_labeled_withdrawal a l ap compat : a <> ALinkState -> length compat = 3%nat ->
  Forall prefix_ok l -> Forall (fun p => family p = a) l -> Forall (fun p => has_id p = ap) l ->
  parse_nlri (unreach_wire a SMplsLabel (flat_map (fun p => withdrawal_wire p compat) l)) None None None false ap =
  Ok (Nlri a SMplsLabel None (map (fun p => Pfx (net_trunc (p_net p)) (p_id p)) l) None None None).
Proof. exact (parse_labeled_unreach a l ap compat). Qed.
Print Assumptions C49_labeled_withdrawal.
(** Link-State announcements: the list of C50 after the same head. *)
Theorem C49_link_state sf nh x s l ap : sf = SLinkState \/ sf = SLinkStateVpn -> nh_opt_ok nh ->
  parse_ls_nlris s = Ok l ->
  parse_nlri (reach_wire ALinkState sf nh x s) None None None true ap = Ok (Nlri ALinkState sf nh [] None (Some l) None).
Proof. exact (parse_ls_reach sf nh x s l ap). Qed.
Print Assumptions C49_link_state.

(** Whatever is accepted as a plain announcement or withdrawal is exactly the wire form
    of what is reported: no octet is skipped or read twice. *)
Theorem C49_reach_exact s n ap : bytes_ok s -> parse_nlri s None None None true ap = Ok n ->
  nl_afi n <> ALinkState -> nl_safi n <> SMplsLabel ->
  exists x, s = reach_wire (nl_afi n) (nl_safi n) (nl_next n) x (flat_map encode_prefix (nl_prefixes n)) /\
    nh_opt_ok (nl_next n) /\ Forall prefix_ok (nl_prefixes n) /\ Forall (fun p => family p = nl_afi n) (nl_prefixes n) /\
    nl_labeled n = None /\ nl_ls n = None /\ nl_fs n = None.
Proof. exact (plain_reach_inv s n ap). Qed.
Print Assumptions C49_reach_exact.
Theorem C49_unreach_exact s n ap : bytes_ok s -> parse_nlri s None None None false ap = Ok n ->
  nl_afi n <> ALinkState -> nl_safi n <> SMplsLabel ->
  s = unreach_wire (nl_afi n) (nl_safi n) (flat_map encode_prefix (nl_prefixes n)) /\
    nl_next n = None /\ Forall prefix_ok (nl_prefixes n) /\ Forall (fun p => family p = nl_afi n) (nl_prefixes n) /\
    nl_labeled n = None /\ nl_ls n = None /\ nl_fs n = None.
Proof. exact (plain_unreach_inv s n ap). Qed.
Print Assumptions C49_unreach_exact.

(** RIB dumps (RFC 6396 section 4.3.4): the abbreviated form - next hop only, anything
    after it ignored - takes family and prefix from the RIB entry; the first octet of
    that form, a next-hop length, is never zero.  When it is zero the full form is
    read and the RIB entry ignored. *)
Theorem C49_rib_abbreviated a sf ps h t ap : a <> ALinkState -> sf <> SMplsLabel -> nh_ok h ->
  parse_nlri (nh_wire (Some h) ++ t) (Some a) (Some sf) (Some ps) true ap = Ok (Nlri a sf (Some h) ps None None None).
Proof. exact (parse_rib_abbrev a sf ps h t ap). Qed.
Print Assumptions C49_rib_abbreviated.
Theorem C49_rib_full a sf ps s reachable ap :
  parse_nlri (0 :: s) (Some a) (Some sf) (Some ps) reachable ap = parse_nlri (0 :: s) None None None reachable ap.
Proof. exact (parse_rib_zero a sf ps s reachable ap). Qed.
Print Assumptions C49_rib_full.

Theorem C49_no_panic s a sf ps reachable ap : parse_nlri s a sf ps reachable ap <> Panic.
Proof. exact (parse_nlri_np s a sf ps reachable ap). Qed.
Print Assumptions C49_no_panic.

(** Non-vacuity. *)
Definition ex_routes := [Pfx (Net (V6 (0x20010db8 * 2 ^ 96)) 32) (Some 7); Pfx (Net (V6 0) 0) (Some 8)].
Example C49_ex_routes : routes_ok true AIpv6 ex_routes /\ nh_ok (NH6L 1 2).
Proof.
  split; [|split; reflexivity]. unfold routes_ok, ex_routes, prefix_ok, net_ok, id_ok. cbn [p_net p_id net_addr net_len].
  split; [|split; [|split]]; try (repeat constructor; intro; discriminate).
Qed.
Example C49_ex_bytes :
  encode_nlri (Nlri AIpv6 SUnicast (Some (NH6L 1 2)) ex_routes None None None) true true =
  Ok ([0; 2; 1; 32; 0; 0; 0; 0; 0; 0; 0; 0; 0; 0; 0; 0; 0; 0; 0; 1] ++ be 16 2 ++
      [0; 0; 0; 0; 7; 32; 32; 1; 13; 184; 0; 0; 0; 8; 0]).
Proof. reflexivity. Qed.
Example C49_ex_labeled : labeled_routes_ok false AIpv4 [Labeled (Net (V4 167772160) 8) [100; 200] None].
Proof.
  unfold labeled_routes_ok, labeled_ok, net_ok. cbn [lp_net lp_labels lp_id net_addr net_len].
  split; [|split; [|split]]; repeat constructor; try discriminate.
Qed.

(** Findings.  An announcement without a next hop (which parsing a zero-length next hop
    produces) is encoded without the length octet and no longer parses. *)
Theorem C49_no_next_hop_refuted : exists s n b,
  parse_nlri s None None None true false = Ok n /\ encode_nlri n true false = Ok b /\
  parse_nlri b None None None true false <> Ok n.
Proof.
  exists [0; 1; 1; 0; 0; 8; 10]. do 2 eexists. split; [reflexivity|]. split; [reflexivity|]. vm_compute. discriminate.
Qed.
Print Assumptions C49_no_next_hop_refuted.
(** Labelled withdrawals are dropped by the encoder. *)
Theorem C49_labeled_withdrawal_dropped_refuted : exists n b,
  nl_prefixes n <> [] /\ encode_nlri n false false = Ok b /\
  parse_nlri b None None None false false = Ok (Nlri AIpv4 SMplsLabel None [] None None None).
Proof.
  exists (Nlri AIpv4 SMplsLabel None [Pfx (Net (V4 167772160) 8) None] None None None). eexists.
  split; [discriminate|]. split; reflexivity.
Qed.
Print Assumptions C49_labeled_withdrawal_dropped_refuted.
(** FlowSpec rules are encoded, but parsed back as address prefixes. *)
Theorem C49_flowspec_refuted : exists n b p,
  encode_nlri n true false = Ok b /\ parse_nlri b None None None true false = Ok p /\
  nl_prefixes n = [] /\ nl_fs n <> None /\ nl_fs p = None /\ nl_prefixes p <> [].
Proof.
  exists (Nlri AIpv4 SFlowSpec (Some (NH4 1)) [] None None (Some [[FDestPrefix (Pfx (Net (V4 167772160) 8) None)]])).
  do 2 eexists. split; [vm_compute; reflexivity|]. split; [vm_compute; reflexivity|]. repeat split; discriminate.
Qed.
Print Assumptions C49_flowspec_refuted.
(** Link-State routes are encoded as placeholders that no longer parse. *)
Theorem C49_link_state_encode_refuted : exists s n b,
  parse_nlri s None None None true false = Ok n /\ nl_ls n <> Some [] /\ encode_nlri n true false = Ok b /\
  parse_nlri b None None None true false = Err ETrunc.
Proof.
  exists (reach_wire ALinkState SLinkState (Some (NH4 1)) 0 ([0; 1; 0; 9; 2] ++ be 8 0)). do 2 eexists.
  split; [vm_compute; reflexivity|]. split; [discriminate|]. split; [reflexivity|]. reflexivity.
Qed.
Print Assumptions C49_link_state_encode_refuted.
