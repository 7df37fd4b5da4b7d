(** Proofs about MP_REACH_NLRI and MP_UNREACH_NLRI. *)
From Coq Require Import ZifyBool ZifyNat ZifyN Lia.
From Verif Require Import Base BaseFacts Reader ReaderFacts Tac Net NetSpec NetFacts Mpls MplsSpec MplsFacts
  FlowSpec FlowSpecSpec FlowSpecFacts Tlv TlvFacts LinkState LinkStateFacts Nlri NlriSpec.
Ltac Zify.zify_post_hook ::= Z.div_mod_to_equations.

(** * Next hops *)
Lemma nh_wire_bytes h : nh_wire (Some h) = be 1 (nlen (nh_bytes h)) ++ nh_bytes h.
Proof. destruct h; cbn [nh_wire nh_bytes]; unfold nlen; rewrite ?app_length, !be_length; reflexivity. Qed.
Lemma parse_mp_nh h : nh_ok h -> parse_mp_next_hop (nh_bytes h) = Ok (Some h).
Proof.
  intros H. unfold parse_mp_next_hop. destruct h; cbn [nh_bytes nh_ok] in *; rewrite ?app_length, !be_length; cbn [Nat.add];
    unfold run, read_ipv4, read_ipv6.
  - rewrite <- (app_nil_r (be 4 a)). rewrite (bind_ok _ _ _ _ _ (read_be_be 4 a [] ltac:(exact H))). reflexivity.
  - rewrite <- (app_nil_r (be 16 a)). rewrite (bind_ok _ _ _ _ _ (read_be_be 16 a [] ltac:(exact H))). reflexivity.
  - destruct H as (H1 & H2). rewrite (bind_ok _ _ _ _ _ (read_be_be 16 a _ H1)).
    rewrite <- (app_nil_r (be 16 ll)). rewrite (bind_ok _ _ _ _ _ (read_be_be 16 ll [] H2)). reflexivity.
  - destruct H as (H1 & H2). rewrite (bind_ok _ _ _ _ _ (read_be_be 8 rd _ H1)).
    rewrite <- (app_nil_r (be 16 a)). rewrite (bind_ok _ _ _ _ _ (read_be_be 16 a [] H2)). reflexivity.
  - destruct H as (H1 & H2 & H3 & H4). rewrite (bind_ok _ _ _ _ _ (read_be_be 8 rd _ H1)).
    rewrite (bind_ok _ _ _ _ _ (read_be_be 16 a _ H2)). rewrite (bind_ok _ _ _ _ _ (read_be_be 8 rd2 _ H3)).
    rewrite <- (app_nil_r (be 16 ll)). rewrite (bind_ok _ _ _ _ _ (read_be_be 16 ll [] H4)). reflexivity.
Qed.
Lemma parse_mp_nh_inv s o : bytes_ok s -> parse_mp_next_hop s = Ok o -> nh_wire o = be 1 (nlen s) ++ s /\ nh_opt_ok o.
Proof.
  intros Hs H. unfold parse_mp_next_hop in H. unfold nlen.
  destruct (length s) as [|n] eqn:E. { injection H as <-. destruct s; [split; [reflexivity|exact I]|discriminate]. }
  do 48 (try (destruct n as [|n]; try discriminate H));
    apply run_inv in H as (r & H); unfold read_ipv4, read_ipv6 in H; repeat pstep H; apply ret_inv in H as [<- <-];
    rewrite ?app_length, ?be_length in E; match type of E with context [length ?x] => is_var x; destruct x; [|cbn [length] in E; lia] end;
    cbn [nh_wire nh_opt_ok nh_ok]; rewrite ?app_nil_r; split; try reflexivity; auto.
Qed.
Lemma read_next_hop_ok o r : nh_opt_ok o -> read_next_hop true (nh_wire o ++ r) = Ok (o, r).
Proof.
  intros Ho. unfold read_next_hop. destruct o as [h|].
  - rewrite nh_wire_bytes. set (n := nlen (nh_bytes h)).
    assert (Hn : n < 256). { subst n. unfold nlen. destruct h; cbn [nh_bytes]; rewrite ?app_length, !be_length; reflexivity. }
    rstep. rewrite (bind_ok _ _ _ tt (nh_bytes h ++ r)).
    2:{ unfold has_n. rewrite nlen_app. destruct (N.ltb_spec (nlen (nh_bytes h) + nlen r) n); [subst n; lia|reflexivity]. }
    subst n. rewrite to_nat_nlen. rewrite (bind_ok _ _ _ _ _ (split_to_app _ _ _ eq_refl)).
    unfold lift. rewrite parse_mp_nh by exact Ho. reflexivity.
  - cbn [nh_wire app]. rstep. unfold has_n, bind, nlen. destruct (N.ltb_spec (N.of_nat (length r)) 0); [lia|reflexivity].
Qed.
Lemma has_n_inv n s u r : has_n n s = Ok (u, r) -> r = s /\ n <= nlen s.
Proof. unfold has_n. destruct (N.ltb_spec (nlen s) n); [discriminate|]. intros E. injection E as _ <-. auto. Qed.
Lemma read_next_hop_inv s o r : read_next_hop true s = Ok (o, r) -> bytes_ok s ->
  s = nh_wire o ++ r /\ nh_opt_ok o /\ bytes_ok r.
Proof.
  intros H Hs. unfold read_next_hop in H. pstep H. apply bind_inv in H as (u & s1 & Hn & H).
  apply has_n_inv in Hn as (-> & Hn). apply bind_inv in H as (b & s1 & Hb1 & H). apply split_to_inv in Hb1 as (-> & L).
  apply lift_inv in H as [H <-]. apply bytes_ok_app in Ho as [Hb1 Hr].
  apply parse_mp_nh_inv in H as [W Hok]; auto. rewrite W. split; [|auto].
  replace (nlen b) with a by (unfold nlen; lia). rewrite <- app_assoc. reflexivity.
Qed.
Lemma npp_has_n n : npp (has_n n).
Proof. intros s. unfold has_n. destruct (_ <? _); discriminate. Qed.
Lemma np_mp_nh s : np (parse_mp_next_hop s).
Proof.
  unfold parse_mp_next_hop. destruct (length s) as [|n]; [discriminate|].
  do 48 (try (destruct n as [|n]; try discriminate)); apply np_run; unfold read_ipv4, read_ipv6;
    repeat (apply npp_bind; [apply npp_read_be|intros]); apply npp_ret.
Qed.
Lemma npp_read_next_hop b : npp (read_next_hop b).
Proof.
  unfold read_next_hop. destruct b; [|apply npp_ret]. apply npp_bind; [apply npp_read_be|]. intros n s.
  unfold has_n at 1. unfold bind at 1. destruct (N.ltb_spec (nlen s) n); [discriminate|].
  apply np_split_bind; [unfold nlen in *; lia|]. intros. apply npp_lift, np_mp_nh.
Qed.

(** * Heads *)
Lemma run_bind {A B} (p : P A) (k : A -> P B) s a r : p s = Ok (a, r) -> run (bind p k) s = run (k a) r.
Proof. intros H. unfold run. rewrite (bind_ok _ _ _ _ _ H). reflexivity. Qed.
Lemma given_read {A} zero (p : P A) : given_or zero None p = p. Proof. reflexivity. Qed.
Lemma skip_res x r : skip_reserved true ([x] ++ r) = Ok (tt, r).
Proof. unfold skip_reserved. cbn [app]. rstep. reflexivity. Qed.
Lemma skip_inv s u r : skip_reserved true s = Ok (u, r) -> exists x, s = [x] ++ r.
Proof.
  unfold skip_reserved. intros H. apply bind_inv in H as (x & s' & H & H'). apply ret_inv in H' as [_ <-].
  apply read_be_inv in H as (l & -> & L & _). destruct l as [|y [|? ?]]; try discriminate. exists y. reflexivity.
Qed.
Lemma all_of_ok {A} (f : bytes -> res A) s a : f s = Ok a -> all_of f s = Ok (a, []).
Proof. intros H. unfold all_of. rewrite H. reflexivity. Qed.
Lemma all_of_inv {A} (f : bytes -> res A) s a r : all_of f s = Ok (a, r) -> f s = Ok a /\ r = [].
Proof. unfold all_of. intros H. apply rbind_inv in H as (x & H & E). injection E as -> <-. auto. Qed.
Lemma npp_all_of {A} (f : bytes -> res A) : (forall s, np (f s)) -> npp (all_of f).
Proof. intros H s. apply np_rbind; auto. intros; discriminate. Qed.
Lemma npp_skip b : npp (skip_reserved b).
Proof. destruct b; [apply npp_bind; [apply npp_read_be|]; intros|]; apply npp_ret. Qed.
Definition label_or_ls (a : afi) (sf : safi) : bool := safi_eqb sf SMplsLabel || afi_eqb a ALinkState.

Lemma parse_plain_reach a sf nh x l ap : a <> ALinkState -> sf <> SMplsLabel -> nh_opt_ok nh -> routes_ok ap a l ->
  parse_nlri (reach_wire a sf nh x (flat_map encode_prefix l)) None None None true ap =
  Ok (Nlri a sf nh (map wire_prefix l) None None None).
Proof.
  intros Ha Hs Hn (H1 & H2 & H3 & H4). unfold parse_nlri, reach_wire. cbv zeta. cbn [given_or].
  rewrite (run_bind _ _ _ _ _ (read_afi_be _ _)), (run_bind _ _ _ _ _ (read_safi_be _ _)),
    (run_bind _ _ _ _ _ (read_next_hop_ok _ _ Hn)).
  replace (afi_eqb a ALinkState) with false by (destruct a; auto; congruence).
  replace (safi_eqb sf SMplsLabel) with false by (destruct sf; auto; congruence). cbn [andb].
  rewrite (run_bind _ _ _ (map wire_prefix l) []); [reflexivity|].
  rewrite (bind_ok _ _ _ _ _ (skip_res _ _)). apply all_of_ok. apply parse_encode_nlri; auto.
Qed.
Lemma parse_plain_unreach a sf l ap : a <> ALinkState -> sf <> SMplsLabel -> routes_ok ap a l ->
  parse_nlri (unreach_wire a sf (flat_map encode_prefix l)) None None None false ap =
  Ok (Nlri a sf None (map wire_prefix l) None None None).
Proof.
  intros Ha Hs (H1 & H2 & H3 & H4). unfold parse_nlri, unreach_wire. cbv zeta. cbn [given_or].
  rewrite (run_bind _ _ _ _ _ (read_afi_be _ _)), (run_bind _ _ _ _ _ (read_safi_be _ _)).
  unfold read_next_hop, skip_reserved. rewrite (run_bind (ret None) _ _ None _) by reflexivity.
  replace (afi_eqb a ALinkState) with false by (destruct a; auto; congruence).
  replace (safi_eqb sf SMplsLabel) with false by (destruct sf; auto; congruence). cbn [andb].
  rewrite (run_bind _ _ _ (map wire_prefix l) []); [reflexivity|].
  rewrite (bind_ok (ret tt) _ _ tt _ eq_refl). apply all_of_ok. apply parse_encode_nlri; auto.
Qed.
Lemma encode_nlri_labeled_ok ap p : labeled_ok p -> (lp_id p = None \/ ap = true) -> encode_nlri_labeled ap p = Ok (labeled_wire p).
Proof.
  intros Hp Hi. unfold encode_nlri_labeled. rewrite (proj2 (proj1 (encode_labeled_iff p _ ap None Hp))); [reflexivity|].
  split; auto. split; [|discriminate]. destruct (N.leb_spec (nlen (lp_labels p)) 1); [|discriminate]. intros _.
  destruct Hp as (_ & _ & _ & Hne & _). destruct (lp_labels p); [congruence|]. rewrite nlen_cons in *. lia.
Qed.
Lemma parse_labeled_reach a nh x l ap : a <> ALinkState -> nh_opt_ok nh -> labeled_routes_ok ap a l ->
  parse_nlri (reach_wire a SMplsLabel nh x (flat_map labeled_wire l)) None None None true ap =
  Ok (Nlri a SMplsLabel nh [] (Some (map labeled_trunc l)) None None).
Proof.
  intros Ha Hn (H1 & H2 & H3 & H4). unfold parse_nlri, reach_wire. cbv zeta. cbn [given_or].
  rewrite (run_bind _ _ _ _ _ (read_afi_be _ _)), (run_bind _ _ _ _ _ (read_safi_be _ _)),
    (run_bind _ _ _ _ _ (read_next_hop_ok _ _ Hn)).
  replace (afi_eqb a ALinkState) with false by (destruct a; auto; congruence).
  change (safi_eqb SMplsLabel SMplsLabel) with true. cbn [andb].
  rewrite (run_bind _ _ _ _ _ (skip_res _ _)). rewrite (run_bind _ _ _ (map labeled_trunc l) []); [reflexivity|].
  apply all_of_ok. rewrite flat_map_concat_map.
  apply labeled_list_roundtrip; auto.
  - revert H4. apply Forall_impl. intros p Hp. split; [exact Hp|discriminate].
  - clear H2 H4. cbn [nlri_label_cfg lc_mode lc_add_path lc_peer]. induction l as [|p l IH]; [reflexivity|].
    inv H1. inv H3. cbn [rmap map].
    rewrite (proj2 (proj1 (encode_labeled_iff p MultiLabel (is_some (lp_id p)) None H2))).
    + rewrite IH by auto. reflexivity.
    + split; [destruct (lp_id p); auto|]. split; [discriminate|discriminate].
Qed.
Lemma parse_labeled_unreach a l ap compat : a <> ALinkState -> length compat = 3%nat ->
  Forall prefix_ok l -> Forall (fun p => family p = a) l -> Forall (fun p => has_id p = ap) l ->
  parse_nlri (unreach_wire a SMplsLabel (flat_map (fun p => withdrawal_wire p compat) l)) None None None false ap =
  Ok (Nlri a SMplsLabel None (map (fun p => Pfx (net_trunc (p_net p)) (p_id p)) l) None None None).
Proof.
  intros Ha Hc H1 H2 H3. unfold parse_nlri, unreach_wire. cbv zeta. cbn [given_or].
  rewrite (run_bind _ _ _ _ _ (read_afi_be _ _)), (run_bind _ _ _ _ _ (read_safi_be _ _)).
  unfold read_next_hop. rewrite (run_bind (ret None) _ _ None _) by reflexivity.
  replace (afi_eqb a ALinkState) with false by (destruct a; auto; congruence).
  change (safi_eqb SMplsLabel SMplsLabel) with true. cbn [andb].
  erewrite run_bind; [|apply all_of_ok, withdrawal_list_roundtrip; eauto]. reflexivity.
Qed.
(** Link-State. *)
Lemma parse_ls_reach sf nh x s l ap : sf = SLinkState \/ sf = SLinkStateVpn -> nh_opt_ok nh -> parse_ls_nlris s = Ok l ->
  parse_nlri (reach_wire ALinkState sf nh x s) None None None true ap = Ok (Nlri ALinkState sf nh [] None (Some l) None).
Proof.
  intros Hs Hn H. unfold parse_nlri, reach_wire. cbv zeta. cbn [given_or].
  rewrite (run_bind _ _ _ _ _ (read_afi_be _ _)), (run_bind _ _ _ _ _ (read_safi_be _ _)),
    (run_bind _ _ _ _ _ (read_next_hop_ok _ _ Hn)).
  replace (safi_eqb sf SLinkState || safi_eqb sf SLinkStateVpn) with true by (destruct Hs as [-> | ->]; reflexivity).
  change (afi_eqb ALinkState ALinkState && true) with true. cbv iota.
  rewrite (run_bind _ _ _ _ _ (skip_res _ _)). rewrite (run_bind _ _ _ _ _ (all_of_ok _ _ _ H)). reflexivity.
Qed.

(** * Encoding *)
Lemma nh_put h : put_len_slice 1 (nh_bytes h) = Ok (nh_wire (Some h)).
Proof.
  rewrite put_len_slice_ok; [rewrite nh_wire_bytes; reflexivity|].
  unfold nlen. destruct h; cbn [nh_bytes]; rewrite ?app_length, !be_length; reflexivity.
Qed.
Lemma encode_plain_reach a sf h l ap : a <> ALinkState -> sf <> SMplsLabel ->
  encode_nlri (Nlri a sf (Some h) l None None None) true ap = Ok (reach_wire a sf (Some h) 0 (flat_map encode_prefix l)).
Proof.
  intros Ha Hs. unfold encode_nlri, reach_wire. cbn [nl_afi nl_safi nl_next nl_prefixes nl_labeled nl_ls nl_fs opt_list rmap].
  rewrite nh_put. cbn [rbind].
  replace (afi_eqb a ALinkState) with false by (destruct a; auto; congruence).
  replace (safi_eqb sf SMplsLabel) with false by (destruct sf; auto; congruence). cbn [rbind concat]. rewrite app_nil_r. reflexivity.
Qed.
Lemma encode_plain_unreach a sf l ap : a <> ALinkState -> sf <> SMplsLabel ->
  encode_nlri (Nlri a sf None l None None None) false ap = Ok (unreach_wire a sf (flat_map encode_prefix l)).
Proof.
  intros Ha Hs. unfold encode_nlri, unreach_wire. cbn [nl_afi nl_safi nl_next nl_prefixes nl_labeled nl_ls nl_fs opt_list rmap rbind].
  replace (afi_eqb a ALinkState) with false by (destruct a; auto; congruence).
  replace (safi_eqb sf SMplsLabel) with false by (destruct sf; auto; congruence). cbn [rbind concat app]. rewrite app_nil_r. reflexivity.
Qed.
Lemma encode_labeled_reach a h l ap : Forall labeled_ok l -> Forall (fun p => lp_id p = None \/ ap = true) l ->
  encode_nlri (Nlri a SMplsLabel (Some h) [] (Some l) None None) true ap =
  Ok (reach_wire a SMplsLabel (Some h) 0 (flat_map labeled_wire l)).
Proof.
  intros Hl Hi. unfold encode_nlri, reach_wire. cbn [nl_afi nl_safi nl_next nl_prefixes nl_labeled nl_ls nl_fs opt_list].
  rewrite nh_put. cbn [rbind safi_eqb]. rewrite flat_map_concat_map.
  assert (E : rmap (encode_nlri_labeled ap) l = Ok (map labeled_wire l)).
  { induction Hl; [reflexivity|]. inv Hi. cbn [rmap map]. rewrite encode_nlri_labeled_ok by auto. cbn [rbind].
    rewrite IHHl by auto. reflexivity. }
  rewrite E. reflexivity.
Qed.
Lemma encode_labeled_fail a h l ap p : In p l -> (labeled_ok p /\ lp_id p <> None /\ ap = false) ->
  Forall labeled_ok l ->
  encode_nlri (Nlri a SMplsLabel (Some h) [] (Some l) None None) true ap = Err EUnenc.
Proof.
  intros Hin (Hp & Hi & ->) Hl. unfold encode_nlri. cbn [nl_afi nl_safi nl_next nl_prefixes nl_labeled nl_ls nl_fs opt_list].
  rewrite nh_put. cbn [rbind safi_eqb].
  assert (E : rmap (encode_nlri_labeled false) l = Err EUnenc); [|rewrite E; reflexivity].
  induction Hl as [|q l Hq Hl IH]; [destruct Hin|]. cbn [rmap].
  assert (C : encode_nlri_labeled false q = Ok (labeled_wire q) \/ encode_nlri_labeled false q = Err EUnenc).
  { unfold encode_nlri_labeled. unfold encode_labeled_prefix.
    destruct (lp_id q) eqn:Eq.
    - right. destruct (lp_labels q); reflexivity.
    - left. pose proof (encode_nlri_labeled_ok false q Hq (or_introl Eq)) as X. unfold encode_nlri_labeled, encode_labeled_prefix in X.
      rewrite Eq in X. exact X. }
  destruct Hin as [->|Hin].
  - unfold encode_nlri_labeled, encode_labeled_prefix. destruct (lp_labels p); [reflexivity|].
    destruct (lp_id p); [reflexivity|congruence].
  - destruct C as [-> | ->]; [|reflexivity]. cbn [rbind]. rewrite IH; auto.
Qed.

(** * Accepting side *)
Lemma run_bind_inv {A B} (p : P A) (k : A -> P B) s b : run (bind p k) s = Ok b ->
  exists a r, p s = Ok (a, r) /\ run (k a) r = Ok b.
Proof.
  intros H. apply run_inv in H as (r & H). apply bind_inv in H as (a & s' & H1 & H2).
  exists a, s'. split; auto. eapply run_ok; eauto.
Qed.
Lemma plain_reach_inv s n ap : bytes_ok s -> parse_nlri s None None None true ap = Ok n ->
  nl_afi n <> ALinkState -> nl_safi n <> SMplsLabel ->
  exists x, s = reach_wire (nl_afi n) (nl_safi n) (nl_next n) x (flat_map encode_prefix (nl_prefixes n)) /\
    nh_opt_ok (nl_next n) /\ Forall prefix_ok (nl_prefixes n) /\ Forall (fun p => family p = nl_afi n) (nl_prefixes n) /\
    nl_labeled n = None /\ nl_ls n = None /\ nl_fs n = None.
Proof.
  intros Hs H Ha Hsf. unfold parse_nlri in H. cbv zeta in H. cbn [given_or] in H.
  apply run_bind_inv in H as (a & s1 & H1 & H). apply read_afi_inv in H1 as (-> & H1); auto.
  apply run_bind_inv in H as (sf & s2 & H2 & H). apply read_safi_inv in H2 as (-> & H2); auto.
  apply run_bind_inv in H as (nh & s3 & H3 & H). apply read_next_hop_inv in H3 as (-> & Hnh & H3); auto.
  destruct (afi_eqb a ALinkState && (safi_eqb sf SLinkState || safi_eqb sf SLinkStateVpn)) eqn:E1.
  { exfalso. apply run_bind_inv in H as (? & ? & _ & H). apply run_bind_inv in H as (? & ? & _ & H). injection H as <-.
    cbn [nl_afi] in Ha. destruct a; cbn in E1; congruence. }
  destruct (safi_eqb sf SMplsLabel) eqn:E2.
  { exfalso. apply run_bind_inv in H as (? & ? & _ & H). apply run_bind_inv in H as (? & ? & _ & H). injection H as <-.
    cbn [nl_safi] in Hsf. destruct sf; cbn in E2; congruence. }
  apply run_bind_inv in H as (l & s4 & H4 & H). injection H as <-. cbn [nl_afi nl_safi nl_next nl_prefixes nl_labeled nl_ls nl_fs] in *.
  apply bind_inv in H4 as (u & s5 & H4 & H5). apply skip_inv in H4 as (x & ->). apply all_of_inv in H5 as [H5 _].
  apply bytes_ok_app in H3 as [_ H3].
  apply nlri_loop_inv in H5 as (-> & P1 & P2); auto. exists x. unfold reach_wire. auto 10.
Qed.
Lemma plain_unreach_inv s n ap : bytes_ok s -> parse_nlri s None None None false ap = Ok n ->
  nl_afi n <> ALinkState -> nl_safi n <> SMplsLabel ->
  s = unreach_wire (nl_afi n) (nl_safi n) (flat_map encode_prefix (nl_prefixes n)) /\
    nl_next n = None /\ Forall prefix_ok (nl_prefixes n) /\ Forall (fun p => family p = nl_afi n) (nl_prefixes n) /\
    nl_labeled n = None /\ nl_ls n = None /\ nl_fs n = None.
Proof.
  intros Hs H Ha Hsf. unfold parse_nlri in H. cbv zeta in H. cbn [given_or] in H.
  apply run_bind_inv in H as (a & s1 & H1 & H). apply read_afi_inv in H1 as (-> & H1); auto.
  apply run_bind_inv in H as (sf & s2 & H2 & H). apply read_safi_inv in H2 as (-> & H2); auto.
  apply run_bind_inv in H as (nh & s3 & H3 & H). unfold read_next_hop in H3. apply ret_inv in H3 as [<- <-].
  destruct (afi_eqb a ALinkState && (safi_eqb sf SLinkState || safi_eqb sf SLinkStateVpn)) eqn:E1.
  { exfalso. apply run_bind_inv in H as (? & ? & _ & H). apply run_bind_inv in H as (? & ? & _ & H). injection H as <-.
    cbn [nl_afi] in Ha. destruct a; cbn in E1; congruence. }
  destruct (safi_eqb sf SMplsLabel) eqn:E2.
  { exfalso. apply run_bind_inv in H as (? & ? & _ & H). injection H as <-.
    cbn [nl_safi] in Hsf. destruct sf; cbn in E2; congruence. }
  apply run_bind_inv in H as (l & s4 & H4 & H). injection H as <-. cbn [nl_afi nl_safi nl_next nl_prefixes nl_labeled nl_ls nl_fs] in *.
  apply bind_inv in H4 as (u & s5 & H4 & H5). unfold skip_reserved in H4. apply ret_inv in H4 as [_ <-]. apply all_of_inv in H5 as [H5 _].
  apply nlri_loop_inv in H5 as (-> & P1 & P2); auto. unfold unreach_wire. auto 10.
Qed.

(** * The abbreviated form of RIB dumps *)
Lemma nh_wire_first o : exists n r, nh_wire o = n :: r /\ (n = 0 <-> o = None).
Proof.
  destruct o as [[]|]; cbn [nh_wire]; do 2 eexists; (split; [reflexivity|]); split; try discriminate; auto.
Qed.
Lemma parse_rib_abbrev a sf ps h t ap : a <> ALinkState -> sf <> SMplsLabel -> nh_ok h ->
  parse_nlri (nh_wire (Some h) ++ t) (Some a) (Some sf) (Some ps) true ap = Ok (Nlri a sf (Some h) ps None None None).
Proof.
  intros Ha Hs Hn. destruct (nh_wire_first (Some h)) as (n & r & E & Z). unfold parse_nlri. cbv zeta.
  assert (X : match nh_wire (Some h) ++ t with [] => false | b :: _ => b =? 0 end = false).
  { rewrite E. cbn [app]. destruct (N.eqb_spec n 0); auto. exfalso. apply Z in e. discriminate. }
  rewrite X. cbn [given_or].
  rewrite (run_bind (ret a) _ _ a _ eq_refl), (run_bind (ret sf) _ _ sf _ eq_refl).
  rewrite (run_bind _ _ _ _ _ (read_next_hop_ok (Some h) _ Hn)).
  replace (afi_eqb a ALinkState) with false by (destruct a; auto; congruence).
  replace (safi_eqb sf SMplsLabel) with false by (destruct sf; auto; congruence). reflexivity.
Qed.
Lemma parse_rib_zero a sf ps s reachable ap :
  parse_nlri (0 :: s) (Some a) (Some sf) (Some ps) reachable ap = parse_nlri (0 :: s) None None None reachable ap.
Proof. reflexivity. Qed.

(** * No panic *)
Lemma npp_given {A} z o (p : P A) : npp p -> npp (given_or z o p).
Proof. intros H. destruct o; [destruct z|]; cbn [given_or]; auto. apply npp_ret. Qed.
Lemma parse_nlri_np s a sf ps re ap : np (parse_nlri s a sf ps re ap).
Proof.
  unfold parse_nlri. cbv zeta. apply np_run.
  generalize (match s with [] => false | b :: _ => b =? 0 end) as z. intros z. revert s.
  apply npp_bind; [apply npp_given, npp_read_afi|]. intros a'.
  apply npp_bind; [apply npp_given, npp_read_safi|]. intros sf'.
  apply npp_bind; [apply npp_read_next_hop|]. intros nh.
  assert (R : npp (skip_reserved re;;; all_of (fun s => parse_nlri_list s ap a'))).
  { apply npp_bind; [apply npp_skip|]. intros. apply npp_all_of. intros; apply parse_nlri_list_np. }
  destruct (afi_eqb a' ALinkState && _).
  { apply npp_bind; [apply npp_skip|]. intros. apply npp_bind; [apply npp_all_of, ls_nlris_np|]. intros. apply npp_ret. }
  destruct (safi_eqb sf' SMplsLabel).
  { destruct re.
    - apply npp_bind; [apply npp_skip|]. intros. apply npp_bind; [|intros; apply npp_ret].
      apply npp_all_of. intros. apply parse_labeled_np.
    - apply npp_bind; [|intros; apply npp_ret]. apply npp_all_of. intros. apply parse_labeled_withdrawal_np. }
  apply npp_bind; [|intros; apply npp_ret]. destruct ps; [destruct z|]; auto. apply npp_ret.
Qed.

(** * Link-local next hops *)
Lemma high_bits x k j : N.land x (N.shiftl (N.ones j) k) = N.shiftl (N.land (N.shiftr x k) (N.ones j)) k.
Proof.
  apply N.bits_inj. intros m. rewrite N.land_spec. destruct (N.ltb_spec m k).
  - rewrite !N.shiftl_spec_low by auto. apply Bool.andb_false_r.
  - rewrite !N.shiftl_spec_high' by auto. rewrite N.land_spec, N.shiftr_spec'. f_equal. f_equal. lia.
Qed.
Lemma v6_link_local_iff a : a < 2 ^ 128 -> (v6_link_local a = true <-> 0xFE80 * 2 ^ 112 <= a < 0xFEC0 * 2 ^ 112).
Proof.
  intros H. unfold v6_link_local. change 0xffc0 with (N.shiftl (N.ones 10) 6). rewrite high_bits, N.shiftr_shiftr. change (112 + 6) with 118.
  rewrite N.land_ones, N.shiftl_mul_pow2, N.shiftr_div_pow2.
  assert (L : a / 2 ^ 118 < 2 ^ 10) by (apply N.div_lt_upper_bound; [discriminate|exact H]).
  rewrite N.mod_small by exact L. rewrite N.eqb_eq. change (2 ^ 6) with 64.
  change (0xFE80 * 2 ^ 112) with (2 ^ 118 * 0x3FA). change (0xFEC0 * 2 ^ 112) with (2 ^ 118 * 0x3FB).
  pose proof (N.div_mod a (2 ^ 118) ltac:(discriminate)) as D. pose proof (N.mod_lt a (2 ^ 118) ltac:(discriminate)) as M.
  revert D M. generalize (a / 2 ^ 118) (a mod 2 ^ 118). intros q r. change (2 ^ 118) with 332306998946228968225951765070086144.
  change (0xfe80) with 65152. intros. split; intros; lia.
Qed.
Lemma link_local_iff h : nh_ok h -> (nh_link_local h = true <->
  match h with
  | NH4 a => 0xA9FE0000 <= a < 0xA9FF0000
  | NH6 a | NHVpn _ a => 0xFE80 * 2 ^ 112 <= a < 0xFEC0 * 2 ^ 112
  | NH6L _ _ | NHVpnL _ _ _ _ => True
  end).
Proof.
  destruct h as [a|a|a ll|d a|d a d2 ll]; cbn [nh_ok nh_link_local]; intros H.
  - rewrite N.shiftr_div_pow2, N.eqb_eq. change (2 ^ 16) with 65536. change (169 * 256 + 254) with 43518. lia.
  - exact (v6_link_local_iff a H).
  - split; auto.
  - exact (v6_link_local_iff a (proj2 H)).
  - split; auto.
Qed.
