(** Proofs about elements. *)
From Coq Require Import Lia Permutation.
From Verif Require Import Tac Base BaseFacts Net AsPath AsPathSpec AsPathFacts Community Nlri Attr BgpMsg Bgp4mp TableDump Stream Framing MrtRecord Elem ElemSpec.

(** * The attribute scan *)
Fixpoint last_sel {A} (f : attr_value -> option A) (d : option A) (l : list attr_value) : option A :=
  match l with [] => d | v :: l' => last_sel f (match f v with Some a => Some a | None => d end) l' end.
Lemma last_sel_none {A} (f : attr_value -> option A) d l : Forall (fun x => f x = None) l -> last_sel f d l = d.
Proof. intros H. revert d. induction H as [|v l Hv H IH]; intros d; cbn; auto. rewrite Hv. apply IH. Qed.
Lemma last_sel_or {A} (f : attr_value -> option A) d l :
  last_sel f d l = match last_sel f None l with Some a => Some a | None => d end.
Proof.
  revert d. induction l as [|v l IH]; intros d; cbn; auto. destruct (f v); auto. rewrite (IH (Some a)). destruct (last_sel f None l); auto.
Qed.
Lemma last_sel_is {A} (f : attr_value -> option A) l : last_is f l (last_sel f None l).
Proof.
  induction l as [|v l IH]; cbn; [constructor|]. rewrite last_sel_or. destruct (last_sel f None l) as [a|] eqn:E.
  - destruct IH as (b & w & c & -> & H1 & H2). exists (v :: b), w, c. auto.
  - cbn in IH. destruct (f v) eqn:F.
    + exists [], v, l. auto.
    + constructor; auto.
Qed.
Lemma last_is_fun {A} (f : attr_value -> option A) l o o' : last_is f l o -> last_is f l o' -> o = o'.
Proof.
  assert (G : forall l o, last_is f l o -> o = last_sel f None l).
  { clear. intros l o H. destruct o as [a|].
    - destruct H as (b & v & c & -> & H1 & H2). induction b as [|w b IH]; cbn.
      + rewrite H1, last_sel_none; auto.
      + rewrite last_sel_or, <- IH. reflexivity.
    - symmetry. apply last_sel_none. exact H. }
  intros H1 H2. rewrite (G _ _ H1), (G _ _ H2). reflexivity.
Qed.
Lemma fold_rel l r : fold_left rel_step l r =
  Rel (last_sel sel_path (v_path r) l) (last_sel sel_path4 (v_path4 r) l) (last_sel sel_origin (v_origin r) l)
      (last_sel sel_hop (v_hop r) l) (last_sel sel_pref (v_pref r) l) (last_sel sel_med (v_med r) l)
      (v_comms r ++ flat_map comms_of l) (v_atomic r || existsb (fun v => match v with AAtomicAggregate => true | _ => false end) l)
      (last_sel sel_aggr (v_aggr r) l) (last_sel sel_reach (v_reach r) l) (last_sel sel_unreach (v_unreach r) l)
      (last_sel sel_otc (v_otc r) l) (v_unknown r ++ flat_map unknown_of l) (v_depr r ++ flat_map depr_of l).
Proof.
  revert r. induction l as [|v l IH]; intros r; cbn [fold_left flat_map last_sel existsb].
  - rewrite !app_nil_r, orb_false_r. destruct r; reflexivity.
  - rewrite IH. destruct r as [x1 x2 x3 x4 x5 x6 x7 x8 x9 x10 x11 x12 x13 x14]; destruct v; cbn [rel_step v_path v_path4 v_origin v_hop v_pref v_med v_comms v_atomic v_aggr v_reach v_unreach v_otc v_unknown v_depr
      sel_path sel_path4 sel_origin sel_hop sel_pref sel_med sel_aggr sel_reach sel_unreach sel_otc comms_of unknown_of depr_of app orb];
    rewrite <- ?app_assoc, ?orb_true_r; reflexivity.
Qed.
Lemma some_list_is {A} (l : list A) : opt_list_is (some_list l) l.
Proof. destruct l; cbn; auto. split; [reflexivity|discriminate]. Qed.
Lemma merge_paths_ok p p4 : exists o, merge_paths p p4 = Ok o /\ effective p p4 o.
Proof.
  unfold merge_paths, effective. destruct p as [p|], p4 as [q|]; eauto.
  pose proof (merge_as4_spec p q) as S. destruct (Nat.ltb_spec (length (hops p)) (length (hops q))).
  - rewrite S. cbn [rbind]. eauto.
  - destruct S as (m & -> & _). cbn [rbind]. eauto.
Qed.
Lemma effective_fun p p4 o o' : effective p p4 o -> effective p p4 o' -> o = o'.
Proof.
  unfold effective. destruct p, p4; try congruence. intros (m & H1 & ->) (m' & H2 & ->). congruence.
Qed.

(** What an element built from the scan carries. *)
Definition rel_elem (r : relevant) (path : option aspath) (e : elem) : Prop :=
  e_path e = path /\ e_origins e = option_map iter_origins path /\ e_origin e = v_origin r /\ e_otc e = v_otc r /\
  e_hop e = v_hop r /\ e_pref e = v_pref r /\ e_med e = v_med r /\
  e_aggr_asn e = option_map fst (v_aggr r) /\ e_aggr_ip e = option_map snd (v_aggr r) /\
  e_atomic e = v_atomic r /\ e_comms e = some_list (v_comms r) /\
  e_unknown e = some_list (v_unknown r) /\ e_depr e = some_list (v_depr r).
Lemma rel_fields a : let r := get_relevant_attributes a in let vs := map a_value (at_inner a) in
  last_is sel_path vs (v_path r) /\ last_is sel_path4 vs (v_path4 r) /\ last_is sel_reach vs (v_reach r) /\
  last_is sel_unreach vs (v_unreach r).
Proof.
  cbn zeta. unfold get_relevant_attributes, values. rewrite fold_rel.
  cbn [rel_init v_path v_path4 v_origin v_hop v_pref v_med v_comms v_atomic v_aggr v_reach v_unreach v_otc v_unknown v_depr app orb].
  repeat split; apply last_sel_is.
Qed.
Lemma rel_carries a path e : rel_elem (get_relevant_attributes a) path e -> carries (map a_value (at_inner a)) path e.
Proof.
  unfold get_relevant_attributes, values. rewrite fold_rel. unfold rel_elem. set (vs := map a_value (at_inner a)).
  cbn [rel_init v_path v_path4 v_origin v_hop v_pref v_med v_comms v_atomic v_aggr v_reach v_unreach v_otc v_unknown v_depr app orb].
  intros (H1 & H2 & H3 & H4 & H5 & H6 & H7 & H8 & H9 & H10 & H11 & H12 & H13). unfold carries.
  split; auto. split; auto. rewrite H3, H4, H11, H12, H13.
  split; [apply last_sel_is|]. split; [apply last_sel_is|]. split.
  { exists (last_sel sel_reach None vs), (last_sel sel_hop None vs). split; [apply last_sel_is|]. split; [apply last_sel_is|]. rewrite H5.
    destruct (last_sel sel_hop None vs), (last_sel sel_reach None vs); reflexivity. }
  split. { exists (last_sel sel_pref None vs). split; [apply last_sel_is|]. rewrite H6, last_sel_or. destruct (last_sel sel_pref None vs); reflexivity. }
  split. { exists (last_sel sel_med None vs). split; [apply last_sel_is|]. rewrite H7, last_sel_or. destruct (last_sel sel_med None vs); reflexivity. }
  split. { exists (last_sel sel_aggr None vs). split; [apply last_sel_is|]. auto. }
  split.
  { rewrite H10, existsb_exists. split; [intros (v & Hv & E); destruct v; try discriminate; auto|intros Hv; exists AAtomicAggregate; auto]. }
  repeat split; apply some_list_is.
Qed.

(** * The iterators deliver their lists *)
Definition upd_list (u : upd_iter) : list elem :=
  (if ui_phase u then [] else map (with_prefix (ui_model u)) (ui_ann u)) ++ map (withdrawal (ui_model u)) (ui_wd u).
Lemma upd_next_list u :
  match upd_next u with
  | (Some e, u') => upd_list u = e :: upd_list u' /\ upd_size u = S (upd_size u')
  | (None, u') => upd_list u = [] /\ upd_list u' = [] /\ upd_size u' = 0%nat
  end.
Proof.
  destruct u as [m [|p a] [|w d] []]; unfold upd_next, upd_list, upd_size; cbn [ui_phase ui_ann ui_wd ui_model map app length]; repeat split; auto; lia.
Qed.
Lemma upd_size_len u : upd_size u = length (upd_list u).
Proof. unfold upd_size, upd_list. rewrite app_length. destruct (ui_phase u); cbn [length]; rewrite ?map_length; reflexivity. Qed.
Lemma upd_collect_list fuel u : (upd_size u < fuel)%nat -> upd_collect fuel u = upd_list u.
Proof.
  revert u. induction fuel as [|f IH]; intros u H; [lia|]. cbn [upd_collect]. pose proof (upd_next_list u) as N.
  destruct (upd_next u) as [[e|] u'].
  - destruct N as [-> N]. rewrite IH by lia. reflexivity.
  - symmetry. apply N.
Qed.
Lemma update_iter_ok m t pi pa : exists u, bgp_update_to_elems_iter m t pi pa = Ok u /\ update_elems m t pi pa (upd_list u).
Proof.
  unfold bgp_update_to_elems_iter. pose proof (rel_fields (u_attrs m)) as F. cbn zeta in F. destruct F as (F1 & F2 & F3 & F4).
  destruct (merge_paths_ok (v_path (get_relevant_attributes (u_attrs m))) (v_path4 (get_relevant_attributes (u_attrs m)))) as (path & -> & E).
  cbn [rbind]. eexists. split; [reflexivity|]. do 5 eexists. split; [exact F3|]. split; [exact F4|]. split; [exact F1|]. split; [exact F2|]. split; [exact E|].
  unfold upd_list. cbn [ui_phase ui_ann ui_wd ui_model]. split.
  - rewrite map_app, !map_map. cbn [e_type e_prefix with_prefix withdrawal]. reflexivity.
  - apply Forall_app. split; apply Forall_forall; intros e He; apply in_map_iff in He as (p & <- & _).
    + cbn [with_prefix e_time e_peer e_asn e_id e_type]. do 4 (split; [reflexivity|]). apply rel_carries. repeat split.
    + repeat split.
Qed.
Lemma update_elems_ok m t pi pa : exists l, bgp_update_to_elems m t pi pa = Ok l /\ update_elems m t pi pa l.
Proof.
  unfold bgp_update_to_elems. destruct (update_iter_ok m t pi pa) as (u & -> & H). cbn [rbind].
  rewrite upd_collect_list by lia. eauto.
Qed.
(** Only one list fits. *)
Lemma opt_list_fun {A} (o o' : option (list A)) l : opt_list_is o l -> opt_list_is o' l -> o = o'.
Proof.
  destruct o as [x|], o' as [y|]; cbn [opt_list_is]; auto.
  - intros [-> _] [-> _]. reflexivity.
  - intros [-> H] E. congruence.
  - intros E [-> H]. congruence.
Qed.
Ltac eq_assum := solve [assumption | symmetry; assumption | etransitivity; [eassumption|]; first [assumption | symmetry; assumption]].
Lemma elem_ext e e' : e_time e = e_time e' -> e_type e = e_type e' -> e_peer e = e_peer e' -> e_asn e = e_asn e' -> e_id e = e_id e' -> e_prefix e = e_prefix e' -> e_hop e = e_hop e' -> e_path e = e_path e' -> e_origins e = e_origins e' -> e_origin e = e_origin e' -> e_pref e = e_pref e' -> e_med e = e_med e' -> e_comms e = e_comms e' -> e_atomic e = e_atomic e' -> e_aggr_asn e = e_aggr_asn e' -> e_aggr_ip e = e_aggr_ip e' -> e_otc e = e_otc e' -> e_unknown e = e_unknown e' -> e_depr e = e_depr e' -> e = e'.
Proof. destruct e, e'. cbn. intros. subst. reflexivity. Qed.
Lemma carries_fun vs path e e' : carries vs path e -> carries vs path e' ->
  e_time e = e_time e' -> e_type e = e_type e' -> e_peer e = e_peer e' -> e_asn e = e_asn e' -> e_id e = e_id e' -> e_prefix e = e_prefix e' -> e = e'.
Proof.
  intros (A1 & A2 & A3 & A4 & (ra & ha & A5 & A6 & A7) & (pa & A8 & A9) & (ma & A10 & A11) & (ga & A12 & A13 & A14) & A15 & A16 & A17 & A18).
  intros (B1 & B2 & B3 & B4 & (rb & hb & B5 & B6 & B7) & (pb & B8 & B9) & (mb & B10 & B11) & (gb & B12 & B13 & B14) & B15 & B16 & B17 & B18).
  intros C1 C2 C3 C4 C5 C6.
  pose proof (last_is_fun _ _ _ _ A3 B3). pose proof (last_is_fun _ _ _ _ A4 B4). pose proof (last_is_fun _ _ _ _ A5 B5). pose proof (last_is_fun _ _ _ _ A6 B6).
  pose proof (last_is_fun _ _ _ _ A8 B8). pose proof (last_is_fun _ _ _ _ A10 B10). pose proof (last_is_fun _ _ _ _ A12 B12).
  pose proof (opt_list_fun _ _ _ A16 B16). pose proof (opt_list_fun _ _ _ A17 B17). pose proof (opt_list_fun _ _ _ A18 B18). subst.
  assert (e_atomic e = e_atomic e') by (destruct (e_atomic e), (e_atomic e'); auto; [symmetry; apply B15, A15; auto|apply A15, B15; auto]).
  apply elem_ext; eq_assum.
Qed.
Lemma bare_fun e e' : bare e -> bare e' ->
  e_time e = e_time e' -> e_type e = e_type e' -> e_peer e = e_peer e' -> e_asn e = e_asn e' -> e_id e = e_id e' -> e_prefix e = e_prefix e' -> e = e'.
Proof. unfold bare. intros A B. decompose [and] A. decompose [and] B. intros. apply elem_ext; eq_assum. Qed.
Lemma update_elems_fun m t pi pa l l' : update_elems m t pi pa l -> update_elems m t pi pa l' -> l = l'.
Proof.
  intros (r & w & p & q & o & A1 & A2 & A3 & A4 & A5 & A6 & A7) (r' & w' & p' & q' & o' & B1 & B2 & B3 & B4 & B5 & B6 & B7).
  pose proof (last_is_fun _ _ _ _ A1 B1). pose proof (last_is_fun _ _ _ _ A2 B2). pose proof (last_is_fun _ _ _ _ A3 B3). pose proof (last_is_fun _ _ _ _ A4 B4). subst.
  pose proof (effective_fun _ _ _ _ A5 B5). subst. rewrite <- B6 in A6. clear - A6 A7 B7. revert l' A6 B7.
  induction A7 as [|e l (E1 & E2 & E3 & E4 & E5) A7 IH]; intros [|e' l'] A6 B7; try discriminate; auto.
  cbn [map] in A6. inversion A6 as [[H1 H2 H3]]. inversion B7 as [|? ? (D1 & D2 & D3 & D4 & D5) B8]; subst. f_equal; auto.
  rewrite H1 in E5. destruct (e_type e') eqn:T; [eapply carries_fun|eapply bare_fun]; eauto; eq_assum.
Qed.

(** * RIB entries and TABLE_DUMP entries *)
Lemma rib_entry_elem p pe r : exists e, rib_entry_to_elem p pe r = Ok e /\ rib_elem p pe r e.
Proof.
  unfold rib_entry_to_elem. pose proof (rel_fields (re_attrs r)) as F. cbn zeta in F. destruct F as (F1 & F2 & F3 & F4).
  destruct (merge_paths_ok (v_path (get_relevant_attributes (re_attrs r))) (v_path4 (get_relevant_attributes (re_attrs r)))) as (path & -> & E).
  cbn [rbind]. eexists. split; [reflexivity|]. unfold rib_elem. cbn [e_type e_prefix e_time e_peer e_asn e_id]. do 6 (split; [reflexivity|]).
  do 3 eexists. split; [exact F1|]. split; [exact F2|]. split; [exact E|]. apply rel_carries. unfold rel_elem.
  cbn [e_path e_origins e_origin e_otc e_hop e_pref e_med e_aggr_asn e_aggr_ip e_atomic e_comms e_unknown e_depr]. do 4 (split; [reflexivity|]). split; [|repeat split].
  unfold get_relevant_attributes, values. rewrite fold_rel. cbn [v_hop v_reach]. set (h := last_sel sel_hop _ _). set (n := last_sel sel_reach _ _). destruct h; [reflexivity|]. destruct n as [n|]; [|reflexivity].
  destruct (nl_next n); reflexivity.
Qed.
Lemma dump_elem_ok d : dump_elem d (table_dump_to_elem d).
Proof.
  unfold dump_elem. pose proof (rel_fields (td_attrs d)) as (F1 & _). do 6 (split; [reflexivity|]).
  eexists. split; [exact F1|]. apply rel_carries. repeat split.
Qed.
Lemma rib_elem_fun p pe r e e' : rib_elem p pe r e -> rib_elem p pe r e' -> e = e'.
Proof.
  intros (A1 & A2 & A3 & A4 & A5 & A6 & a & b & c & A7 & A8 & A9 & A10) (B1 & B2 & B3 & B4 & B5 & B6 & a' & b' & c' & B7 & B8 & B9 & B10).
  pose proof (last_is_fun _ _ _ _ A7 B7). pose proof (last_is_fun _ _ _ _ A8 B8). subst. pose proof (effective_fun _ _ _ _ A9 B9). subst.
  eapply carries_fun; eauto; eq_assum.
Qed.

(** * Records *)
Lemma rib_collect t p l fuel : (length l < fuel)%nat ->
  exists es, rec_collect fuel (RIRib t p l) = Ok es /\ Forall2 (fun x e => rib_elem p (fst x) (snd x) e) (known_entries t l) es.
Proof.
  revert fuel. induction l as [|r l IH]; intros fuel H; destruct fuel as [|f]; try (cbn in H; lia); cbn [rec_collect rec_next known_entries].
  - cbn [rbind]. exists []. auto.
  - destruct (get_peer_by_id t (re_peer r)) as [pe|].
    + destruct (rib_entry_elem p pe r) as (e & -> & He). cbn [rbind]. cbn in H. destruct (IH f) as (es & -> & Hes); [lia|]. cbn [rbind]. eauto.
    + cbn [rbind]. exists []. auto.
Qed.
Lemma batch_collect l fuel : (length l < fuel)%nat -> rec_collect fuel (RIBatch l) = Ok (map table_dump_to_elem l).
Proof.
  revert fuel. induction l as [|r l IH]; intros fuel H; destruct fuel as [|f]; try (cbn in H; lia); cbn [rec_collect rec_next rbind map]; auto.
  cbn in H. rewrite IH by lia. reflexivity.
Qed.
Lemma bgp_collect u fuel : (upd_size u < fuel)%nat -> rec_collect fuel (RIBgp u) = Ok (upd_list u).
Proof.
  revert u. induction fuel as [|f IH]; intros u H; [lia|]. cbn [rec_collect rec_next]. pose proof (upd_next_list u) as N.
  destruct (upd_next u) as [[e|] u']; cbn [rbind].
  - destruct N as [-> N]. rewrite IH by lia. reflexivity.
  - destruct N as [-> _]. reflexivity.
Qed.
(** One more call of [next] than elements. *)
Lemma collect_np i fuel : rec_collect fuel i <> Panic.
Proof.
  revert i. induction fuel as [|f IH]; intros i; cbn [rec_collect]; [discriminate|].
  assert (N : rec_next i <> Panic).
  { destruct i as [|e|[|m l]|t p [|e l]|u]; cbn [rec_next]; try discriminate.
    - destruct (get_peer_by_id t (re_peer e)) as [pe|]; [|discriminate]. destruct (rib_entry_elem p pe e) as (x & -> & _). discriminate.
    - destruct (upd_next u). discriminate. }
  destruct (rec_next i) as [[[e|] i']|er|]; try congruence; cbn [rbind]; [|discriminate|discriminate].
  pose proof (IH i'). destruct (rec_collect f i'); cbn; congruence.
Qed.

Lemma of_bgp_elems b t pi pa : exists i l, (o <~ bgp_to_elems_iter b t pi pa ;; Ok (inr (match o with Some u => RIBgp u | None => RIEmpty end)) : res (elem_err + rec_iter)) = Ok (inr i) /\
  rec_collect (S (rec_size i)) i = Ok l /\ bgp_elems b t pi pa l.
Proof.
  destruct b; cbn [bgp_to_elems_iter bgp_elems]; try (exists RIEmpty, []; auto; fail).
  destruct (update_iter_ok m t pi pa) as (u & -> & H). cbn [rbind]. do 2 eexists. split; [reflexivity|]. split; [|exact H].
  apply bgp_collect. cbn [rec_size]. lia.
Qed.
Lemma record_elems_ok el r : exists l, record_to_elems el r = Ok (l, table_after el r) /\ record_elems el r l.
Proof.
  unfold record_to_elems, record_to_elems_iter, table_after, record_elems.
  destruct (mr_msg r) as [d|ds|[t|b| |g]|[m|m]|[m|m]]; cbn zeta; cbn [rbind]; try (exists []; split; reflexivity).
  - eexists. split; [reflexivity|]. eexists. split; [reflexivity|]. apply dump_elem_ok.
  - rewrite batch_collect by (cbn; lia). cbn [rbind]. eexists. split; [reflexivity|]. induction ds; constructor; auto. apply dump_elem_ok.
  - destruct el as [t|]; cbn [rbind]; eauto. destruct (rib_collect t (rb_prefix b) (rb_entries b) (S (rec_size (RIRib t (rb_prefix b) (rb_entries b))))) as (es & -> & H); [cbn; lia|].
    cbn [rbind]. eauto.
  - destruct (of_bgp_elems (mm_bgp m) (record_time (mr_hdr r)) (mm_peer m) (mm_peer_as m)) as (i & l & -> & E & H). cbn [rbind]. rewrite E. cbn [rbind]. eauto.
  - destruct (of_bgp_elems (lg_bgp m) (record_time (mr_hdr r)) (lg_peer m) (lg_peer_as m)) as (i & l & -> & E & H). cbn [rbind]. rewrite E. cbn [rbind]. eauto.
Qed.
Lemma known_all t l ps : Forall2 (fun e p => get_peer_by_id t (re_peer e) = Some p) l ps -> known_entries t l = combine ps l.
Proof. induction 1 as [|e p l ps H F IH]; cbn; auto. rewrite H, IH. reflexivity. Qed.
Lemma known_cut t l1 e l2 ps : Forall2 (fun e p => get_peer_by_id t (re_peer e) = Some p) l1 ps -> get_peer_by_id t (re_peer e) = None ->
  known_entries t (l1 ++ e :: l2) = combine ps l1.
Proof. intros H E. induction H as [|x p l ps H F IH]; cbn; [rewrite E; auto|]. rewrite H, IH. reflexivity. Qed.
Lemma forall2_combine {A B C} (P : A * B -> C -> Prop) ps l es : length ps = length l -> Forall2 P (combine ps l) es ->
  Forall2 (fun x e => exists y, P (x, y) e) ps es /\ length es = length l.
Proof.
  revert l es. induction ps as [|p ps IH]; intros [|y l] es L H; try discriminate; cbn [combine] in H; inversion H; subst; [split; constructor|].
  destruct (IH l l') as [I1 I2]; auto. split; [constructor; eauto|cbn; congruence].
Qed.

(** * From elements to attributes and back *)
Lemma extend_inner a l : at_inner (extend_attrs a l) = at_inner a ++ l.
Proof.
  unfold extend_attrs. revert a. induction l as [|x l IH]; intros a; cbn [fold_left]; [symmetry; apply app_nil_r|].
  rewrite IH. cbn [add_attr at_inner]. rewrite <- app_assoc. reflexivity.
Qed.
Lemma attributes_values e : map a_value (at_inner (attributes_of_elem e)) = elem_values e.
Proof. unfold attributes_of_elem. rewrite extend_inner. cbn [at_inner app]. rewrite map_map. cbn [attr_of_value a_value]. apply map_id. Qed.
Lemma last_sel_app {A} (f : attr_value -> option A) d a b : last_sel f d (a ++ b) = last_sel f (last_sel f d a) b.
Proof. revert d. induction a; intros d; cbn; auto. Qed.
Lemma last_sel_skip {A B} (f : attr_value -> option A) d (o : option B) g : (forall a, f (g a) = None) -> last_sel f d (opt_one o g) = d.
Proof. intros H. destruct o; cbn; rewrite ?H; auto. Qed.
Lemma last_sel_take {A} (f : attr_value -> option A) d (o : option A) g : (forall a, f (g a) = Some a) -> last_sel f d (opt_one o g) = match o with Some a => Some a | None => d end.
Proof. intros H. destruct o; cbn; rewrite ?H; auto. Qed.
Lemma last_sel_any {A B} (f : attr_value -> option A) d (l : list B) g : (forall a, f (g a) = None) -> last_sel f d (if_any l g) = d.
Proof. intros H. destruct l; cbn; rewrite ?H; auto. Qed.
Lemma last_sel_map {A B} (f : attr_value -> option A) d (l : list B) g : (forall a, f (g a) = None) -> last_sel f d (map g l) = d.
Proof. intros H. apply last_sel_none, Forall_map, Forall_forall. auto. Qed.
Lemma flat_skip {A B} (f : attr_value -> list A) (o : option B) g : (forall a, f (g a) = []) -> flat_map f (opt_one o g) = [].
Proof. intros H. destruct o; cbn; rewrite ?H; auto. Qed.
Lemma flat_any {A B} (f : attr_value -> list A) (l : list B) g : (forall a, f (g a) = []) -> flat_map f (if_any l g) = [].
Proof. intros H. destruct l; cbn; rewrite ?H; auto. Qed.
Lemma flat_none {A B} (f : attr_value -> list A) (l : list B) g : (forall a, f (g a) = []) -> flat_map f (map g l) = [].
Proof. intros H. induction l; cbn; auto. rewrite H. auto. Qed.
Lemma flat_take {A B} (f : attr_value -> list A) (l : list B) g h : (forall a, f (g a) = map h a) -> flat_map f (if_any l g) = map h l.
Proof. intros H. destruct l; cbn [if_any flat_map]; rewrite ?H, ?app_nil_r; auto. Qed.
Lemma flat_each {A} (f : attr_value -> list A) (l : list A) g : (forall a, f (g a) = [a]) -> flat_map f (map g l) = l.
Proof. intros H. induction l; cbn; auto. rewrite H, IHl. reflexivity. Qed.
Lemma regroup_is l : map MPlain (plain_of l) ++ map MExtended (extended_of l) ++ map MLarge (large_of l) ++ map MIpv6Extended (ipv6_of l) = regroup l.
Proof.
  unfold regroup, plain_of, extended_of, large_of, ipv6_of.
  assert (G : forall (B : Type) (g : B -> meta_community) (s : meta_community -> list B) (p : meta_community -> bool), (forall c, map g (s c) = if p c then [c] else []) ->
             map g (flat_map s l) = filter p l).
  { intros B g sx p H. induction l as [|c l IH]; cbn; auto. rewrite map_app, H, IH. destruct (p c); reflexivity. }
  f_equal; [|f_equal; [|f_equal]]; apply G; intros []; reflexivity.
Qed.
Definition is_atomic (v : attr_value) : bool := match v with AAtomicAggregate => true | _ => false end.
Lemma elem_scan e : e_type e = Announce -> let r := get_relevant_attributes (attributes_of_elem e) in
  v_path r = e_path e /\ v_path4 r = None /\ v_reach r = Some (new_reachable (e_prefix e) (e_hop e)) /\ v_unreach r = None /\
  v_origin r = e_origin e /\ v_hop r = e_hop e /\ v_pref r = Some (or_zero (e_pref e)) /\ v_med r = Some (or_zero (e_med e)) /\
  v_comms r = match e_comms e with Some l => regroup l | None => [] end /\ v_atomic r = false /\
  v_aggr r = option_map (fun a => (a, or_zero (e_aggr_ip e))) (e_aggr_asn e) /\ v_otc r = e_otc e /\
  v_unknown r = opt_list (e_unknown e) /\ v_depr r = opt_list (e_depr e).
Proof.
  intros T. unfold get_relevant_attributes, values. rewrite attributes_values, fold_rel. cbn zeta.
  cbn [rel_init v_path v_path4 v_origin v_hop v_pref v_med v_comms v_atomic v_aggr v_reach v_unreach v_otc v_unknown v_depr].
  unfold elem_values. rewrite T. set (cs := match e_comms e with Some _ => _ | None => _ end).
  set (us := match e_unknown e with Some _ => _ | None => _ end). set (ds := match e_depr e with Some _ => _ | None => _ end).
  assert (C : forall (A : Type) (f : attr_value -> option A) d, (forall l, f (ACommunities l) = None) -> (forall l, f (AExtCommunities l) = None) ->
     (forall l, f (ALargeCommunities l) = None) -> (forall l, f (AIpv6ExtCommunities l) = None) -> last_sel f d cs = d).
  { intros A f d H1 H2 H3 H4. unfold cs. destruct (e_comms e) as [l|]; [|reflexivity]. rewrite !last_sel_app.
    rewrite (last_sel_any f d _ _ H1), (last_sel_any f _ _ _ H2), (last_sel_any f _ _ _ H3), (last_sel_any f _ _ _ H4). reflexivity. }
  assert (U : forall (A : Type) (f : attr_value -> option A) d, (forall a b, f (AUnknown a b) = None) -> last_sel f d us = d).
  { intros A f d H. unfold us. destruct (e_unknown e); auto. apply last_sel_map. auto. }
  assert (D : forall (A : Type) (f : attr_value -> option A) d, (forall a b, f (ADeprecated a b) = None) -> last_sel f d ds = d).
  { intros A f d H. unfold ds. destruct (e_depr e); auto. apply last_sel_map. auto. }
  rewrite !last_sel_app.
  repeat match goal with
         | |- context [last_sel ?f ?d (opt_one ?o ?g)] =>
             first [rewrite (last_sel_skip f d o g) by reflexivity | rewrite (last_sel_take f d o g) by reflexivity]
         | |- context [last_sel ?f ?d cs] => rewrite (C _ f d) by reflexivity
         | |- context [last_sel ?f ?d us] => rewrite (U _ f d) by reflexivity
         | |- context [last_sel ?f ?d ds] => rewrite (D _ f d) by reflexivity
         end.
  cbn [last_sel sel_path sel_path4 sel_origin sel_hop sel_pref sel_med sel_aggr sel_reach sel_unreach sel_otc].
  split; [destruct (e_path e); reflexivity|]. split; [reflexivity|]. split; [reflexivity|]. split; [reflexivity|].
  split; [destruct (e_origin e); reflexivity|]. split; [unfold new_reachable; cbn [nl_next]; destruct (e_hop e) as [[]|]; reflexivity|].
  split; [destruct (e_pref e); reflexivity|]. split; [destruct (e_med e); reflexivity|].
  split.
  { rewrite !flat_map_app. repeat rewrite flat_skip by (intros; reflexivity). cbn [flat_map comms_of app].
    assert (flat_map comms_of us = []) as -> by (unfold us; destruct (e_unknown e); auto; apply flat_none; reflexivity).
    assert (flat_map comms_of ds = []) as -> by (unfold ds; destruct (e_depr e); auto; apply flat_none; reflexivity).
    rewrite !app_nil_r. unfold cs. destruct (e_comms e) as [l|]; [|reflexivity]. rewrite <- regroup_is, !flat_map_app.
    rewrite (flat_take comms_of _ ACommunities MPlain), (flat_take comms_of _ AExtCommunities MExtended),
      (flat_take comms_of _ ALargeCommunities MLarge), (flat_take comms_of _ AIpv6ExtCommunities MIpv6Extended) by reflexivity. reflexivity. }
  split.
  { assert (E : forall (A : Type) (l : list A) g, (forall a, g a <> AAtomicAggregate) -> existsb is_atomic (map g l) = false).
    { intros A l g H. induction l as [|a l IH]; cbn [map existsb]; auto. rewrite IH, orb_false_r. specialize (H a). destruct (g a); auto. congruence. }
    assert (E1 : forall (A : Type) (o : option A) g, (forall a, g a <> AAtomicAggregate) -> existsb is_atomic (opt_one o g) = false).
    { intros A [a|] g H; cbn [opt_one existsb]; auto. rewrite orb_false_r. specialize (H a). destruct (g a); auto. congruence. }
    assert (E2 : forall (A : Type) (l : list A) g, (forall a, g a <> AAtomicAggregate) -> existsb is_atomic (if_any l g) = false).
    { intros A [|a l] g H; cbn [if_any existsb]; auto. rewrite orb_false_r. specialize (H (a :: l)). destruct (g (a :: l)); auto. congruence. }
    change (existsb is_atomic ([AMpReach (new_reachable (e_prefix e) (e_hop e))] ++ opt_one (e_hop e) ANextHop ++ opt_one (e_path e) AAsPath ++
      opt_one (e_origin e) AOrigin ++ opt_one (e_pref e) ALocalPref ++ opt_one (e_med e) AMed ++ cs ++
      opt_one (e_aggr_asn e) (fun a => AAggregator a (match e_aggr_ip e with Some i => i | None => 0 end)) ++ opt_one (e_otc e) AOtc ++ us ++ ds) = false).
    rewrite !existsb_app, !E1 by discriminate. cbn [existsb is_atomic orb].
    assert (existsb is_atomic cs = false) as -> by (unfold cs; destruct (e_comms e); [rewrite !existsb_app, !E2 by discriminate|]; reflexivity).
    assert (existsb is_atomic us = false) as -> by (unfold us; destruct (e_unknown e); auto; apply E; discriminate).
    unfold ds; destruct (e_depr e); auto. apply E. discriminate. }
  split. { destruct (e_aggr_asn e); [|reflexivity]. cbn. destruct (e_aggr_ip e); reflexivity. }
  split; [destruct (e_otc e); reflexivity|].
  assert (G : forall (A : Type) (f : attr_value -> list A), (forall l, f (ACommunities l) = []) -> (forall l, f (AExtCommunities l) = []) ->
     (forall l, f (ALargeCommunities l) = []) -> (forall l, f (AIpv6ExtCommunities l) = []) -> flat_map f cs = []).
  { intros A f H1 H2 H3 H4. unfold cs. destruct (e_comms e) as [l|]; [|reflexivity]. rewrite !flat_map_app, !flat_any; auto. }
  rewrite !flat_map_app. repeat rewrite flat_skip by (intros; reflexivity). rewrite !G by reflexivity. cbn [flat_map unknown_of depr_of app].
  unfold us, ds. split.
  - destruct (e_unknown e) as [l|], (e_depr e) as [l'|]; cbn [opt_list flat_map app]; rewrite ?(flat_none unknown_of l') by reflexivity; rewrite ?app_nil_r; auto;
      apply flat_each; intros []; reflexivity.
  - destruct (e_unknown e) as [l|], (e_depr e) as [l'|]; cbn [opt_list flat_map app]; rewrite ?(flat_none depr_of l) by reflexivity; rewrite ?app_nil_r; auto;
      apply flat_each; intros []; reflexivity.
Qed.
Lemma elem_roundtrip e : bgp_update_to_elems (Update [] (attributes_of_elem e) []) (e_time e) (e_peer e) (e_asn e) = Ok [reread e].
Proof.
  unfold bgp_update_to_elems, bgp_update_to_elems_iter, reread. destruct (e_type e) eqn:T.
  - pose proof (elem_scan e T) as S. cbn zeta in S. destruct S as (S1 & S2 & S3 & S4 & S5 & S6 & S7 & S8 & S9 & S10 & S11 & S12 & S13 & S14).
    cbn [u_attrs u_announced u_withdrawn]. rewrite S1, S2, S3, S4, S5, S6, S7, S8, S9, S10, S11, S12, S13, S14.
    unfold merge_paths. destruct (e_path e) as [p|]; cbn [rbind]; rewrite upd_collect_list by lia; unfold upd_list; cbn [ui_phase ui_ann ui_wd ui_model app nl_prefixes new_reachable map].
    + unfold with_prefix. cbn [e_time e_peer e_asn e_id e_hop e_path e_origins e_origin e_pref e_med e_comms e_atomic e_aggr_asn e_aggr_ip e_otc e_unknown e_depr]. do 3 f_equal.
      all: try (destruct (e_comms e) as [c|]; cbn [option_map nonempty_opt]; [destruct (regroup c)|]; reflexivity).
      all: try (destruct (e_aggr_asn e); reflexivity). all: try (destruct (e_unknown e) as [[]|]; reflexivity). all: try (destruct (e_depr e) as [[]|]; reflexivity).
    + unfold with_prefix. cbn [e_time e_peer e_asn e_id e_hop e_path e_origins e_origin e_pref e_med e_comms e_atomic e_aggr_asn e_aggr_ip e_otc e_unknown e_depr]. do 3 f_equal.
      all: try (destruct (e_comms e) as [c|]; cbn [option_map nonempty_opt]; [destruct (regroup c)|]; reflexivity).
      all: try (destruct (e_aggr_asn e); reflexivity). all: try (destruct (e_unknown e) as [[]|]; reflexivity). all: try (destruct (e_depr e) as [[]|]; reflexivity).
  - unfold get_relevant_attributes, values. cbn [u_attrs]. rewrite attributes_values. unfold elem_values. rewrite T. reflexivity.
Qed.
Lemma skipn_tl {A} n (l : list A) : skipn (S n) l = tl (skipn n l).
Proof. revert l. induction n; intros [|a l]; try reflexivity. cbn [skipn]. rewrite <- IHn. reflexivity. Qed.
Lemma nth_hd {A} n (l : list A) : nth_error l n = hd_error (skipn n l).
Proof. revert l. induction n; intros [|a l]; try reflexivity. apply IHn. Qed.
Lemma upd_iter_ok m t pi pa : exists u l, bgp_update_to_elems_iter m t pi pa = Ok u /\ bgp_update_to_elems m t pi pa = Ok l /\
  forall n, let u' := Nat.iter n (fun u => snd (upd_next u)) u in
    fst (upd_next u') = nth_error l n /\ upd_size u' = (length l - n)%nat.
Proof.
  destruct (update_iter_ok m t pi pa) as (u & E & _). exists u, (upd_list u). split; auto.
  split. { unfold bgp_update_to_elems. rewrite E. cbn [rbind]. rewrite upd_collect_list by lia. reflexivity. }
  intros n. cbn zeta. assert (G : upd_list (Nat.iter n (fun u => snd (upd_next u)) u) = skipn n (upd_list u)).
  { induction n; [reflexivity|]. cbn [Nat.iter nat_rect]. fold (Nat.iter n (fun u => snd (upd_next u)) u).
    pose proof (upd_next_list (Nat.iter n (fun u => snd (upd_next u)) u)) as N. rewrite skipn_tl, <- IHn.
    destruct (upd_next _) as [[e|] u']; cbn [snd]; [destruct N as [-> _]; reflexivity|]. destruct N as (-> & N & _). exact N. }
  split; [|rewrite upd_size_len, G, skipn_length; lia].
  pose proof (upd_next_list (Nat.iter n (fun u => snd (upd_next u)) u)) as N. rewrite G in N. rewrite nth_hd.
  destruct (upd_next _) as [[e|] u']; cbn [fst]; destruct N as [-> _]; reflexivity.
Qed.
Lemma record_iter_np el r : record_to_elems_iter el r <> Panic.
Proof.
  unfold record_to_elems_iter. destruct (mr_msg r) as [d|ds|[t|b| |g]|[m|m]|[m|m]]; cbn zeta; try discriminate.
  - destruct el; discriminate.
  - destruct (of_bgp_elems (mm_bgp m) (record_time (mr_hdr r)) (mm_peer m) (mm_peer_as m)) as (i & l & -> & _). discriminate.
  - destruct (of_bgp_elems (lg_bgp m) (record_time (mr_hdr r)) (lg_peer m) (lg_peer_as m)) as (i & l & -> & _). discriminate.
Qed.
Lemma rib_known t h b ps : Forall2 (fun r p => get_peer_by_id t (re_peer r) = Some p) (rb_entries b) ps ->
  exists l, record_to_elems (Some t) (MrtRecord h (MrtV2 (V2Rib b))) = Ok (l, Some t) /\
    Forall2 (fun x e => rib_elem (rb_prefix b) (fst x) (snd x) e) (combine ps (rb_entries b)) l.
Proof.
  intros H. destruct (record_elems_ok (Some t) (MrtRecord h (MrtV2 (V2Rib b)))) as (l & E & R).
  exists l. split; [exact E|]. unfold record_elems in R. cbn [mr_msg] in R. rewrite (known_all _ _ _ H) in R. exact R.
Qed.
Lemma rib_cut t h b ps l1 r l2 : rb_entries b = l1 ++ r :: l2 ->
  Forall2 (fun r p => get_peer_by_id t (re_peer r) = Some p) l1 ps -> get_peer_by_id t (re_peer r) = None ->
  exists l, record_to_elems (Some t) (MrtRecord h (MrtV2 (V2Rib b))) = Ok (l, Some t) /\
    Forall2 (fun x e => rib_elem (rb_prefix b) (fst x) (snd x) e) (combine ps l1) l.
Proof.
  intros E0 H N. destruct (record_elems_ok (Some t) (MrtRecord h (MrtV2 (V2Rib b)))) as (l & E & R).
  exists l. split; [exact E|]. unfold record_elems in R. cbn [mr_msg] in R. rewrite E0, (known_cut _ _ _ _ _ H N) in R. exact R.
Qed.
Lemma regroup_perm l : Permutation (regroup l) l.
Proof.
  unfold regroup. induction l as [|c l IH]; [constructor|]. destruct c; cbn [filter is_plain is_extended_comm is_large is_ipv6_comm app].
  - constructor. exact IH.
  - symmetry. apply Permutation_cons_app. symmetry. exact IH.
  - rewrite !app_assoc in *. symmetry. apply Permutation_cons_app. symmetry. exact IH.
  - rewrite app_assoc in *. symmetry. apply Permutation_cons_app. symmetry. exact IH.
Qed.
Lemma parsed_reread m t pi pa l e : bgp_update_to_elems m t pi pa = Ok l -> In e l -> e_atomic e = false ->
  match e_comms e with Some c => regroup c = c | None => True end -> reread e = e.
Proof.
  intros H I A C. destruct (update_elems_ok m t pi pa) as (l' & E & U). rewrite H in E. assert (l = l') by congruence. subst l'.
  destruct U as (r & w & p & q & path & _ & _ & _ & _ & _ & _ & F). rewrite Forall_forall in F. destruct (F e I) as (F1 & F2 & F3 & F4 & F5).
  unfold reread. destruct (e_type e) eqn:Ty.
  - destruct F5 as (G1 & G2 & G3 & G4 & _ & (o1 & _ & G5) & (o2 & _ & G6) & (o3 & _ & G7 & G8) & _ & G9 & G10 & G11).
    destruct e as [x1 x2 x3 x4 x5 x6 x7 x8 x9 x10 x11 x12 x13 x14 x15 x16 x17 x18 x19].
    cbn [e_time e_type e_peer e_asn e_id e_prefix e_hop e_path e_origins e_origin e_pref e_med e_comms e_atomic e_aggr_asn e_aggr_ip e_otc e_unknown e_depr] in *.
    rewrite G1, G2, G5, G6, G7, G8, A, Ty, F4. f_equal.
    + destruct x13 as [c|]; [|reflexivity]. cbn [option_map]. rewrite C. destruct c; [|reflexivity]. destruct G9 as [_ G9]. congruence.
    + destruct o3; reflexivity.
    + destruct x18 as [[]|]; try reflexivity. destruct G10 as [_ G]. congruence.
    + destruct x19 as [[]|]; try reflexivity. destruct G11 as [_ G]. congruence.
  - destruct F5 as (B1 & B2 & B3 & B4 & B5 & B6 & B7 & B8 & B9 & B10 & B11 & B12 & B13).
    destruct e as [x1 x2 x3 x4 x5 x6 x7 x8 x9 x10 x11 x12 x13 x14 x15 x16 x17 x18 x19].
    cbn [e_time e_type e_peer e_asn e_id e_prefix e_hop e_path e_origins e_origin e_pref e_med e_comms e_atomic e_aggr_asn e_aggr_ip e_otc e_unknown e_depr] in *.
    subst. reflexivity.
Qed.
