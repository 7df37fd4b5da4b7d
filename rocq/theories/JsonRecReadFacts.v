(** Proofs that records read from JSON are in range, and that records that are the same have the
    same elements. *)
From Coq Require Import String ZifyBool ZifyNat ZifyN Lia Sorting.Permutation.
From Verif Require Import Tac Base BaseFacts Net NetSpec AsPath LinkState Attr BgpMsg Elem Text Filter FilterFacts TextDump Framing TableDump TableDumpSpec TableDumpFacts Bgp4mp MrtRecord Json JsonSpec JsonFacts JsonMsg JsonMsgSpec JsonMsgFacts JsonMsgReadFacts JsonRec JsonRecSpec JsonRecFacts.
Local Open Scope string_scope. Local Open Scope list_scope. Local Open Scope N_scope.

Ltac fin E := revert E; apply field_in.
Lemma header_read j h : de_header j = Some h -> header_in h.
Proof.
  unfold de_header. intros H. oinv H. apply some_of in H. subst. unfold header_in. cbn [h_ts h_us h_type h_sub h_len].
  refine (conj (num_field _ _ _ _ E0) (conj _ (conj _ (conj (num_field _ _ _ _ E3) (num_field _ _ _ _ E4))))).
  - revert E1. apply opt_in. exact (num_in (2 ^ 32)).
  - revert E2. apply (field_in (fun t => etype_known t = true)). intros j' t X. apply code_in in X. cbn in X. unfold etype_known. cbn. lia.
Qed.
Lemma attrs_field ps k l a : parsers_typed ps -> field k (de_attrs ps) l = Some a -> attrs_in_range a /\ same_attrs a a.
Proof. intros T. apply (field_in (fun a => attrs_in_range a /\ same_attrs a a)). intros j' x. exact (attrs_in ps j' x T). Qed.
Lemma ip_field ps k l i : parsers_typed ps -> field k (de_ip ps) l = Some i -> ip_ok i.
Proof. intros T. apply field_in. intros; eapply ip_in; eauto. Qed.
Lemma ip4_field ps k l i : parsers_typed ps -> field k (de_ip4 ps) l = Some i -> u32v i.
Proof. intros T. apply field_in. intros; eapply ip4_in; eauto. Qed.
Lemma prefix_field ps k l i : parsers_typed ps -> field k (de_prefix ps) l = Some i -> prefix_ok i.
Proof. intros T. apply field_in. intros; eapply prefix_in; eauto. Qed.
Lemma dump_read ps j d : parsers_typed ps -> de_dump ps j = Some d -> dump_in d /\ same_dump d d.
Proof.
  unfold de_dump. intros T H. oinv H. apply some_of in H. subst. destruct (attrs_field _ _ _ _ T E7) as (A & S). split.
  - exact (conj (num_field _ _ _ _ E0) (conj (num_field _ _ _ _ E1) (conj (prefix_field _ _ _ _ T E2) (conj (num_field _ _ _ _ E3) (conj (num_field _ _ _ _ E4)
      (conj (ip_field _ _ _ _ T E5) (conj (num_field _ _ _ _ E6) A))))))).
  - eexists. split; [reflexivity|exact S].
Qed.
Lemma peer_flag_in w n : parse_peer_flag w = Some n -> n < 256.
Proof.
  unfold parse_peer_flag. intros H.
  assert (G : forall w, obind (find (fun p => bytes_eqb w (str (snd p))) peer_flag_names) (fun p => Some (2 ^ fst p)) = Some n -> n < 256).
  { intros w' X. apply obind_inv in X. destruct X as (p & F & X). apply find_some in F. destruct F as (F & _). apply some_of in X. subst. cbn [peer_flag_names In] in F.
    repeat (destruct F as [<-|F]); [..|contradiction]; cbn [fst]; lia. }
  destruct (trim w) as [|a t]; [discriminate|].
  assert (K : (exists t', a = 48 /\ t = 120 :: t') \/ obind (find (fun p => bytes_eqb (a :: t) (str (snd p))) peer_flag_names) (fun p => Some (2 ^ fst p)) = Some n).
  { repeat match type of H with context [match ?x with _ => _ end] => is_var x; destruct x; try (right; exact H) end. left. eexists. split; reflexivity. }
  destruct K as [(t' & -> & ->)|K]; [exact (hex8_in _ _ H)|exact (G _ K)].
Qed.
Lemma peer_flags_in s n : parse_peer_flags s = Some n -> u8v n.
Proof.
  unfold parse_peer_flags. intros H. destruct (trim s). { apply some_of in H. subst. unfold u8v. lia. }
  oinv H. apply some_of in H. subst. apply lor_in; [|lia]. revert E. apply all_of_in. exact peer_flag_in.
Qed.
Lemma peer_read ps j p : parsers_typed ps -> de_peer ps j = Some p -> peer_in p.
Proof.
  unfold de_peer. intros T H. oinv H. apply some_of in H. subst. refine (conj _ (conj (ip4_field _ _ _ _ T E1) (conj (ip_field _ _ _ _ T E2) (num_field _ _ _ _ E3)))).
  cbn [pe_type]. revert E0. apply field_in. intros j' n X. oinv X. exact (peer_flags_in _ _ X).
Qed.
Lemma insert_keys {K V} (eqb : K -> K -> bool) (Heq : forall a b, eqb a b = true <-> a = b) k v (m : list (K * V)) : NoDup (map fst m) -> NoDup (map fst (map_insert eqb k v m)).
Proof.
  assert (G : forall (m : list (K * V)) x, In x (map fst (map_insert eqb k v m)) -> x = k \/ In x (map fst m)).
  { clear m. induction m as [|[k' v'] m IH]; cbn [map_insert map fst In]; intros x X; [intuition auto|]. destruct (eqb k k') eqn:E; cbn [map fst In] in X; [intuition auto|].
    destruct X as [X|X]; [auto|]. destruct (IH x X); auto. }
  induction m as [|[k' v'] m IH]; cbn [map_insert map fst]; intros D; [constructor; [intros []|constructor]|]. inversion D as [|? ? D1 D2]; subst. destruct (eqb k k') eqn:E.
  - apply Heq in E. subst. constructor; assumption.
  - cbn [map fst]. constructor; [|auto]. intros I. destruct (G m k' I) as [X|X]; [|auto]. subst. rewrite (proj2 (Heq k k) eq_refl) in E. discriminate.
Qed.
Lemma insert_forall {K V} (eqb : K -> K -> bool) (P : K * V -> Prop) k v (m : list (K * V)) : P (k, v) -> Forall P m -> Forall P (map_insert eqb k v m).
Proof. intros H. induction 1 as [|[k' v'] m A F IH]; cbn [map_insert]; [auto|]. destruct (eqb k k'); auto. Qed.
Lemma members_read {K V} (eqb : K -> K -> bool) (Heq : forall a b, eqb a b = true <-> a = b) (P : K * V -> Prop) f j m : (forall x kv, f x = Some kv -> P kv) ->
  de_members eqb f j = Some m -> NoDup (map fst m) /\ Forall P m.
Proof.
  intros H. unfold de_members. destruct j; try discriminate. intros X. oinv X. apply some_of in X. subst m. assert (F : Forall P a). { revert E. apply all_of_in. exact H. }
  clear E. assert (D : NoDup (map fst (@nil (K * V)))) by constructor. assert (N0 : Forall P (@nil (K * V))) by constructor. revert D N0. generalize (@nil (K * V)).
  induction F as [|[k v] a Pa F IH]; intros m D M; [split; assumption|]. cbn [fold_left fst snd]. apply IH; [apply insert_keys; assumption|apply insert_forall; assumption].
Qed.
Lemma table_self t : same_table t t.
Proof. unfold same_table. intuition auto. Qed.
Lemma index_in s n : read_index s = Some n -> u16v n.
Proof.
  unfold read_index. intros H. oinv H. destruct (N.ltb_spec a (2 ^ 16)) as [L|]; [|discriminate]. destruct (bytes_eqb (dec a) s); [|discriminate]. cbn [andb] in H.
  apply some_of in H. subst. exact L.
Qed.
Lemma peer_entry_in ps x kv : parsers_typed ps -> de_peer_entry ps x = Some kv -> u16v (fst kv) /\ peer_in (snd kv).
Proof. unfold de_peer_entry. intros T H. oinv H. apply some_of in H. subst. exact (conj (index_in _ _ E) (peer_read _ _ _ T E0)). Qed.
Lemma id_entry_in ps x kv : parsers_typed ps -> de_id_entry ps x = Some kv -> ip_ok (fst kv) /\ u16v (snd kv).
Proof. unfold de_id_entry. intros T H. oinv H. apply some_of in H. subst. exact (conj (ip_in ps (JText (fst x)) _ T E) (num_in _ _ _ E0)). Qed.
Lemma table_read ps j t : parsers_typed ps -> de_table ps j = Some t -> table_in t.
Proof.
  unfold de_table. intros T H. oinv H. apply some_of in H. subst. unfold table_in. cbn [pt_collector pt_peers pt_ids].
  assert (A : NoDup (map fst a2) /\ Forall (fun kv => u16v (fst kv) /\ peer_in (snd kv)) a2).
  { revert E2. apply (field_in (fun m => NoDup (map fst m) /\ Forall (fun kv => u16v (fst kv) /\ peer_in (snd kv)) m)). intros j' m. apply (members_read N.eqb N.eqb_eq).
    intros x kv. exact (peer_entry_in ps x kv T). }
  assert (B : NoDup (map fst a3) /\ Forall (fun kv => ip_ok (fst kv) /\ u16v (snd kv)) a3).
  { revert E3. apply (field_in (fun m => NoDup (map fst m) /\ Forall (fun kv => ip_ok (fst kv) /\ u16v (snd kv)) m)). intros j' m. apply (members_read ip_eqb ip_eqb_iff).
    intros x kv. exact (id_entry_in ps x kv T). }
  exact (conj (ip4_field _ _ _ _ T E0) (conj (proj1 A) (conj (proj2 A) B))).
Qed.
Lemma geo_read ps j t : parsers_typed ps -> de_geo ps j = Some t -> geo_in t.
Proof.
  unfold de_geo. intros T H. oinv H. apply some_of in H. subst. split; cbn [gt_collector gt_peers]; [exact (ip4_field _ _ _ _ T E0)|].
  revert E4. apply field_in, lists_in. intros j' g X. unfold de_geo_peer in X. oinv X. apply some_of in X. subst. cbn [gp_peer]. revert E5. apply field_in. intros; eapply peer_read; eauto.
Qed.
Lemma entry_read ps j e : parsers_typed ps -> de_rib_entry ps j = Some e -> entry_in e /\ same_entry e e.
Proof.
  unfold de_rib_entry. intros T H. oinv H. apply some_of in H. subst. destruct (attrs_field _ _ _ _ T E3) as (A & S). split.
  - refine (conj (num_field _ _ _ _ E0) (conj (num_field _ _ _ _ E1) (conj _ A))). cbn [re_path]. revert E2. apply opt_in. exact (num_in (2 ^ 32)).
  - eexists. split; [reflexivity|exact S].
Qed.
Lemma forall2_self {A} (P : A -> Prop) (R : A -> A -> Prop) l : Forall (fun a => P a /\ R a a) l -> Forall P l /\ Forall2 R l l.
Proof. induction 1 as [|a l (X & Y) F (IH1 & IH2)]; auto. Qed.
Lemma rib_read ps j r : parsers_typed ps -> de_rib ps j = Some r -> rib_in r /\ same_rib r r.
Proof.
  unfold de_rib. intros T H. oinv H. apply some_of in H. subst.
  assert (A : Forall entry_in a3 /\ Forall2 same_entry a3 a3).
  { apply forall2_self. revert E3. apply field_in, lists_in. intros; eapply entry_read; eauto. }
  split; [|eexists; split; [reflexivity|apply A]]. refine (conj _ (conj (num_field _ _ _ _ E1) (conj (prefix_field _ _ _ _ T E2) (proj1 A)))).
  cbn [rb_type]. revert E0. apply (field_in (fun t => 1 <= t <= 12)). intros j' t X. apply code_in in X. cbn in X. lia.
Qed.
Lemma mp_code_in k l n : field k (de_code mp_names) l = Some n -> mp_code n.
Proof. apply field_in. intros j' t X. apply code_in in X. cbn in X. unfold mp_code. lia. Qed.
Lemma msg_field ps k l m : parsers_typed ps -> field k (de_msg ps) l = Some m -> msg_ranged m /\ same_msg m m.
Proof. intros T. apply (field_in (fun m => msg_ranged m /\ same_msg m m)). intros j' x. exact (msg_in ps j' x T). Qed.
Lemma body_read ps j m : parsers_typed ps -> de_body ps j = Some m -> body_in m /\ same_body m m.
Proof.
  intros T H. unfold de_body in H. vin H; into H.
  - destruct (dump_read _ _ _ T E). split; [assumption|]. exists a. auto.
  - destruct (forall2_self dump_in same_dump a) as (X & Y); [|split; [exact X|exists a; auto]]. revert E. apply lists_in. intros; eapply dump_read; eauto.
  - unfold de_v2 in E. vin E; into E.
    + split; [exact (table_read _ _ _ T E0)|]. eexists. split; [reflexivity|apply table_self].
    + destruct (rib_read _ _ _ T E0). split; [assumption|]. eexists. split; [reflexivity|assumption].
    + split; [exact (geo_read _ _ _ T E0)|reflexivity].
  - unfold de_mp in E. vin E; into E.
    + split; [|reflexivity]. unfold de_mp_state in E0. oinv E0. apply some_of in E0. subst. cbn [body_in mp_in ms_type ms_peer_as ms_local_as ms_ifindex ms_peer ms_local].
      exact (conj (mp_code_in _ _ _ E1) (conj (num_field _ _ _ _ E2) (conj (num_field _ _ _ _ E3) (conj (num_field _ _ _ _ E4) (conj (ip_field _ _ _ _ T E5) (ip_field _ _ _ _ T E6)))))).
    + unfold de_mp_message in E0. oinv E0. apply some_of in E0. subst. destruct (msg_field _ _ _ _ T E7) as (A & S). split.
      * exact (conj (mp_code_in _ _ _ E1) (conj (num_field _ _ _ _ E2) (conj (num_field _ _ _ _ E3) (conj (num_field _ _ _ _ E4) (conj (ip_field _ _ _ _ T E5) (conj (ip_field _ _ _ _ T E6) A)))))).
      * eexists. split; [reflexivity|exact S].
  - unfold de_legacy in E. vin E; into E.
    + unfold de_legacy_message in E0. oinv E0. apply some_of in E0. subst. destruct (msg_field _ _ _ _ T E5) as (A & S). split.
      * exact (conj (num_field _ _ _ _ E1) (conj (ip_field _ _ _ _ T E2) (conj (num_field _ _ _ _ E3) (conj (ip_field _ _ _ _ T E4) A)))).
      * eexists. split; [reflexivity|exact S].
    + split; [|reflexivity]. unfold de_legacy_state in E0. oinv E0. apply some_of in E0. subst. exact (conj (num_field _ _ _ _ E1) (ip_field _ _ _ _ T E2)).
Qed.
Lemma record_read ps j r : parsers_typed ps -> de_record ps j = Some r -> record_in r /\ same_record r r.
Proof.
  unfold de_record. intros T H. oinv H. apply some_of in H. subst.
  assert (A : body_in a1 /\ same_body a1 a1). { revert E1. apply (field_in (fun m => body_in m /\ same_body m m)). intros j' m. exact (body_read ps j' m T). }
  split; [|split; [reflexivity|apply A]]. split; cbn [mr_hdr mr_msg]; [|apply A]. revert E0. apply field_in. exact header_read.
Qed.

(** * Elements *)
Lemma relevant_same a b : same_attrs a b -> get_relevant_attributes b = get_relevant_attributes a.
Proof. intros (E & _). unfold get_relevant_attributes, values. rewrite E. reflexivity. Qed.
Lemma dump_elem d e : same_dump d e -> table_dump_to_elem e = table_dump_to_elem d.
Proof. intros (a & -> & S). unfold table_dump_to_elem. cbn [td_attrs td_time td_peer td_asn td_prefix]. rewrite (relevant_same _ _ S). reflexivity. Qed.
Lemma entry_elem p pe d e : same_entry d e -> rib_entry_to_elem p pe e = rib_entry_to_elem p pe d.
Proof. intros (a & -> & S). unfold rib_entry_to_elem. cbn [re_attrs re_time]. rewrite (relevant_same _ _ S). reflexivity. Qed.
Lemma msg_elem m n t pi pa : same_msg m n -> bgp_to_elems_iter n t pi pa = bgp_to_elems_iter m t pi pa.
Proof.
  destruct m; cbn [same_msg]; try (intros ->; reflexivity). intros (a & -> & S). cbn [bgp_to_elems_iter]. unfold bgp_update_to_elems_iter. cbn [u_attrs u_withdrawn u_announced].
  rewrite (relevant_same _ _ S). reflexivity.
Qed.
Lemma same_length {A B} (R : A -> B -> Prop) l k : Forall2 R l k -> length l = length k.
Proof. induction 1; cbn [length]; congruence. Qed.
(** Elementors that know the same peers. *)
Definition same_peers (a b : elementor) : Prop :=
  match a, b with
  | None, None => True
  | Some t, Some u => forall i, get_peer_by_id u i = get_peer_by_id t i
  | _, _ => False
  end.
Lemma batch_elem l k : Forall2 same_dump l k -> forall f, rec_collect f (RIBatch k) = rec_collect f (RIBatch l).
Proof.
  induction 1 as [|d e l k S F IH]; intros f; [reflexivity|]. destruct f; [reflexivity|]. cbn [rec_collect rec_next rbind]. rewrite (dump_elem _ _ S), IH. reflexivity.
Qed.
Lemma rib_elem t u p l k : (forall i, get_peer_by_id u i = get_peer_by_id t i) -> Forall2 same_entry l k -> forall f, rec_collect f (RIRib u p k) = rec_collect f (RIRib t p l).
Proof.
  intros G. induction 1 as [|d e l k S F IH]; intros f; [destruct f; reflexivity|]. destruct f; [reflexivity|]. cbn [rec_collect rec_next].
  replace (re_peer e) with (re_peer d) by (destruct S as (a & -> & _); reflexivity). rewrite G. destruct (get_peer_by_id t (re_peer d)) as [pe|]; [|reflexivity].
  rewrite (entry_elem p pe _ _ S). destruct (rib_entry_to_elem p pe d); [|reflexivity|reflexivity]. cbn [rbind]. rewrite IH. reflexivity.
Qed.
Definition same_out (x y : res (list elem * elementor)) : Prop :=
  match x, y with
  | Ok (l, a), Ok (k, b) => k = l /\ same_peers a b
  | Err e, Err e' => e' = e
  | Panic, Panic => True
  | _, _ => False
  end.
Lemma out_refl (x : res (list elem)) a b : same_peers a b -> same_out (l <~ x ;; Ok (l, a)) (l <~ x ;; Ok (l, b)).
Proof. intros S. destruct x; cbn; auto. Qed.
Lemma bgp_out a b m n t pi pa : same_peers a b -> same_msg m n ->
  same_out (o <~ (o <~ bgp_to_elems_iter m t pi pa ;; Ok (@inr elem_err rec_iter (match o with Some u => RIBgp u | None => RIEmpty end))) ;;
            match o with inr i => l <~ rec_collect (S (rec_size i)) i ;; Ok (l, a) | inl _ => Ok ([], a) end)
           (o <~ (o <~ bgp_to_elems_iter n t pi pa ;; Ok (@inr elem_err rec_iter (match o with Some u => RIBgp u | None => RIEmpty end))) ;;
            match o with inr i => l <~ rec_collect (S (rec_size i)) i ;; Ok (l, b) | inl _ => Ok ([], b) end).
Proof.
  intros P S. rewrite (msg_elem _ _ t pi pa S). destruct (bgp_to_elems_iter m t pi pa) as [o| |]; cbn [rbind]; [|reflexivity|exact I]. apply out_refl. exact P.
Qed.
Lemma record_elems a b r q : same_peers a b -> same_record r q -> same_out (record_to_elems a r) (record_to_elems b q).
Proof.
  intros P (Hh & S). destruct r as [h m], q as [h' n]. cbn [mr_hdr mr_msg] in *. subst h'. unfold record_to_elems. cbn [mr_msg]. unfold record_to_elems_iter. cbn [mr_msg mr_hdr].
  destruct m as [d|l|[t|r| |t]|[s|x]|[x|s]]; cbn [same_body] in S; cbv iota zeta.
  - destruct S as (e & -> & S). cbn [rbind]. rewrite (dump_elem _ _ S). apply out_refl. exact P.
  - destruct S as (k & -> & S). cbn [rbind rec_size]. replace (length k) with (length l) by (eapply same_length; eauto). rewrite (batch_elem _ _ S). apply out_refl. exact P.
  - destruct S as (u & -> & S). split; [reflexivity|]. exact (proj1 (proj2 (proj2 (proj2 (proj2 S))))).
  - destruct S as (q & -> & (k & -> & S)). cbn [rb_prefix rb_entries]. destruct a as [t|], b as [u|]; try contradiction; cbn [rbind].
    + cbn [rec_size]. replace (length k) with (length (rb_entries r)) by (eapply same_length; eauto). rewrite (rib_elem t u _ _ _ P S). apply out_refl. exact P.
    + split; [reflexivity|exact I].
  - subst n. cbn [rbind]. split; [reflexivity|exact P].
  - subst n. cbn [rbind]. split; [reflexivity|exact P].
  - subst n. cbn [rbind]. split; [reflexivity|exact P].
  - destruct S as (bm & -> & S). cbn [mm_bgp mm_peer mm_peer_as]. apply bgp_out; assumption.
  - destruct S as (bm & -> & S). cbn [lg_bgp lg_peer lg_peer_as]. apply bgp_out; assumption.
  - subst n. cbn [rbind]. split; [reflexivity|exact P].
Qed.
Lemma elements_same rs qs : Forall2 same_record rs qs -> forall a b, same_peers a b -> elements b qs = elements a rs.
Proof.
  induction 1 as [|r q rs qs S F IH]; intros a b P; [reflexivity|]. cbn [elements]. pose proof (record_elems a b r q P S) as H. unfold same_out in H.
  destruct (record_to_elems a r) as [[l a']| |], (record_to_elems b q) as [[k b']| |]; try contradiction; cbn [rbind fst snd].
  - destruct H as (-> & P'). rewrite (IH a' b' P'). reflexivity. - subst. reflexivity. - reflexivity.
Qed.
Lemma records_back ps tx ord rs : texts_ok ps tx -> any_orders ord -> Forall (fun r => record_in r /\ record_kept r) rs ->
  exists qs, all_of (de_record ps) (map (ser_record tx ord) rs) = Some qs /\ Forall2 same_record rs qs.
Proof. intros T O F. apply (list_back _ same_record (de_record ps) (ser_record tx ord) rs (fun r H => record_back ps tx ord r T O (proj1 H) (proj2 H)) F). Qed.
