(** Proofs about JSON forms of MRT records. *)
From Coq Require Import String ZifyBool ZifyNat ZifyN Lia Sorting.Permutation.
From Verif Require Import Tac Base BaseFacts Net NetSpec AsPath LinkState Attr BgpMsg Elem Text Filter FilterFacts TextDump Framing TableDump TableDumpSpec TableDumpFacts Bgp4mp MrtRecord Json JsonSpec JsonFacts JsonMsg JsonMsgSpec JsonMsgFacts JsonMsgReadFacts JsonRec JsonRecSpec.
Local Open Scope string_scope. Local Open Scope list_scope. Local Open Scope N_scope.

Lemma entry_type_ok n : etype_known n = true -> de_code entry_names (ser_code entry_names n) = Some n.
Proof. intros H. apply code_ok; [|reflexivity]. unfold etype_known in H. cbn in H. cbn. lia. Qed.
Lemma header_ok_ h : header_in h -> de_header (ser_header h) = Some h.
Proof.
  intros (H1 & H2 & H3 & H4 & H5). destruct h. obj. fld; [apply u32_ok; exact H1|]. ofld u32v; [exact u32_ok|auto|]. fld; [apply entry_type_ok; exact H3|].
  fld; [apply u16_ok; exact H4|]. fld; [apply u32_ok; exact H5|]. reflexivity.
Qed.
Lemma attrs_back ps tx ord a : texts_ok ps tx -> any_orders ord -> attrs_in_range a -> attrs_kept a ->
  de_attrs ps (ser_attrs tx (or_ls ord) a) = Some (attrs_of_list (at_inner a)).
Proof. intros T O. apply attrs_ok_; [exact T|apply O]. Qed.
Lemma dump_back ps tx ord d : texts_ok ps tx -> any_orders ord -> dump_in d -> attrs_kept (td_attrs d) ->
  exists e, de_dump ps (ser_dump tx ord d) = Some e /\ same_dump d e.
Proof.
  intros T O (H1 & H2 & H3 & H4 & H5 & H6 & H7 & H8) K. destruct d as [v q p s t i a x]. eexists. split.
  - obj. fld; [apply u16_ok; exact H1|]. fld; [apply u16_ok; exact H2|]. fld; [apply prefix_read; auto|]. fld; [apply u8_ok; exact H4|].
    fld; [apply u64_ok; exact H5|]. fld; [apply ip_ok_; auto|]. fld; [apply asn_ok; exact H7|]. fld; [apply attrs_back; [exact T|exact O|exact H8|exact K]|]. reflexivity.
  - eexists. split; [reflexivity|]. apply plain_list.
Qed.
Lemma list_back {A} (P : A -> Prop) (R : A -> A -> Prop) (d : json -> option A) s l : (forall a, P a -> exists b, d (s a) = Some b /\ R a b) -> Forall P l ->
  exists k, de_list d (ser_list s l) = Some k /\ Forall2 R l k.
Proof.
  intros H F. cbn [de_list ser_list]. induction F as [|a l Pa F (k & E & IH)]; [exists []; split; [reflexivity|constructor]|].
  destruct (H a Pa) as (b & Eb & Rb). exists (b :: k). cbn [map all_of]. rewrite Eb. cbn [obind]. rewrite E. split; [reflexivity|constructor; assumption].
Qed.
Lemma peer_flags_ok f : u8v f -> parse_peer_flags (show_peer_flags f) = Some f.
Proof.
  intros H. assert (E : match parse_peer_flags (show_peer_flags f) with Some g => g =? f | None => false end = true).
  { revert f H. apply (below_256 (fun f => match parse_peer_flags (show_peer_flags f) with Some g => g =? f | None => false end)). vm_compute. reflexivity. }
  destruct (parse_peer_flags (show_peer_flags f)); [|discriminate]. f_equal. lia.
Qed.
Lemma peer_flags_text f : u8v f -> show_peer_flags f = join (str " | ") (peer_words_of f).
Proof.
  intros H. apply bytes_eqb_eq. revert f H.
  apply (below_256 (fun f => bytes_eqb (show_peer_flags f) (join (str " | ") (peer_words_of f)))). vm_compute. reflexivity.
Qed.
Lemma peer_back ps tx p : texts_ok ps tx -> peer_in p -> de_peer ps (ser_peer tx p) = Some p.
Proof.
  intros T (H1 & H2 & H3 & H4). destruct p. obj. fld; [exact (peer_flags_ok _ H1)|]. fld; [apply ip4_ok; auto|]. fld; [apply ip_ok_; auto|].
  fld; [apply asn_ok; exact H4|]. reflexivity.
Qed.
Lemma index_ok n : u16v n -> read_index (dec n) = Some n.
Proof.
  intros H. unfold u16v in H. unfold read_index. rewrite parse_dec by lia. cbn [obind]. replace (n <? 2 ^ 16) with true by lia.
  rewrite (proj2 (bytes_eqb_eq (dec n) (dec n)) eq_refl). reflexivity.
Qed.
Definition put_all {K V} (eqb : K -> K -> bool) (es m : list (K * V)) : list (K * V) := fold_left (fun m kv => map_insert eqb (fst kv) (snd kv) m) es m.
Lemma insert_new {K V} (eqb : K -> K -> bool) (Heq : forall a b, eqb a b = true <-> a = b) k v (m : list (K * V)) :
  ~ In k (map fst m) -> map_insert eqb k v m = m ++ [(k, v)].
Proof.
  induction m as [|[k' v'] m IH]; cbn [map_insert map fst]; [reflexivity|]. intros H. destruct (eqb k k') eqn:E.
  - apply Heq in E. elim H. left. auto. - rewrite IH; [reflexivity|]. intros I. apply H. right. exact I.
Qed.
Lemma put_new {K V} (eqb : K -> K -> bool) (Heq : forall a b, eqb a b = true <-> a = b) (es : list (K * V)) :
  forall m, NoDup (map fst (m ++ es)) -> put_all eqb es m = m ++ es.
Proof.
  induction es as [|[k v] es IH]; intros m D; [symmetry; apply app_nil_r|]. unfold put_all. cbn [fold_left fst snd]. change (fold_left _ es ?m) with (put_all eqb es m).
  rewrite (insert_new eqb Heq).
  - rewrite IH; rewrite <- app_assoc; [reflexivity|exact D].
  - rewrite map_app in D. cbn [map fst] in D. apply NoDup_remove_2 in D. intros I. apply D. apply in_or_app. left. exact I.
Qed.
Lemma members_back {K V} (eqb : K -> K -> bool) (Heq : forall a b, eqb a b = true <-> a = b) (f : bytes * json -> option (K * V)) (s : K * V -> bytes * json) m es :
  (forall kv, In kv m -> f (s kv) = Some kv) -> NoDup (map fst m) -> Permutation es m -> de_members eqb f (JObject (map s es)) = Some es.
Proof.
  intros H D P. cbn [de_members]. rewrite all_of_id.
  - cbn [obind]. f_equal. apply (put_new eqb Heq es []). eapply Permutation_NoDup; [|exact D]. apply Permutation_map, Permutation_sym, P.
  - apply Forall_forall. intros kv I. apply H. eapply Permutation_in; eauto.
Qed.
Lemma ip_eqb_iff a b : ip_eqb a b = true <-> a = b.
Proof.
  destruct a, b; cbn [ip_eqb]; try (split; discriminate); rewrite N.eqb_eq; split; congruence.
Qed.
Lemma get_perm {K V} (eqb : K -> K -> bool) (Heq : forall a b, eqb a b = true <-> a = b) (m n : list (K * V)) k : NoDup (map fst m) -> Permutation n m ->
  map_get eqb k n = map_get eqb k m.
Proof.
  intros D P. assert (D' : NoDup (map fst n)). { eapply Permutation_NoDup; [|exact D]. apply Permutation_map, Permutation_sym, P. }
  destruct (map_get eqb k n) as [v|] eqn:E.
  - apply (map_get_in eqb Heq) in E; [|exact D']. symmetry. apply (map_get_in eqb Heq); [exact D|]. eapply Permutation_in; eauto.
  - symmetry. apply (map_get_none eqb Heq). apply (map_get_none eqb Heq) in E. intros I. apply E. eapply Permutation_in; [|exact I]. apply Permutation_map, Permutation_sym, P.
Qed.
Lemma table_back ps tx ord t : texts_ok ps tx -> any_orders ord -> table_in t -> exists u, de_table ps (ser_table tx ord t) = Some u /\ same_table t u.
Proof.
  intros T (_ & O1 & O2) (H1 & H2 & H3 & H4 & H5). destruct t as [c n pp ii]. cbn [pt_collector pt_name pt_peers pt_ids] in *. eexists. split.
  - obj. fld; [apply ip4_ok; auto|]. fld; [reflexivity|]. fld.
    { apply (members_back N.eqb N.eqb_eq _ _ pp); [|exact H2|apply O1]. intros [k p] I. rewrite Forall_forall in H3. destruct (H3 _ I) as (A & B). cbn [fst snd] in A, B.
      unfold de_peer_entry. cbn [fst snd]. rewrite index_ok by exact A. cbn [obind]. rewrite peer_back by auto. reflexivity. }
    fld.
    { apply (members_back ip_eqb ip_eqb_iff _ _ ii); [|exact H4|apply O2]. intros [k p] I. rewrite Forall_forall in H5. destruct (H5 _ I) as (A & B). cbn [fst snd] in A, B.
      unfold de_id_entry. cbn [fst snd]. change (ps_ip ps (tx_ip tx k)) with (de_ip ps (ser_ip tx k)). rewrite ip_ok_ by auto. cbn [obind]. rewrite u16_ok by exact B. reflexivity. }
    reflexivity.
  - unfold same_table, get_peer_by_id, get_peer_id_by_addr. cbn [pt_collector pt_name pt_peers pt_ids]. refine (conj eq_refl (conj eq_refl (conj _ (conj _ (conj _ _))))).
    + apply O1. + apply O2.
    + intros i. apply (get_perm N.eqb N.eqb_eq); [exact H2|apply O1]. + intros i. apply (get_perm ip_eqb ip_eqb_iff); [exact H4|apply O2].
Qed.
Lemma geo_back ps tx t : texts_ok ps tx -> geo_in t -> geo_finite t -> de_geo ps (ser_geo tx t) = Some t.
Proof.
  intros T (H1 & H2) (K1 & K2 & K3). destruct t as [c n a o l]. cbn [gt_collector gt_lat gt_lon gt_peers] in *. obj. fld; [apply ip4_ok; auto|]. fld; [reflexivity|].
  fld; [apply f32_read; exact K1|]. fld; [apply f32_read; exact K2|]. fld; [|reflexivity]. apply list_ok. rewrite Forall_forall in *. intros [p la lo] I.
  specialize (H2 _ I). specialize (K3 _ I). cbn [gp_peer gp_lat gp_lon] in *. obj. fld; [apply peer_back; auto|]. fld; [apply f32_read; tauto|]. fld; [apply f32_read; tauto|]. reflexivity.
Qed.
Lemma rib_type_ok n : 1 <= n <= 12 -> de_code rib_names (ser_code rib_names n) = Some n.
Proof. intros H. apply code_ok; [|reflexivity]. cbn. lia. Qed.
Lemma entry_back ps tx ord e : texts_ok ps tx -> any_orders ord -> entry_in e /\ attrs_kept (re_attrs e) ->
  exists f, de_rib_entry ps (ser_rib_entry tx ord e) = Some f /\ same_entry e f.
Proof.
  intros T O ((H1 & H2 & H3 & H4) & K). destruct e as [p t i a]. eexists. split.
  - obj. fld; [apply u16_ok; exact H1|]. fld; [apply u32_ok; exact H2|]. ofld u32v; [exact u32_ok|auto|].
    fld; [apply attrs_back; [exact T|exact O|exact H4|exact K]|]. reflexivity.
  - eexists. split; [reflexivity|]. apply plain_list.
Qed.
Lemma rib_back ps tx ord r : texts_ok ps tx -> any_orders ord -> rib_in r -> Forall (fun e => attrs_kept (re_attrs e)) (rb_entries r) ->
  exists q, de_rib ps (ser_rib tx ord r) = Some q /\ same_rib r q.
Proof.
  intros T O (H1 & H2 & H3 & H4) K. destruct r as [t q p l]. cbn [rb_type rb_seq rb_prefix rb_entries] in *.
  destruct (list_back _ same_entry (de_rib_entry ps) (ser_rib_entry tx ord) l (fun e => entry_back ps tx ord e T O)) as (k & E & F).
  { rewrite Forall_forall in *. auto. }
  eexists. split.
  - obj. fld; [apply rib_type_ok; auto|]. fld; [apply u32_ok; auto|]. fld; [apply prefix_read; auto|]. fld; [exact E|]. reflexivity.
  - eexists. split; [reflexivity|]. exact F.
Qed.
Lemma state_ok s : de_state (ser_state s) = Some s.
Proof. destruct s; reflexivity. Qed.
Lemma mp_type_ok n : mp_code n -> de_code mp_names (ser_code mp_names n) = Some n.
Proof. intros H. apply code_ok; [|reflexivity]. unfold mp_code in H. cbn. lia. Qed.
Lemma body_back ps tx ord m : texts_ok ps tx -> any_orders ord -> body_in m -> body_kept m -> exists n, de_body ps (ser_body tx ord m) = Some n /\ same_body m n.
Proof.
  intros T O H K. destruct m as [d|l|[t|r| |t]|[s|x]|[x|s]]; cbn [body_in body_kept mp_in legacy_in] in H, K; try contradiction.
  - destruct (dump_back ps tx ord d T O H K) as (e & E & S). exists (MrtDump e). split; [eapply variant_ok; [reflexivity|]; apply into_ok, E|exists e; auto].
  - destruct (list_back (fun d => dump_in d /\ attrs_kept (td_attrs d)) same_dump (de_dump ps) (ser_dump tx ord) l) as (k & E & S).
    { intros d (A & B). apply dump_back; auto. } { rewrite Forall_forall in *. auto. }
    exists (MrtDumps k). split; [eapply variant_ok; [reflexivity|]; apply into_ok, E|exists k; auto].
  - destruct (table_back ps tx ord t T O H) as (e & E & S). exists (MrtV2 (V2Peers e)).
    split; [eapply variant_ok; [reflexivity|]; apply into_ok; eapply variant_ok; [reflexivity|]; apply into_ok, E|exists e; auto].
  - destruct (rib_back ps tx ord r T O H K) as (e & E & S). exists (MrtV2 (V2Rib e)).
    split; [eapply variant_ok; [reflexivity|]; apply into_ok; eapply variant_ok; [reflexivity|]; apply into_ok, E|exists e; auto].
  - exists (MrtV2 (V2Geo t)). split; [|reflexivity]. eapply variant_ok; [reflexivity|]. apply into_ok. eapply variant_ok; [reflexivity|]. apply into_ok, geo_back; auto.
  - destruct H as (H1 & H2 & H3 & H4 & H5 & H6). exists (MrtBgp4mp (MpStateChange s)). split; [|reflexivity]. eapply variant_ok; [reflexivity|]. apply into_ok.
    eapply variant_ok; [reflexivity|]. apply into_ok. destruct s. obj. fld; [apply mp_type_ok; auto|]. do 2 (fld; [apply asn_ok; auto|]). fld; [apply u16_ok; auto|].
    do 2 (fld; [apply ip_ok_; auto|]). do 2 (fld; [apply state_ok|]). reflexivity.
  - destruct H as (H1 & H2 & H3 & H4 & H5 & H6 & H7). destruct x as [t a b i p q m]. cbn [mm_bgp] in *. destruct (msg_ok_ ps tx (or_ls ord) m T (proj1 O) H7 K) as (n & E & S).
    eexists. split.
    + eapply variant_ok; [reflexivity|]. apply into_ok. eapply variant_ok; [reflexivity|]. apply into_ok. obj. fld; [apply mp_type_ok; auto|]. do 2 (fld; [apply asn_ok; auto|]).
      fld; [apply u16_ok; auto|]. do 2 (fld; [apply ip_ok_; auto|]). fld; [exact E|]. reflexivity.
    + exists n. split; [reflexivity|exact S].
  - destruct H as (H1 & H2 & H3 & H4 & H7). destruct x as [a p b q m]. cbn [lg_bgp] in *. destruct (msg_ok_ ps tx (or_ls ord) m T (proj1 O) H7 K) as (n & E & S).
    eexists. split.
    + eapply variant_ok; [reflexivity|]. apply into_ok. eapply variant_ok; [reflexivity|]. apply into_ok. obj. fld; [apply asn_ok; auto|]. fld; [apply ip_ok_; auto|].
      fld; [apply asn_ok; auto|]. fld; [apply ip_ok_; auto|]. fld; [exact E|]. reflexivity.
    + exists n. split; [reflexivity|exact S].
  - destruct H as (H1 & H2). exists (MrtLegacy (LgStateChange s)). split; [|reflexivity]. eapply variant_ok; [reflexivity|]. apply into_ok.
    eapply variant_ok; [reflexivity|]. apply into_ok. destruct s. obj. fld; [apply asn_ok; auto|]. fld; [apply ip_ok_; auto|]. do 2 (fld; [apply state_ok|]). reflexivity.
Qed.
Lemma record_back ps tx ord r : texts_ok ps tx -> any_orders ord -> record_in r -> record_kept r -> exists q, de_record ps (ser_record tx ord r) = Some q /\ same_record r q.
Proof.
  intros T O (H1 & H2) K. destruct r as [h m]. cbn [mr_hdr mr_msg] in *. destruct (body_back ps tx ord m T O H2 K) as (n & E & S). eexists. split.
  - obj. fld; [apply header_ok_; exact H1|]. fld; [exact E|]. reflexivity.
  - split; [reflexivity|exact S].
Qed.
