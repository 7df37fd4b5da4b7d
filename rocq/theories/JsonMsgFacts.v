(** Proofs about JSON forms of NLRI, attributes and messages. *)
From Coq Require Import String ZifyBool ZifyNat ZifyN Lia Sorting.Permutation.
From Verif Require Import Tac Base BaseFacts Net NetSpec AsPath Community Mpls FlowSpec Tlv LinkState LinkStateSpec LinkStateFacts Nlri Attr Cap BgpError BgpMsg Elem Text Filter TextDump Json JsonSpec JsonFacts JsonMsg JsonMsgSpec.
Local Open Scope string_scope. Local Open Scope list_scope. Local Open Scope N_scope.

Lemma obind_some {A B} (x : option A) (f : A -> option B) a r : x = Some a -> f a = r -> obind x f = r.
Proof. intros -> H. exact H. Qed.
Lemma field_ok {A} k (d : json -> option A) l j a : jget (str k) l = Some j -> d j = Some a -> field k d l = Some a.
Proof. unfold field. intros -> H. exact H. Qed.
Lemma opt_field_ok {A} k (d : json -> option A) g l o : jget (str k) l = Some (jopt g o) -> (forall a, g a <> JNull) -> opt_all (fun a => d (g a) = Some a) o ->
  opt_field k d l = Some o.
Proof. unfold opt_field. intros -> H1 H2. apply option_read; assumption. Qed.
Lemma list_ok {A} (d : json -> option A) s l : Forall (fun a => d (s a) = Some a) l -> de_list d (ser_list s l) = Some l.
Proof. exact (all_of_id d s l). Qed.
Lemma list_law {A} (P : A -> Prop) (d : json -> option A) s l : (forall a, P a -> d (s a) = Some a) -> Forall P l -> de_list d (ser_list s l) = Some l.
Proof. intros H F. apply list_ok. eapply Forall_impl; [|exact F]. exact H. Qed.
Lemma opt_law {A} (P : A -> Prop) (d : json -> option A) s o : (forall a, P a -> d (s a) = Some a) -> opt_all P o -> opt_all (fun a => d (s a) = Some a) o.
Proof. intros H. destruct o; cbn; auto. Qed.
Lemma variant_ok {A} (t : list (string * (json -> option A))) k v f r : lookup (str k) t = Some f -> f v = r -> de_variant t (tagged k v) = r.
Proof. unfold de_variant. cbn [tagged jobj map de_tag obind fst snd]. intros -> H. exact H. Qed.
Lemma octets_ok b : bytes_ok b -> de_octets (ser_bytes b) = Some b.
Proof. exact (de_list_num 256 b). Qed.
Lemma into_ok {A B} (d : json -> option A) (g : A -> B) j a : d j = Some a -> de_into d g j = Some (g a).
Proof. unfold de_into. intros ->. reflexivity. Qed.
Lemma unit_ok {A} (name : A -> string) all a : find (fun x => bytes_eqb (str (name a)) (str (name x))) all = Some a -> de_unit name all (ser_unit name a) = Some a.
Proof. exact (fun H => H). Qed.
Lemma code_ok names n : In n (map fst names) -> forallb (fun c => match de_code names (ser_code names c) with Some d => d =? c | None => false end) (map fst names) = true ->
  de_code names (ser_code names n) = Some n.
Proof.
  intros I H. rewrite forallb_forall in H. specialize (H n I). destruct (de_code names (ser_code names n)) as [d|]; [|discriminate]. f_equal. lia.
Qed.
Lemma pair_ok {A B} (f : json -> option A) (g : json -> option B) x y a b : f x = Some a -> g y = Some b -> de_pair f g (JList [x; y]) = Some (a, b).
Proof. unfold de_pair. intros -> ->. reflexivity. Qed.

(** Steps through a reader of an object. *)
Ltac obj := eapply obind_some; [reflexivity|]; cbv beta.
Ltac fld := eapply obind_some; [eapply field_ok; [reflexivity|]|]; cbv beta.
Ltac ofld P := eapply obind_some; [eapply opt_field_ok; [reflexivity|first [discriminate|let x := fresh in intros x; destruct x; discriminate]|apply (opt_law P)]|]; cbv beta.

Lemma u8_ok n : u8v n -> de_byte (JNum n) = Some n. Proof. exact (de_num_ok 256 n). Qed.
Lemma u16_ok n : u16v n -> de_u16 (JNum n) = Some n. Proof. exact (de_num_ok (2 ^ 16) n). Qed.
Lemma u32_ok n : u32v n -> de_u32 (JNum n) = Some n. Proof. exact (de_num_ok (2 ^ 32) n). Qed.
Lemma asn_ok n : u32v n -> de_asn (ser_asn n) = Some n. Proof. exact (de_num_ok (2 ^ 32) n). Qed.
Lemma u64_ok n : u64v n -> de_u64 (JNum n) = Some n. Proof. exact (de_num_ok (2 ^ 64) n). Qed.
Lemma ip_ok_ ps tx i : texts_ok ps tx -> ip_ok i -> de_ip ps (ser_ip tx i) = Some i. Proof. intros T. exact (proj1 T i). Qed.
Lemma ip4_ok ps tx n : texts_ok ps tx -> u32v n -> de_ip4 ps (ser_ip4 tx n) = Some n. Proof. intros T. exact (proj1 (proj2 T) n). Qed.
Lemma ip6_ok ps tx n : texts_ok ps tx -> u128v n -> de_ip6 ps (ser_ip6 tx n) = Some n.
Proof. intros T H. unfold de_ip6. change (de_ip ps (ser_ip6 tx n)) with (ps_ip ps (tx_ip tx (V6 n))). rewrite (proj1 T (V6 n)) by exact H. reflexivity. Qed.
Lemma net_ok_ ps tx n : texts_ok ps tx -> net_ok n -> de_net ps (ser_net tx n) = Some n. Proof. intros T. exact (proj2 (proj2 T) n). Qed.
Lemma afi_ok a : de_afi (ser_afi a) = Some a. Proof. destruct a; reflexivity. Qed.
Lemma safi_ok a : de_safi (ser_safi a) = Some a. Proof. destruct a; reflexivity. Qed.
Lemma rd_ok n : u64v n -> de_rd (ser_rd n) = Some n.
Proof.
  intros H. unfold de_rd, ser_rd. rewrite de_bytes by (split; [apply nlen_be|apply be_ok]). cbn [obind]. f_equal. apply be_val_be_small. exact H.
Qed.
Lemma hop_ok ps tx h : texts_ok ps tx -> hop_ranged h -> de_nexthop ps (ser_nexthop tx h) = Some h.
Proof.
  intros T. destruct h; cbn [hop_ranged ser_nexthop]; intros H; (eapply variant_ok; [reflexivity|]); cbv beta.
  - rewrite ip4_ok by auto. reflexivity.
  - rewrite ip6_ok by auto. reflexivity.
  - destruct H. erewrite pair_ok by eauto using ip6_ok. reflexivity.
  - destruct H. erewrite pair_ok by eauto using ip6_ok, rd_ok. reflexivity.
  - destruct H as (H1 & H2 & H3 & H4). rewrite !rd_ok, !ip6_ok by auto. reflexivity.
Qed.
Lemma label_ok l : l < 2 ^ 20 -> de_label (ser_label l) = Some l.
Proof.
  intros H. unfold de_label, ser_label, de_u32. rewrite de_num_ok by lia. cbn [obind]. unfold label_try_new, MAX_LABEL.
  destruct (N.ltb_spec 0xFFFFF l); [lia|reflexivity].
Qed.
Lemma labeled_ok ps tx p : texts_ok ps tx -> labeled_ranged p -> de_labeled ps (ser_labeled tx p) = Some p.
Proof.
  intros T (H1 & H2 & H3). destruct p as [n ls i]. cbn [lp_net lp_labels lp_id] in *. obj. fld; [apply net_ok_; auto|]. fld; [eapply list_law; [exact label_ok|exact H2]|].
  ofld u32v; [exact u32_ok|auto|]. reflexivity.
Qed.
Lemma numop_ok o : num_ranged o -> de_numop (ser_numop o) = Some o.
Proof. intros (H1 & H2). destruct o. obj. fld; [reflexivity|]. fld; [reflexivity|]. fld; [apply u8_ok; auto|]. do 3 (fld; [reflexivity|]). fld; [apply u64_ok; auto|]. reflexivity. Qed.
Lemma bitop_ok o : bit_ranged o -> de_bitop (ser_bitop o) = Some o.
Proof. intros (H1 & H2). destruct o. obj. fld; [reflexivity|]. fld; [reflexivity|]. fld; [apply u8_ok; auto|]. do 2 (fld; [reflexivity|]). fld; [apply u64_ok; auto|]. reflexivity. Qed.
Lemma offset_ok ps tx o p : texts_ok ps tx -> u8v o -> prefix_ok p -> de_offset ps (ser_offset tx o p) = Some (o, p).
Proof. intros T H1 H2. obj. fld; [apply u8_ok; auto|]. fld; [apply prefix_read; auto|]. reflexivity. Qed.
Lemma comp_ok ps tx c : texts_ok ps tx -> comp_ranged c -> de_comp ps (ser_comp tx c) = Some c.
Proof.
  intros T. destruct c; cbn [comp_ranged ser_comp]; intros H; (eapply variant_ok; [reflexivity|]); cbv beta; unfold de_numops, de_bitops;
    try (rewrite prefix_read by auto; reflexivity);
    try (erewrite list_law by (try exact H; first [exact numop_ok|exact bitop_ok]); reflexivity);
    destruct H; rewrite offset_ok by auto; reflexivity.
Qed.
Lemma flow_ok ps tx l : texts_ok ps tx -> Forall comp_ranged l -> de_flow ps (ser_flow tx l) = Some l.
Proof. intros T H. obj. eapply field_ok; [reflexivity|]. eapply list_law; [|exact H]. intros c. apply comp_ok. exact T. Qed.
Lemma tlv_law b t : tlv_ranged b t -> de_tlv b (ser_tlv t) = Some t.
Proof. intros (H1 & H2). destruct t. obj. fld; [apply de_num_ok; exact H1|]. fld; [apply octets_ok; exact H2|]. reflexivity. Qed.
Lemma tlvs_law b l : Forall (tlv_ranged b) l -> de_list (de_tlv b) (ser_list ser_tlv l) = Some l.
Proof. apply list_law. exact (tlv_law b). Qed.
Lemma ls_type_ok n : n <= 7 -> de_code nlri_type_names (ser_code nlri_type_names n) = Some n.
Proof. intros H. apply code_ok; [|reflexivity]. cbn. lia. Qed.
Lemma protocol_ok n : n <= 9 -> de_code protocol_names (ser_code protocol_names n) = Some n.
Proof. intros H. apply code_ok; [|reflexivity]. cbn. lia. Qed.
Lemma tunnel_type_ok n : n <= 22 -> de_code tunnel_names (ser_code tunnel_names n) = Some n.
Proof. intros H. apply code_ok; [|reflexivity]. cbn. lia. Qed.
Lemma sub_type_ok n : n <= 20 \/ n = 128 \/ n = 129 -> de_code sub_names (ser_code sub_names n) = Some n.
Proof. intros H. apply code_ok; [|reflexivity]. cbn. lia. Qed.
Lemma node_ok d : node_ranged d -> de_node (ser_node d) = Some d.
Proof.
  intros (H1 & H2 & H3 & H4 & H5). destruct d. obj. do 3 (ofld u32v; [exact u32_ok|auto|]). ofld bytes_ok; [exact octets_ok|auto|].
  fld; [apply tlvs_law; exact H5|]. reflexivity.
Qed.
Lemma link_ok ps tx d : texts_ok ps tx -> link_ranged d -> de_link ps (ser_link tx d) = Some d.
Proof.
  intros T (H1 & H2 & H3 & H4 & H5 & H6 & H7). destruct d. obj.
  ofld (fun p => u32v (fst p) /\ u32v (snd p)); [intros [a b] [A B]; apply pair_ok; apply u32_ok; auto|auto|].
  do 2 (ofld u32v; [intros; apply ip4_ok; auto|auto|]). do 2 (ofld u128v; [intros; apply ip6_ok; auto|auto|]). ofld u16v; [exact u16_ok|auto|].
  fld; [apply tlvs_law; exact H7|]. reflexivity.
Qed.
Lemma reach_ok ps tx n : texts_ok ps tx -> net_ok n -> de_reach ps (ser_reach tx n) = Some n.
Proof. intros T H. unfold de_reach, ser_reach. rewrite prefix_read; [reflexivity|auto|split; [exact H|exact I]]. Qed.
Lemma pdesc_ok ps tx d : texts_ok ps tx -> pdesc_ranged d -> de_pdesc ps (ser_pdesc tx d) = Some d.
Proof.
  intros T (H1 & H2 & H3 & H4). destruct d. obj. ofld u16v; [exact u16_ok|auto|]. ofld u8v; [exact u8_ok|auto|].
  ofld net_ok; [intros; apply reach_ok; auto|auto|]. fld; [apply tlvs_law; exact H4|]. reflexivity.
Qed.
Lemma ls_ok_ ps tx n : texts_ok ps tx -> ls_ranged n -> de_ls ps (ser_ls tx n) = Some n.
Proof.
  intros T (H1 & H2 & H3 & H4 & H5 & H6 & H7). destruct n. obj. fld; [apply ls_type_ok; auto|]. fld; [apply protocol_ok; auto|]. fld; [apply u64_ok; auto|].
  fld; [apply node_ok; auto|]. ofld node_ranged; [exact node_ok|auto|]. ofld link_ranged; [intros; apply link_ok; auto|auto|].
  ofld pdesc_ranged; [intros; apply pdesc_ok; auto|auto|]. reflexivity.
Qed.
Lemma nlri_ok_ ps tx n : texts_ok ps tx -> nlri_ranged n -> de_nlri ps (ser_nlri tx n) = Some n.
Proof.
  intros T (H1 & H2 & H3 & H4 & H5). destruct n. obj. fld; [apply afi_ok|]. fld; [apply safi_ok|].
  ofld hop_ranged; [intros; apply hop_ok; auto|auto|]. fld; [eapply list_law; [|exact H2]; intros; apply prefix_read; auto|].
  ofld (Forall labeled_ranged); [intros l L; eapply list_law; [|exact L]; intros; apply labeled_ok; auto|auto|].
  ofld (Forall ls_ranged); [intros l L; eapply list_law; [|exact L]; intros; apply ls_ok_; auto|auto|].
  ofld (Forall (Forall comp_ranged)); [intros l L; eapply list_law; [|exact L]; intros; apply flow_ok; auto|auto|]. reflexivity.
Qed.

(** * Maps *)
Lemma entries_ok names m : Forall (fun kv => In (fst kv) (map fst names) /\ bytes_ok (snd kv)) m ->
  forallb (fun c => match de_code names (ser_code names c) with Some d => d =? c | None => false end) (map fst names) = true ->
  all_of (de_entry names) (map (fun kv => (str (code_name names (fst kv)), ser_bytes (snd kv))) m) = Some m.
Proof.
  intros F H. apply all_of_id. eapply Forall_impl; [|exact F]. intros [k v] [I B]. unfold de_entry. cbn [fst snd] in *.
  eapply obind_some; [exact (code_ok names k I H)|]. cbv beta. rewrite octets_ok by exact B. reflexivity.
Qed.
Lemma kget_none k m : ~ In k (map fst m) -> kget k m = None.
Proof. induction m as [|[y u] m IH]; [reflexivity|]. cbn [kget map fst]. intros H. destruct (N.eqb_spec k y) as [->|]; [elim H; left; reflexivity|]. apply IH. intros I. apply H. right. exact I. Qed.
Definition insert_all (es m : kmap) : kmap := fold_left (fun m kv => kinsert (fst kv) (snd kv) m) es m.
Lemma insert_all_incr es : forall m, increasing_keys m -> increasing_keys (insert_all es m).
Proof. induction es as [|[k v] es IH]; intros m H; [exact H|]. apply IH. apply kinsert_incr. exact H. Qed.
Lemma insert_all_get es : NoDup (map fst es) -> forall m k, kget k (insert_all es m) = match kget k es with Some v => Some v | None => kget k m end.
Proof.
  induction es as [|[x w] es IH]; cbn [map]; intros D m k; [reflexivity|]. inversion D as [|? ? D1 D2]; subst. cbn [insert_all fold_left].
  change (fold_left _ es ?m) with (insert_all es m). rewrite IH by exact D2. cbn [fst snd kget]. rewrite kget_insert. destruct (N.eqb_spec k x) as [->|E].
  - rewrite (kget_none x es D1). reflexivity.
  - reflexivity.
Qed.
Lemma incr_nodup m : increasing_keys m -> NoDup (map fst m).
Proof.
  induction m as [|[k v] m IH]; cbn [increasing_keys map]; [constructor|]. intros (H1 & H2). constructor; [|auto]. intros I. apply in_map_iff in I.
  destruct I as (kv & E & I). rewrite Forall_forall in H1. specialize (H1 kv I). cbn [fst] in *. lia.
Qed.
Lemma kget_nodup k v m : NoDup (map fst m) -> (kget k m = Some v <-> In (k, v) m).
Proof.
  induction m as [|[y u] m IH]; cbn [map kget]; intros D; [split; [discriminate|contradiction]|]. inversion D as [|? ? D1 D2]; subst. cbn [fst] in *.
  destruct (N.eqb_spec k y) as [->|E]; split.
  - intros X. left. congruence.
  - intros [X|X]; [congruence|]. elim D1. change y with (fst (y, v)). apply in_map. exact X.
  - intros X. right. apply IH; auto.
  - intros [X|X]; [congruence|]. apply IH; auto.
Qed.
Lemma incr_ext m m' : increasing_keys m -> increasing_keys m' -> (forall k, kget k m = kget k m') -> m = m'.
Proof.
  revert m'. induction m as [|[k v] m IH]; intros [|[k' v'] m'] H H' E.
  - reflexivity.
  - specialize (E k'). cbn [kget] in E. rewrite N.eqb_refl in E. discriminate.
  - specialize (E k). cbn [kget] in E. rewrite N.eqb_refl in E. discriminate.
  - destruct H as (F & H), H' as (F' & H').
    assert (B : forall m k, Forall (fun kv => k < fst kv) m -> kget k m = None).
    { clear. intros m k F. apply kget_none. intros I. apply in_map_iff in I. destruct I as (kv & <- & I). rewrite Forall_forall in F. specialize (F kv I). lia. }
    assert (B' : forall (m : kmap) a b, Forall (fun kv => a < fst kv) m -> b < a -> kget b m = None).
    { clear -B. intros m a b F L. apply B. eapply Forall_impl; [|exact F]. cbn. intros. lia. }
    assert (k = k').
    { destruct (N.lt_trichotomy k k') as [L|[L|L]]; [|exact L|].
      - specialize (E k). cbn [kget] in E. rewrite N.eqb_refl in E. destruct (N.eqb_spec k k'); [lia|]. rewrite (B' m' k' k F' L) in E. discriminate.
      - specialize (E k'). cbn [kget] in E. rewrite N.eqb_refl in E. destruct (N.eqb_spec k' k); [lia|]. rewrite (B' m k k' F L) in E. discriminate. }
    subst k'. f_equal.
    + specialize (E k). cbn [kget] in E. rewrite N.eqb_refl in E. congruence.
    + apply IH; auto. intros x. specialize (E x). cbn [kget] in E. destruct (N.eqb_spec x k) as [X|X]; [rewrite X|exact E].
      rewrite (B m k F), (B m' k F'). reflexivity.
Qed.
Lemma insert_perm m es : increasing_keys m -> Permutation es m -> insert_all es [] = m.
Proof.
  intros H P. apply incr_ext; [apply insert_all_incr; exact I|exact H|]. intros k.
  assert (D : NoDup (map fst es)). { eapply Permutation_NoDup; [|exact (incr_nodup m H)]. apply Permutation_sym, Permutation_map, P. }
  rewrite insert_all_get by exact D. cbn [kget]. transitivity (kget k es); [destruct (kget k es); reflexivity|].
  destruct (kget k es) as [v|] eqn:E.
  - apply kget_nodup in E; [|exact D]. symmetry. apply kget_nodup; [apply incr_nodup; exact H|]. eapply Permutation_in; eauto.
  - symmetry. apply kget_none. intros I. apply in_map_iff in I. destruct I as ([k' v] & <- & I). cbn [fst] in E.
    apply (Permutation_in (l' := es)) in I; [|apply Permutation_sym; exact P]. apply (kget_nodup k' v es D) in I. congruence.
Qed.
Lemma map_law names ord m types : any_order ord -> keyed types m -> map fst names = types ->
  forallb (fun c => match de_code names (ser_code names c) with Some d => d =? c | None => false end) (map fst names) = true ->
  de_map names (ser_map names ord m) = Some m.
Proof.
  intros O (H1 & H2) <- H. unfold de_map, ser_map. rewrite entries_ok; [|rewrite Forall_forall in *; intros kv I; apply H2; eapply Permutation_in; [apply O|exact I]|exact H].
  cbn [obind]. f_equal. apply insert_perm; [exact H1|apply O].
Qed.
Lemma keyed_sub types types' m : (forall k, In k types -> In k types') -> keyed types m -> keyed types' m.
Proof. intros S (H1 & H2). split; [exact H1|]. eapply Forall_impl; [|exact H2]. intros kv (A & B). auto. Qed.
Lemma ls_attr_ok ord a : any_order ord -> ls_attr_ranged a -> de_ls_attr (ser_ls_attr ord a) = Some a.
Proof.
  intros O (H1 & H2 & H3 & H4). destruct a. obj. fld; [eapply map_law; [exact O|exact H1|reflexivity|vm_compute; reflexivity]|].
  fld; [eapply map_law; [exact O|eapply keyed_sub; [|exact H2]|reflexivity|vm_compute; reflexivity]|].
  { cbn. intros k. intuition auto. }
  fld; [eapply map_law; [exact O|exact H3|reflexivity|vm_compute; reflexivity]|]. fld; [apply tlvs_law; exact H4|]. reflexivity.
Qed.

(** * Attributes *)
Lemma sub_tlv_ok t : sub_ranged t -> de_sub_tlv (ser_sub_tlv t) = Some t.
Proof. intros (H1 & H2). destruct t. obj. fld; [apply sub_type_ok; exact H1|]. fld; [apply octets_ok; exact H2|]. reflexivity. Qed.
Lemma tunnel_ok t : tunnel_ranged t -> de_tunnel (ser_tunnel t) = Some t.
Proof. intros (H1 & H2). destruct t. obj. fld; [apply tunnel_type_ok; exact H1|]. fld; [eapply list_law; [exact sub_tlv_ok|exact H2]|]. reflexivity. Qed.
Lemma tunnels_ok l : Forall tunnel_ranged l -> de_tunnels (ser_tunnels l) = Some l.
Proof. intros H. obj. eapply field_ok; [reflexivity|]. eapply list_law; [exact tunnel_ok|exact H]. Qed.
Lemma singles_ok l : nlen l = 8 -> Forall single_finite l -> de_array 8 de_f32 (ser_list ser_f32 l) = Some l.
Proof.
  intros H F. unfold de_array. rewrite (list_law single_finite de_f32 ser_f32 l f32_read F). cbn [obind]. unfold nlen in H. replace (Nat.eqb (length l) 8) with true by lia. reflexivity.
Qed.
Lemma te_ok t : te_ranged t -> Forall single_finite (te_bw t) -> de_te (ser_te t) = Some t.
Proof.
  intros (H1 & H2 & H3 & H4 & H5) F. destruct t. obj. do 2 (fld; [apply u8_ok; auto|]). fld; [apply u16_ok; auto|]. fld.
  { apply singles_ok; [exact H4|exact F]. }
  fld; [apply octets_ok; auto|]. reflexivity.
Qed.
Lemma bfd_ok b : u8v (bfd_mode b) -> u32v (bfd_disc b) -> Forall (tlv_ranged 256) (bfd_tlvs b) -> de_bfd (ser_bfd b) = Some b.
Proof. intros H1 H2 H3. destruct b. obj. fld; [apply u8_ok; auto|]. fld; [apply u32_ok; auto|]. fld; [apply tlvs_law; exact H3|]. reflexivity. Qed.
Lemma tlvs_ok b l : Forall (tlv_ranged b) l -> de_tlvs b (ser_tlvs l) = Some l.
Proof. intros H. obj. eapply field_ok; [reflexivity|]. apply tlvs_law. exact H. Qed.
Lemma aigp_tlv_ok t : aigp_ranged t -> de_aigp_tlv (ser_aigp_tlv t) = Some t.
Proof. intros (H1 & H2 & H3). destruct t. obj. fld; [apply u8_ok; auto|]. fld; [apply u16_ok; auto|]. fld; [apply octets_ok; auto|]. reflexivity. Qed.
Lemma aigp_ok l : Forall aigp_ranged l -> de_aigp (ser_aigp l) = Some l.
Proof. intros H. obj. eapply field_ok; [reflexivity|]. eapply list_law; [exact aigp_tlv_ok|exact H]. Qed.
Lemma aggr_ok ps tx a i : texts_ok ps tx -> u32v a -> u32v i -> de_aggr ps (ser_aggr tx a i) = Some (a, i).
Proof. intros T H1 H2. obj. fld; [apply asn_ok; auto|]. fld; [apply ip4_ok; auto|]. reflexivity. Qed.
Lemma plain_ok c : meta_ranged (MPlain c) -> de_plain (ser_plain c) = Some c.
Proof.
  destruct c; try reflexivity. cbn [meta_ranged]. intros (H1 & H2). unfold de_plain, ser_plain. cbn [jobj map de_tag obind fst snd].
  change (bytes_eqb (str "Custom") (str "Custom")) with true. cbv iota. unfold de_asn, ser_asn. rewrite !de_num_ok by assumption. reflexivity.
Qed.
Lemma value_ok ps tx ord v : texts_ok ps tx -> any_order ord -> av_ranged v -> av_kept v -> de_value ps (ser_value tx ord v) = Some v.
Proof.
  intros T O H K. destruct v; cbn [av_ranged av_kept] in H, K; try contradiction; cbn [ser_value]; try reflexivity;
    (unfold de_value; cbn [tagged jobj map]; change (de_variant ?t (JObject [(str (fst (?k, ?v)), snd _)])) with (de_variant t (tagged k v));
     eapply variant_ok; [reflexivity|]); try (apply into_ok).
  all: try (apply u32_ok; exact H); try (apply asn_ok; exact H); try (apply octets_ok; exact H).
  - destruct o; reflexivity.
  - apply path_roundtrip; auto.
  - apply path_roundtrip; auto.
  - apply ip_ok_; auto.
  - destruct H. erewrite into_ok by (apply aggr_ok; eauto). reflexivity.
  - destruct H. erewrite into_ok by (apply aggr_ok; eauto). reflexivity.
  - eapply list_law; [exact plain_ok|exact H].
  - apply list_ok. rewrite Forall_forall in *. intros x X. apply ext_read; auto.
  - eapply list_law; [|exact H]. intros c C. apply ipv6_read; auto.
  - eapply list_law; [|exact H]. intros c C. apply large_read; auto.
  - apply ip4_ok; auto.
  - eapply list_law; [exact u32_ok|exact H].
  - apply nlri_ok_; auto.
  - apply nlri_ok_; auto.
  - apply ls_attr_ok; auto.
  - apply tunnels_ok; auto.
  - apply te_ok; auto.
  - destruct H as (H1 & H2 & H3). apply bfd_ok; auto.
  - apply tlvs_ok; auto.
  - apply tlvs_ok; auto.
  - apply tlvs_ok; auto.
  - erewrite into_ok by (apply raw_read; exact H). reflexivity.
  - erewrite into_ok by (apply raw_read; exact H). reflexivity.
  - erewrite into_ok by (apply raw_read; exact H). reflexivity.
  - apply aigp_ok; auto.
Qed.
Lemma below_256 (Q : N -> bool) : forallb Q (map N.of_nat (seq 0 256)) = true -> forall f, f < 256 -> Q f = true.
Proof.
  intros H f L. rewrite forallb_forall in H. apply H. rewrite <- (N2Nat.id f). apply in_map. apply in_seq. lia.
Qed.
Lemma flags_ok f : u8v f -> de_flags (ser_flags f) = Some f.
Proof.
  intros H. assert (E : match parse_flags (show_flags f) with Some g => g =? f | None => false end = true).
  { revert f H. apply (below_256 (fun f => match parse_flags (show_flags f) with Some g => g =? f | None => false end)). vm_compute. reflexivity. }
  unfold de_flags, ser_flags. cbn [de_text obind]. destruct (parse_flags (show_flags f)); [|discriminate]. f_equal. lia.
Qed.
Lemma flags_text f : u8v f -> ser_flags f = JText (join (str " | ") (flag_words_of f)).
Proof.
  intros H. unfold ser_flags. f_equal. apply bytes_eqb_eq. revert f H.
  apply (below_256 (fun f => bytes_eqb (show_flags f) (join (str " | ") (flag_words_of f)))). vm_compute. reflexivity.
Qed.
Lemma attr_ok_ ps tx ord a : texts_ok ps tx -> any_order ord -> attr_in a -> attr_kept a -> de_attr ps (ser_attr tx ord a) = Some a.
Proof. intros T O (H1 & H2) K. destruct a. obj. fld; [apply value_ok; eauto|]. fld; [apply flags_ok; auto|]. reflexivity. Qed.
Lemma attrs_ok_ ps tx ord a : texts_ok ps tx -> any_order ord -> Forall attr_in (at_inner a) -> Forall attr_kept (at_inner a) ->
  de_attrs ps (ser_attrs tx ord a) = Some (attrs_of_list (at_inner a)).
Proof.
  intros T O H K. unfold de_attrs, ser_attrs. rewrite list_ok; [reflexivity|]. rewrite Forall_forall in *. intros x X. apply attr_ok_; auto.
Qed.
Lemma mask_fold l : forall m c, N.testbit (fold_left (fun m x => N.setbit m (attr_code (a_value x))) l m) c = true <->
  N.testbit m c = true \/ exists x, In x l /\ attr_code (a_value x) = c.
Proof.
  induction l as [|a l IH]; intros m c; cbn [fold_left In].
  - split; [auto|]. intros [H|(x & [] & _)]. exact H.
  - rewrite IH. rewrite N.setbit_eqb. split.
    + intros [H|(x & I & E)]; [|right; eauto]. destruct (N.eqb_spec (attr_code (a_value a)) c); [right; eauto|left; exact H].
    + intros [H|(x & [->|I] & E)]; [left; rewrite H; apply Bool.orb_true_r|left; rewrite E, N.eqb_refl; reflexivity|right; eauto].
Qed.
Lemma plain_list l : plain_attrs l (attrs_of_list l).
Proof.
  split; [reflexivity|]. split; [reflexivity|]. intros c. unfold has_attr, attrs_of_list, compute_mask. cbn [at_mask]. rewrite mask_fold.
  rewrite N.bits_0. split; [intros [H|H]; [discriminate|exact H]|auto].
Qed.

(** * Messages *)
Lemma cap_type_ok n : u8v n -> de_cap_type (ser_cap_type n) = Some n.
Proof.
  intros H. unfold ser_cap_type. destruct (existsb (N.eqb n) (map fst cap_names)) eqn:E.
  - apply existsb_exists in E. destruct E as (k & I & E). apply N.eqb_eq in E. subst k. unfold de_cap_type. unfold ser_code at 1, ser_unit at 1.
    change (JText (str (code_name cap_names n))) with (ser_code cap_names n). apply code_ok; [exact I|vm_compute; reflexivity].
  - unfold de_cap_type. cbn [tagged jobj map]. change (JObject [(str (fst ("Unknown", JNum n)), snd ("Unknown", JNum n))]) with (tagged "Unknown" (JNum n)).
    eapply variant_ok; [reflexivity|]. apply u8_ok. exact H.
Qed.
Lemma enh_ok e : de_enh (ser_enh e) = Some e.
Proof. destruct e. obj. fld; [apply afi_ok|]. fld; [apply safi_ok|]. fld; [apply afi_ok|]. reflexivity. Qed.
Lemma gr_ok e : de_gr (ser_gr e) = Some e.
Proof. destruct e. obj. fld; [apply afi_ok|]. fld; [apply safi_ok|]. fld; [reflexivity|]. reflexivity. Qed.
Lemma ap_ok e : de_ap (ser_ap e) = Some e.
Proof. destruct e as [a s m]. obj. fld; [apply afi_ok|]. fld; [apply safi_ok|]. fld; [|reflexivity]. destruct m; reflexivity. Qed.
Lemma list_all {A} (d : json -> option A) s l : (forall a, d (s a) = Some a) -> de_list d (ser_list s l) = Some l.
Proof. intros H. apply list_ok. apply Forall_forall. auto. Qed.
Lemma cap_value_ok v : cv_ranged v -> de_cap_value (ser_cap_value v) = Some v.
Proof.
  destruct v; cbn [cv_ranged ser_cap_value]; intros H; (eapply variant_ok; [reflexivity|]); cbv beta.
  - apply into_ok, octets_ok, H.
  - obj. fld; [apply afi_ok|]. fld; [apply safi_ok|]. reflexivity.
  - reflexivity.
  - obj. fld; [apply list_all, enh_ok|]. reflexivity.
  - destruct g. obj. fld; [reflexivity|]. fld; [apply u16_ok; exact H|]. fld; [apply list_all, gr_ok|]. reflexivity.
  - obj. fld; [apply u32_ok; exact H|]. reflexivity.
  - obj. fld; [apply list_all, ap_ok|]. reflexivity.
  - obj. fld; [|reflexivity]. destruct r; reflexivity.
  - reflexivity.
Qed.
Lemma cap_ok c : cap_ranged c -> de_cap (ser_cap c) = Some c.
Proof. intros (H1 & H2). destruct c. obj. fld; [apply cap_type_ok; auto|]. fld; [apply cap_value_ok; auto|]. reflexivity. Qed.
Lemma param_ok p : param_ranged p -> de_param (ser_param p) = Some p.
Proof.
  intros (H1 & H2). destruct p as [t [b|l]]. all: obj; (fld; [apply u8_ok; auto|]); fld; [|reflexivity]; (eapply variant_ok; [reflexivity|]); apply into_ok.
  - apply octets_ok. exact H2. - eapply list_law; [exact cap_ok|exact H2].
Qed.
Lemma open_ok ps tx m : texts_ok ps tx -> open_ranged m -> de_open ps (ser_open tx m) = Some m.
Proof.
  intros T (H1 & H2 & H3 & H4 & H5). destruct m. obj. fld; [apply u8_ok; auto|]. fld; [apply asn_ok; auto|]. fld; [apply u16_ok; auto|].
  fld; [apply ip4_ok; auto|]. fld; [reflexivity|]. fld; [eapply list_law; [exact param_ok|exact H5]|]. reflexivity.
Qed.
Lemma update_ok ps tx ord m : texts_ok ps tx -> any_order ord -> up_ranged m -> Forall attr_kept (at_inner (u_attrs m)) ->
  de_update ps (ser_update tx ord m) = Some (Update (u_withdrawn m) (attrs_of_list (at_inner (u_attrs m))) (u_announced m)).
Proof.
  intros T O (H1 & H2 & H3) K. destruct m as [w a n]. cbn [u_withdrawn u_attrs u_announced] in *. obj.
  fld; [eapply list_law; [|exact H1]; intros; apply prefix_read; auto|]. fld; [apply attrs_ok_; eauto|].
  fld; [eapply list_law; [|exact H3]; intros; apply prefix_read; auto|]. reflexivity.
Qed.
Lemma catch_ok {A} (name : A -> option string) code all unknown a :
  (forall s, name a = Some s -> find (fun x => match name x with Some n => bytes_eqb (str s) (str n) | None => false end) all = Some a) ->
  (name a = None -> u8v (code a) /\ unknown (code a) = a) -> de_catch name all unknown (ser_catch name code a) = Some a.
Proof.
  intros H1 H2. unfold ser_catch. destruct (name a) as [s|] eqn:E.
  - unfold de_catch. auto.
  - destruct H2 as (B & U); [reflexivity|]. unfold de_catch. cbn [tagged jobj map].
    change (de_variant ?t (JObject [(str (fst (?k, ?v)), snd _)])) with (de_variant t (tagged k v)).
    eapply variant_ok; [reflexivity|]. rewrite <- U at 2. apply into_ok. apply u8_ok. exact B.
Qed.
Lemma error_ok e : error_ranged e -> de_error (ser_error e) = Some e.
Proof.
  destruct e; cbn [ser_error]; intros H; (eapply variant_ok; [reflexivity|]).
  all: try (apply into_ok; apply u8_ok; exact H).
  all: try (apply into_ok; apply catch_ok; [intros s; destruct e; intros [= <-]; reflexivity|destruct e; try discriminate; intros _; split; [exact H|reflexivity]]).
  destruct H. erewrite into_ok by (apply pair_ok; apply u8_ok; eassumption). reflexivity.
Qed.
Lemma notif_ok m : error_ranged (nt_error m) -> bytes_ok (nt_data m) -> de_notif (ser_notif m) = Some m.
Proof. intros H1 H2. destruct m. obj. fld; [apply error_ok; auto|]. fld; [apply octets_ok; auto|]. reflexivity. Qed.
Lemma refresh_ok m : refresh_ranged m -> de_refresh (ser_refresh m) = Some m.
Proof. intros (H1 & H2 & H3 & H4). destruct m. obj. fld; [apply u16_ok; auto|]. fld; [apply u8_ok; auto|]. fld; [apply u8_ok; auto|]. fld; [apply octets_ok; auto|]. reflexivity. Qed.
Lemma msg_ok_ ps tx ord m : texts_ok ps tx -> any_order ord -> msg_ranged m -> msg_kept m ->
  exists n, de_msg ps (ser_msg tx ord m) = Some n /\ same_msg m n.
Proof.
  intros T O H K. destruct m; cbn [msg_ranged msg_kept] in H, K; cbn [ser_msg]; [| | |exists MKeepAlive; split; reflexivity|].
  all: unfold de_msg; cbn [tagged jobj map]; change (de_variant ?t (JObject [(str (fst (?k, ?v)), snd _)])) with (de_variant t (tagged k v)).
  - exists (MOpen m). split; [|reflexivity]. eapply variant_ok; [reflexivity|]. apply into_ok, open_ok; auto.
  - eexists. split; [eapply variant_ok; [reflexivity|]; apply into_ok, update_ok; eauto|]. cbn [same_msg]. eexists. split; [reflexivity|]. apply plain_list.
  - exists (MNotif m). split; [|reflexivity]. eapply variant_ok; [reflexivity|]. apply into_ok, notif_ok; tauto.
  - exists (MRefresh m). split; [|reflexivity]. eapply variant_ok; [reflexivity|]. apply into_ok, refresh_ok; auto.
Qed.
