(** Proofs that what is read from JSON is in range. *)
From Coq Require Import String ZifyBool ZifyNat ZifyN Lia Sorting.Permutation.
From Verif Require Import Tac Base BaseFacts Net NetSpec AsPath Community Mpls FlowSpec Tlv LinkState LinkStateSpec LinkStateFacts Nlri Attr Cap BgpError BgpMsg Elem Text Filter TextDump Json JsonSpec JsonFacts JsonMsg JsonMsgSpec JsonMsgFacts.
Local Open Scope string_scope. Local Open Scope list_scope. Local Open Scope N_scope.

Ltac oinv H := repeat match type of H with obind _ _ = Some _ => apply obind_inv in H; let a := fresh "a" in let E := fresh "E" in destruct H as (a & E & H) end.
Lemma some_of {A} (a b : A) : Some a = Some b -> b = a.
Proof. congruence. Qed.
Lemma lookup_in {A} k (t : list (string * A)) a : lookup k t = Some a -> exists n, In (n, a) t.
Proof.
  induction t as [|[n x] t IH]; cbn [lookup]; [discriminate|]. destruct (bytes_eqb k (str n)).
  - intros [= <-]. exists n. left. reflexivity. - intros H. destruct (IH H) as (m & I). exists m. right. exact I.
Qed.
Lemma variant_in {A} (t : list (string * (json -> option A))) j a : de_variant t j = Some a -> exists f v, In f (map snd t) /\ f v = Some a.
Proof.
  unfold de_variant. intros H. apply obind_inv in H. destruct H as ([k v] & _ & H). apply obind_inv in H. destruct H as (f & L & H).
  exists f, v. split; [|exact H]. apply lookup_in in L. destruct L as (n & I). change f with (snd (n, f)). apply in_map. exact I.
Qed.
Lemma unit_in {A} (name : A -> string) all j a : de_unit name all j = Some a -> In a all.
Proof. unfold de_unit. intros H. oinv H. apply find_some in H. tauto. Qed.
Lemma code_in names j n : de_code names j = Some n -> In n (map fst names).
Proof. apply unit_in. Qed.
Lemma into_in {A B} (P : A -> Prop) (Q : B -> Prop) (d : json -> option A) (g : A -> B) j b : (forall j a, d j = Some a -> P a) -> (forall a, P a -> Q (g a)) -> de_into d g j = Some b -> Q b.
Proof. unfold de_into. intros H1 H2 H. oinv H. assert (b = g a) by congruence. subst. eauto. Qed.
Lemma pair_in {A B} (P : A -> Prop) (Q : B -> Prop) f g j a b : (forall j a, f j = Some a -> P a) -> (forall j a, g j = Some a -> Q a) ->
  de_pair f g j = Some (a, b) -> P a /\ Q b.
Proof. unfold de_pair. intros H1 H2 H. destruct j; try discriminate. destruct l as [|x [|y [|]]]; try discriminate. oinv H. assert (a = a0 /\ b = a1) as [-> ->] by (split; congruence). eauto. Qed.
Lemma octets_in j b : de_octets j = Some b -> bytes_ok b.
Proof. apply list_in. exact (num_in 256). Qed.
Lemma lists_in {A} (P : A -> Prop) (f : json -> option A) : (forall j a, f j = Some a -> P a) -> forall j l, de_list f j = Some l -> Forall P l.
Proof. intros H j l. apply list_in. exact H. Qed.
Lemma ip6_in ps j n : parsers_typed ps -> de_ip6 ps j = Some n -> u128v n.
Proof. unfold de_ip6. intros T. destruct (de_ip ps j) as [[|m]|] eqn:E; try discriminate. intros [= <-]. exact (ip_in ps j _ T E). Qed.
Lemma rd_in j n : de_rd j = Some n -> u64v n.
Proof.
  unfold de_rd. intros H. oinv H. assert (n = be_val a) by congruence. subst. apply array_in in E. destruct E as (L & B).
  pose proof (be_val_bound a B) as X. unfold u64v. unfold nlen in L. replace (N.of_nat (length a)) with 8 in X by lia. exact X.
Qed.
Ltac vin H := apply variant_in in H; let f := fresh "f" in let v := fresh "v" in let I := fresh "I" in destruct H as (f & v & I & H);
  cbn [map snd In] in I; repeat (destruct I as [<-|I]); [..|contradiction].
Lemma hop_in ps j h : parsers_typed ps -> de_nexthop ps j = Some h -> hop_ranged h.
Proof.
  intros T H. vin H.
  - oinv H. assert (h = NH4 a) by congruence. subst. exact (ip4_in ps v a T E).
  - oinv H. assert (h = NH6 a) by congruence. subst. exact (ip6_in ps v a T E).
  - oinv H. destruct a as [a b]. assert (h = NH6L a b) by congruence. subst. revert E. apply pair_in; intros; eapply ip6_in; eauto.
  - oinv H. destruct a as [a b]. assert (h = NHVpn a b) by congruence. subst. revert E. apply pair_in; intros; eauto using rd_in; eapply ip6_in; eauto.
  - destruct v; try discriminate. destruct l as [|x [|y [|z [|w [|]]]]]; try discriminate. oinv H. assert (h = NHVpnL a a0 a1 a2) by congruence. subst.
    repeat split; eauto using rd_in, ip6_in.
Qed.
Lemma label_in j l : de_label j = Some l -> l < 2 ^ 20.
Proof. unfold de_label, label_try_new, MAX_LABEL. intros H. oinv H. destruct (N.ltb_spec 0xFFFFF a); [discriminate|]. assert (l = a) by congruence. subst. lia. Qed.
Lemma labeled_in ps j p : parsers_typed ps -> de_labeled ps j = Some p -> labeled_ranged p.
Proof.
  intros T H. unfold de_labeled in H. oinv H. assert (p = Labeled a0 a1 a2) by congruence. subst p. split; [|split]; cbn [lp_net lp_labels lp_id].
  - revert E0. apply field_in. intros; eapply net_in; eauto. - revert E1. apply field_in. apply lists_in. exact label_in. - revert E2. apply opt_in. exact (num_in (2 ^ 32)).
Qed.
Lemma numop_in j o : de_numop j = Some o -> num_ranged o.
Proof. unfold de_numop. intros H. oinv H. assert (o = NumOp a0 a1 a2 a3 a4 a5 a6) by congruence. subst. split; [exact (num_field _ _ _ _ E2)|exact (num_field _ _ _ _ E6)]. Qed.
Lemma bitop_in j o : de_bitop j = Some o -> bit_ranged o.
Proof. unfold de_bitop. intros H. oinv H. assert (o = BitOp a0 a1 a2 a3 a4 a5) by congruence. subst. split; [exact (num_field _ _ _ _ E2)|exact (num_field _ _ _ _ E5)]. Qed.
Lemma offset_in ps j o p : parsers_typed ps -> de_offset ps j = Some (o, p) -> u8v o /\ prefix_ok p.
Proof.
  unfold de_offset. intros T H. oinv H. assert (o = a0 /\ p = a1) as [-> ->] by (split; congruence). split; [exact (num_field _ _ _ _ E0)|].
  revert E1. apply field_in. intros; eapply prefix_in; eauto.
Qed.
Lemma comp_in ps j c : parsers_typed ps -> de_comp ps j = Some c -> comp_ranged c.
Proof.
  intros T H. vin H; unfold de_numops, de_bitops in H; oinv H; try (apply some_of in H; subst c).
  1,2: exact (prefix_in _ _ _ T E).
  12,13: destruct a as [o p]; apply some_of in H; subst c; exact (offset_in _ _ _ _ T E).
  all: first [exact (lists_in num_ranged _ numop_in _ _ E)|exact (lists_in bit_ranged _ bitop_in _ _ E)].
Qed.
Lemma flow_in ps j l : parsers_typed ps -> de_flow ps j = Some l -> Forall comp_ranged l.
Proof. unfold de_flow. intros T H. oinv H. revert H. apply field_in. apply lists_in. intros; eapply comp_in; eauto. Qed.
Lemma tlv_in b j t : de_tlv b j = Some t -> tlv_ranged b t.
Proof. unfold de_tlv. intros H. oinv H. assert (t = Tlv a0 a1) by congruence. subst. split; [exact (num_field _ _ _ _ E0)|]. revert E1. apply field_in. exact octets_in. Qed.
Lemma tlvs_in b k l x : field k (de_list (de_tlv b)) l = Some x -> Forall (tlv_ranged b) x.
Proof. apply field_in. apply lists_in. exact (tlv_in b). Qed.
Lemma node_in j d : de_node j = Some d -> node_ranged d.
Proof.
  unfold de_node. intros H. oinv H. assert (d = NodeDesc a0 a1 a2 a3 a4) by congruence. subst d. unfold node_ranged. cbn [nd_as nd_ls_id nd_area nd_router nd_unknown].
  refine (conj _ (conj _ (conj _ (conj _ (tlvs_in _ _ _ _ E4))))); [revert E0|revert E1|revert E2|revert E3]; apply opt_in; first [exact (num_in (2 ^ 32))|exact octets_in].
Qed.
Lemma link_in ps j d : parsers_typed ps -> de_link ps j = Some d -> link_ranged d.
Proof.
  unfold de_link. intros T H. oinv H. assert (d = LinkDesc a0 a1 a2 a3 a4 a5 a6) by congruence. subst d. unfold link_ranged.
  cbn [ld_ids ld_if4 ld_nb4 ld_if6 ld_nb6 ld_mt ld_unknown].
  refine (conj _ (conj _ (conj _ (conj _ (conj _ (conj _ (tlvs_in _ _ _ _ E6))))))); [revert E0|revert E1|revert E2|revert E3|revert E4|revert E5]; apply opt_in.
  - intros j' [x y]. cbn [fst snd]. apply pair_in; exact (num_in (2 ^ 32)).
  - intros; eapply ip4_in; eauto. - intros; eapply ip4_in; eauto. - intros; eapply ip6_in; eauto. - intros; eapply ip6_in; eauto. - exact (num_in (2 ^ 16)).
Qed.
Lemma pdesc_in ps j d : parsers_typed ps -> de_pdesc ps j = Some d -> pdesc_ranged d.
Proof.
  unfold de_pdesc. intros T H. oinv H. assert (d = PrefixDesc a0 a1 a2 a3) by congruence. subst d. unfold pdesc_ranged. cbn [pd_mt pd_ospf pd_reach pd_unknown].
  refine (conj _ (conj _ (conj _ (tlvs_in _ _ _ _ E3)))); [revert E0|revert E1|revert E2]; apply opt_in; [exact (num_in (2 ^ 16))|exact (num_in 256)|].
  intros j' n. unfold de_reach. intros X. oinv X. assert (n = p_net a4) by congruence. subst. exact (proj1 (prefix_in _ _ _ T E2)).
Qed.
Lemma ls_in ps j n : parsers_typed ps -> de_ls ps j = Some n -> ls_ranged n.
Proof.
  unfold de_ls. intros T H. oinv H. assert (n = LsNlri a0 a1 a2 a3 a4 a5 a6) by congruence. subst n. unfold ls_ranged. cbn [ln_type ln_proto ln_id ln_local ln_remote ln_link ln_prefix].
  refine (conj _ (conj _ (conj (num_field _ _ _ _ E2) (conj _ (conj _ (conj _ _)))))).
  - revert E0. apply (field_in (fun t => t <= 7)). intros j' t X. apply code_in in X. cbn in X. lia.
  - revert E1. apply (field_in (fun t => t <= 9)). intros j' t X. apply code_in in X. cbn in X. lia.
  - revert E3. apply field_in. exact node_in. - revert E4. apply opt_in. exact node_in. - revert E5. apply opt_in. intros; eapply link_in; eauto.
  - revert E6. apply opt_in. intros; eapply pdesc_in; eauto.
Qed.
Lemma nlri_in ps j n : parsers_typed ps -> de_nlri ps j = Some n -> nlri_ranged n.
Proof.
  unfold de_nlri. intros T H. oinv H. assert (n = Nlri a0 a1 a2 a3 a4 a5 a6) by congruence. subst n. unfold nlri_ranged. cbn [nl_next nl_prefixes nl_labeled nl_ls nl_fs].
  refine (conj _ (conj _ (conj _ (conj _ _)))).
  - revert E2. apply opt_in. intros; eapply hop_in; eauto. - revert E3. apply field_in, lists_in. intros; eapply prefix_in; eauto.
  - revert E4. apply opt_in, lists_in. intros; eapply labeled_in; eauto. - revert E5. apply opt_in, lists_in. intros; eapply ls_in; eauto.
  - revert E6. apply opt_in, lists_in. intros; eapply flow_in; eauto.
Qed.
Lemma kinsert_all (P : N * bytes -> Prop) k v m : P (k, v) -> Forall P m -> Forall P (kinsert k v m).
Proof.
  intros Hk. induction 1 as [|[x w] m Hx Hm IH]; cbn [kinsert]; [auto|]. destruct (k <? x); [auto|]. destruct (k =? x); auto.
Qed.
Lemma map_in names j m : de_map names j = Some m -> keyed (map fst names) m.
Proof.
  unfold de_map. destruct j as [| | | | | | |l]; try discriminate. intros H. oinv H. assert (m = insert_all a []) by (unfold insert_all; congruence). subst m. split.
  - apply insert_all_incr. exact I.
  - assert (F : Forall (fun kv => In (fst kv) (map fst names) /\ bytes_ok (snd kv)) a).
    { revert E. apply all_of_in. intros [k v] [c b] X. unfold de_entry in X. cbn [fst snd] in X. oinv X. assert (c = a0 /\ b = a1) as [-> ->] by (split; congruence).
      split; [exact (code_in _ _ _ E)|exact (octets_in _ _ E0)]. }
    clear E H. assert (G : forall acc, Forall (fun kv => In (fst kv) (map fst names) /\ bytes_ok (snd kv)) acc ->
      Forall (fun kv => In (fst kv) (map fst names) /\ bytes_ok (snd kv)) (insert_all a acc)).
    { induction F as [|[k v] a K F IH]; intros acc A; [exact A|]. apply IH. apply kinsert_all; auto. }
    apply G. constructor.
Qed.
Lemma ls_attr_in j a : de_ls_attr j = Some a -> ls_attr_ranged a.
Proof.
  unfold de_ls_attr. intros H. oinv H. assert (a = LsAttr a1 a2 a3 a4) by congruence. subst a. unfold ls_attr_ranged. cbn [la_node la_link la_prefix la_unknown].
  refine (conj _ (conj _ (conj _ (tlvs_in _ _ _ _ E3)))); [revert E0|revert E1|revert E2]; apply field_in; intros j' m M; apply map_in in M; [exact M| |exact M].
  eapply keyed_sub; [|exact M]. cbn. intros k. intuition auto.
Qed.
Lemma sub_tlv_in j t : de_sub_tlv j = Some t -> sub_ranged t.
Proof.
  unfold de_sub_tlv. intros H. oinv H. assert (t = Tlv a0 a1) by congruence. subst. split; [|revert E1; apply field_in; exact octets_in].
  revert E0. apply (field_in (fun n => n <= 20 \/ n = 128 \/ n = 129)). intros j' n X. apply code_in in X. cbn in X. lia.
Qed.
Lemma tunnels_in j l : de_tunnels j = Some l -> Forall tunnel_ranged l.
Proof.
  unfold de_tunnels. intros H. oinv H. revert H. apply field_in, lists_in. clear. intros j t. unfold de_tunnel. intros H. oinv H.
  assert (t = Tunnel a0 a1) by congruence. subst. split; [|revert E1; apply field_in, lists_in; exact sub_tlv_in].
  revert E0. apply (field_in (fun n => n <= 22)). intros j' n X. apply code_in in X. cbn in X. lia.
Qed.
Lemma te_in j t : de_te j = Some t -> te_ranged t.
Proof.
  unfold de_te. intros H. oinv H. assert (t = TE a0 a1 a2 a3 a4) by congruence. subst t. unfold te_ranged. cbn [te_cap te_enc te_reserved te_bw te_specific].
  refine (conj (num_field _ _ _ _ E0) (conj (num_field _ _ _ _ E1) (conj (num_field _ _ _ _ E2) (conj _ _)))); [|revert E4; apply field_in; exact octets_in].
  revert E3. apply (field_in (fun l => nlen l = 8)). intros j' l. unfold de_array. intros X. oinv X. destruct (Nat.eqb_spec (length a5) 8); [|discriminate].
  assert (l = a5) by congruence. subst. unfold nlen. lia.
Qed.
Lemma bfd_in j b : de_bfd j = Some b -> av_ranged (ABfd b).
Proof. unfold de_bfd. intros H. oinv H. assert (b = Bfd a0 a1 a2) by congruence. subst b. exact (conj (num_field _ _ _ _ E0) (conj (num_field _ _ _ _ E1) (tlvs_in _ _ _ _ E2))). Qed.
Lemma tlv_list_in b j l : de_tlvs b j = Some l -> Forall (tlv_ranged b) l.
Proof. unfold de_tlvs. intros H. oinv H. exact (tlvs_in _ _ _ _ H). Qed.
Lemma aigp_in j l : de_aigp j = Some l -> Forall aigp_ranged l.
Proof.
  unfold de_aigp. intros H. oinv H. revert H. apply field_in, lists_in. clear. intros j t. unfold de_aigp_tlv. intros H. oinv H. assert (t = AigpTlv a0 a1 a2) by congruence. subst t.
  refine (conj (num_field _ _ _ _ E0) (conj (num_field _ _ _ _ E1) _)). revert E2. apply field_in. exact octets_in.
Qed.
Lemma aggr_in ps j a : parsers_typed ps -> de_aggr ps j = Some a -> u32v (fst a) /\ u32v (snd a).
Proof.
  unfold de_aggr. intros T H. oinv H. assert (a = (a1, a2)) by congruence. subst a. split; [exact (num_field _ _ _ _ E0)|]. revert E1. apply field_in. intros; eapply ip4_in; eauto.
Qed.
Lemma plain_in j c : de_plain j = Some c -> meta_ranged (MPlain c).
Proof.
  intros H. apply (meta_in (Parsers (fun _ => None) (fun _ => None) (fun _ => None) (fun _ => None) (fun _ => None)) j); [|unfold de_meta; rewrite H; reflexivity].
  repeat split; discriminate.
Qed.
Lemma ipv6_ext_in ps j c : parsers_typed ps -> de_ipv6_ext ps j = Some c -> meta_ranged (MIpv6Extended c).
Proof.
  intros PT E3. unfold de_ipv6_ext in E3. apply obind_inv in E3. destruct E3 as (l & _ & E). apply obind_inv in E. destruct E as (t & T & E). apply obind_inv in E. destruct E as (st & S & E).
  apply obind_inv in E. destruct E as (a & A & E). destruct (field "local_admin" (de_array 2 de_byte) l) as [[|x [|y [|z w]]]|] eqn:F; try discriminate. injection E as <-. cbn [meta_ranged ie_type ie_subtype ie_admin ie_l0 ie_l1].
  apply array2_in in F. repeat split; try tauto.
  - revert T. apply (field_in (fun t => match t with TUnknown n => n < 256 | _ => True end)). apply ect_in.
  - revert S. apply num_field.
  - revert A. apply (field_in (fun a => a < 2 ^ 128)). intros j' a'. exact (ip6_in ps j' a' PT).
Qed.
Lemma large_in j c : de_large j = Some c -> meta_ranged (MLarge c).
Proof.
  intros C. unfold de_large in C. apply obind_inv in C. destruct C as (l & _ & C). apply obind_inv in C. destruct C as (a & A & C).
  destruct (field "local_data" (de_array 2 (de_num (2 ^ 32))) l) as [[|x [|y [|z w]]]|] eqn:F; try discriminate. injection C as <-. cbn [meta_ranged lc_admin lc_d0 lc_d1].
  apply array2_in in F. repeat split; try tauto. revert A. apply num_field.
Qed.
Ltac into H := unfold de_into in H; oinv H; apply some_of in H; subst.
Lemma value_in ps j v : parsers_typed ps -> de_value ps j = Some v -> av_ranged v.
Proof.
  unfold de_value. intros T H.
  assert (G : (exists s, j = JText s) \/ av_ranged v).
  2: { destruct G as [(s & ->)|G]; [|exact G]. destruct (bytes_eqb s (str "AtomicAggregate")); [|discriminate]. apply some_of in H. subst. exact I. }
  destruct j as [| | | | |s| |]; try (left; eexists; reflexivity); right; vin H; into H; cbn [av_ranged];
    first [exact I|exact (path_in _ _ E)|exact (ip_in _ _ _ T E)|exact (num_in _ _ _ E)|exact (aggr_in _ _ _ T E)|exact (lists_in _ _ plain_in _ _ E)
      |exact (lists_in _ _ (fun j a => ext_in ps j a T) _ _ E)|exact (lists_in _ _ (fun j a => ipv6_ext_in ps j a T) _ _ E)|exact (lists_in _ _ large_in _ _ E)
      |exact (ip4_in _ _ _ T E)|exact (lists_in _ _ (num_in _) _ _ E)|exact (nlri_in _ _ _ T E)|exact (ls_attr_in _ _ E)|exact (tunnels_in _ _ E)|exact (te_in _ _ E)
      |exact (bfd_in _ _ E)|exact (tlv_list_in _ _ _ E)|exact (octets_in _ _ E)|exact (raw_in _ _ E)|exact (aigp_in _ _ E)].
Qed.
Lemma hex_in s : forall acc n, acc < 256 -> hex_digits acc s = Some n -> n < 256.
Proof.
  induction s as [|c s IH]; cbn [hex_digits]; intros acc n A H. { congruence. }
  oinv H. destruct (N.ltb_spec (acc * 16 + a) 256); [|discriminate]. eauto.
Qed.
Lemma hex8_in s n : parse_hex8 s = Some n -> n < 256.
Proof.
  unfold parse_hex8. intros H. assert (Z : 0 < 256) by lia.
  repeat match type of H with context [match ?x with _ => _ end] => is_var x; destruct x; try discriminate end; eauto using hex_in.
Qed.
Lemma flag_in w n : parse_flag w = Some n -> n < 256.
Proof.
  unfold parse_flag. intros H.
  assert (G : forall w, obind (find (fun p => bytes_eqb w (str (snd p))) flag_names) (fun p => Some (2 ^ fst p)) = Some n -> n < 256).
  { intros w' X. apply obind_inv in X. destruct X as (p & F & X). apply find_some in F. destruct F as (F & _). apply some_of in X. subst. cbn [flag_names In] in F.
    repeat (destruct F as [<-|F]); [..|contradiction]; cbn [fst]; lia. }
  destruct (trim w) as [|a t]; [discriminate|].
  assert (K : (exists t', a = 48 /\ t = 120 :: t') \/ obind (find (fun p => bytes_eqb (a :: t) (str (snd p))) flag_names) (fun p => Some (2 ^ fst p)) = Some n).
  { repeat match type of H with context [match ?x with _ => _ end] => is_var x; destruct x; try (right; exact H) end. left. eexists. split; reflexivity. }
  destruct K as [(t' & -> & ->)|K]; [exact (hex8_in _ _ H)|exact (G _ K)].
Qed.
Lemma lor_in l : Forall (fun n => n < 256) l -> forall a, a < 256 -> fold_left N.lor l a < 256.
Proof.
  induction 1 as [|x l X F IH]; intros a A; [exact A|]. apply IH. change 256 with (2 ^ 8) in *. destruct (N.eq_dec (N.lor a x) 0) as [->|E]; [lia|].
  apply N.log2_lt_pow2; [lia|]. rewrite N.log2_lor. apply N.max_lub_lt.
  - destruct (N.eq_dec a 0) as [->|]; [cbn; lia|]. apply N.log2_lt_pow2; lia.
  - destruct (N.eq_dec x 0) as [->|]; [cbn; lia|]. apply N.log2_lt_pow2; lia.
Qed.
Lemma flags_in j n : de_flags j = Some n -> u8v n.
Proof.
  unfold de_flags, parse_flags. intros H. oinv H. destruct (trim a). { apply some_of in H. subst. unfold u8v. lia. }
  oinv H. apply some_of in H. subst. apply lor_in; [|lia]. revert E0. apply all_of_in. exact flag_in.
Qed.
Lemma attribute_in ps j a : parsers_typed ps -> de_attr ps j = Some a -> attr_in a.
Proof.
  unfold de_attr. intros T H. oinv H. apply some_of in H. subst. split; cbn [a_value a_flag]; [revert E0|revert E1]; apply field_in; [|exact flags_in].
  intros; eapply value_in; eauto.
Qed.
Lemma attrs_in ps j a : parsers_typed ps -> de_attrs ps j = Some a -> Forall attr_in (at_inner a) /\ plain_attrs (at_inner a) a.
Proof.
  unfold de_attrs. intros T H. oinv H. apply some_of in H. subst. pose proof (plain_list a0) as P. rewrite (proj1 P). split; [|exact P].
  revert E. apply lists_in. intros; eapply attribute_in; eauto.
Qed.
Lemma cap_type_in j n : de_cap_type j = Some n -> u8v n.
Proof.
  unfold de_cap_type. intros H. assert (G : (exists s, j = JText s) \/ u8v n).
  2: { destruct G as [(s & ->)|G]; [|exact G]. apply code_in in H. cbn in H. unfold u8v. lia. }
  destruct j; try (left; eexists; reflexivity); right; vin H; exact (num_in _ _ _ H).
Qed.
Lemma null_in {A} (a b : A) j : de_null a j = Some b -> b = a.
Proof. unfold de_null. destruct j; congruence. Qed.
Lemma cap_value_in j v : de_cap_value j = Some v -> cv_ranged v.
Proof.
  intros H. vin H.
  1: into H; exact (octets_in _ _ E).
  2,8: apply null_in in H; subst; exact I.
  all: oinv H; apply some_of in H; subst; cbn [cv_ranged gr_time]; first [exact I|eapply num_field; eassumption].
Qed.
Lemma cap_in j c : de_cap j = Some c -> cap_ranged c.
Proof.
  unfold de_cap. intros H. oinv H. apply some_of in H. subst. split; cbn [cap_type cap_val]; [revert E0|revert E1]; apply field_in; [exact cap_type_in|exact cap_value_in].
Qed.
Lemma param_in j p : de_param j = Some p -> param_ranged p.
Proof.
  unfold de_param. intros H. oinv H. apply some_of in H. subst. split; cbn [op_type op_value]; [exact (num_field _ _ _ _ E0)|].
  revert E1. apply (field_in (fun v => match v with PvRaw b => bytes_ok b | PvCaps l => Forall cap_ranged l end)). clear. intros j v H. vin H; into H.
  - exact (octets_in _ _ E). - exact (lists_in _ _ cap_in _ _ E).
Qed.
Lemma open_in ps j m : parsers_typed ps -> de_open ps j = Some m -> open_ranged m.
Proof.
  unfold de_open. intros T H. oinv H. apply some_of in H. subst.
  refine (conj (num_field _ _ _ _ E0) (conj (num_field _ _ _ _ E1) (conj (num_field _ _ _ _ E2) (conj _ _)))); cbn [o_id o_params].
  - revert E3. apply field_in. intros; eapply ip4_in; eauto. - revert E5. apply field_in, lists_in. exact param_in.
Qed.
Lemma prefixes_in ps k l x : parsers_typed ps -> field k (de_list (de_prefix ps)) l = Some x -> Forall prefix_ok x.
Proof. intros T. apply field_in, lists_in. intros; eapply prefix_in; eauto. Qed.
Lemma update_in ps j m : parsers_typed ps -> de_update ps j = Some m -> up_ranged m /\ plain_attrs (at_inner (u_attrs m)) (u_attrs m).
Proof.
  unfold de_update. intros T H. oinv H. apply some_of in H. subst.
  assert (A : Forall attr_in (at_inner a1) /\ plain_attrs (at_inner a1) a1). { revert E1. apply (field_in (fun a => Forall attr_in (at_inner a) /\ plain_attrs (at_inner a) a)). intros; eapply attrs_in; eauto. }
  refine (conj (conj (prefixes_in _ _ _ _ T E0) (conj (proj1 A) (prefixes_in _ _ _ _ T E2))) (proj2 A)).
Qed.
Lemma catch_in {A} (P : A -> Prop) name all unknown j a : Forall P all -> (forall n, u8v n -> P (unknown n)) -> de_catch name all unknown j = Some a -> P a.
Proof.
  unfold de_catch. intros F K H. assert (G : (exists s, j = JText s) \/ P a).
  2: { destruct G as [(s & ->)|G]; [|exact G]. apply find_some in H. destruct H as (H & _). rewrite Forall_forall in F. auto. }
  destruct j; try (left; eexists; reflexivity); right; vin H; into H; apply K; exact (num_in _ _ _ E).
Qed.
Lemma error_in j e : de_error j = Some e -> error_ranged e.
Proof.
  intros H. vin H; into H.
  1,5: exact (num_in _ _ _ E).
  7: destruct a as [c s]; revert E; apply pair_in; intros j' n'; exact (num_in _ j' n').
  - revert E. apply (catch_in (fun h => error_ranged (EHeader h))); [repeat constructor|intros n X; exact X].
  - revert E. apply (catch_in (fun h => error_ranged (EOpen h))); [repeat constructor|intros n X; exact X].
  - revert E. apply (catch_in (fun h => error_ranged (EUpdate h))); [repeat constructor|intros n X; exact X].
  - revert E. apply (catch_in (fun h => error_ranged (EFsm h))); [repeat constructor|intros n X; exact X].
  - revert E. apply (catch_in (fun h => error_ranged (ECease h))); [repeat constructor|intros n X; exact X].
  - revert E. apply (catch_in (fun h => error_ranged (ERefresh h))); [repeat constructor|intros n X; exact X].
Qed.
Lemma msg_in ps j m : parsers_typed ps -> de_msg ps j = Some m -> msg_ranged m /\ same_msg m m.
Proof.
  unfold de_msg. intros T H. assert (G : (exists s, j = JText s) \/ (msg_ranged m /\ same_msg m m)).
  2: { destruct G as [(s & ->)|G]; [|exact G]. destruct (bytes_eqb s (str "KeepAlive")); [|discriminate]. apply some_of in H. subst. split; [exact I|reflexivity]. }
  destruct j; try (left; eexists; reflexivity); right; vin H; into H.
  all: try (destruct (update_in _ _ _ T E) as (U & P); split; [exact U|]; exists (u_attrs a); split; [destruct a; reflexivity|exact P]).
  all: split; [|reflexivity].
  all: try exact (open_in _ _ _ T E).
  all: unfold de_notif, de_refresh in E.
  all: oinv E; apply some_of in E; subst.
  all: first [split; cbn [nt_error nt_data]; [revert E1; apply field_in; exact error_in|revert E2; apply field_in; exact octets_in]
   |refine (conj (num_field _ _ _ _ E1) (conj (num_field _ _ _ _ E2) (conj (num_field _ _ _ _ E3) _))); cbn [rf_data]; revert E4; apply field_in; exact octets_in].
Qed.
