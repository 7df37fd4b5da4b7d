(** Proofs about [Utf8] and [TableDump]. *)
From Coq Require Import Permutation Sorted ZifyBool ZifyNat ZifyN Lia.
From Verif Require Import Base BaseFacts Reader ReaderFacts Tac Net NetSpec NetFacts AsPath Tlv TlvFacts
  Mpls MplsFacts NlriFacts Attr AttrSpec AttrFacts MsgFacts Utf8 TableDump TableDumpSpec.
Ltac Zify.zify_post_hook ::= Z.div_mod_to_equations.

Lemma ok_inj {A} (x y : A) : Ok x = Ok y -> x = y.
Proof. congruence. Qed.

Lemma forall2_length {A B} (R : A -> B -> Prop) l l' : Forall2 R l l' -> length l = length l'.
Proof. induction 1; cbn [length]; auto. Qed.

(** * UTF-8 *)
Lemma encode_scalar_ok c s : scalar c -> utf8_ok (encode_scalar c ++ s) = utf8_ok s.
Proof.
  intros H. unfold encode_scalar, scalar in *.
  destruct (N.ltb_spec c 0x80) as [L|L].
  { cbn [app utf8_ok]. destruct (N.ltb_spec c 0x80); [auto|lia]. }
  destruct (N.ltb_spec c 0x800) as [L2|L2].
  { cbn [app utf8_ok]. unfold within, cont, within.
    destruct (N.ltb_spec (0xC0 + c / 64) 0x80); [lia|].
    replace ((0xC2 <=? 0xC0 + c / 64) && (0xC0 + c / 64 <=? 0xDF)) with true by lia.
    replace ((0x80 <=? 0x80 + c mod 64) && (0x80 + c mod 64 <=? 0xBF)) with true by lia. reflexivity. }
  destruct (N.ltb_spec c 0x10000) as [L3|L3].
  { cbn [app utf8_ok]. unfold within, cont, within.
    destruct (N.ltb_spec (0xE0 + c / 4096) 0x80); [lia|].
    replace ((0xC2 <=? 0xE0 + c / 4096) && (0xE0 + c / 4096 <=? 0xDF)) with false by lia.
    replace ((0xE0 <=? 0xE0 + c / 4096) && (0xE0 + c / 4096 <=? 0xEF)) with true by lia.
    replace ((0x80 <=? 0x80 + c mod 64) && (0x80 + c mod 64 <=? 0xBF)) with true by lia.
    destruct (N.eqb_spec (0xE0 + c / 4096) 0xE0);
      [|destruct (N.eqb_spec (0xE0 + c / 4096) 0xED)];
      match goal with |- ?b && true && _ = _ => replace b with true by lia end; reflexivity. }
  cbn [app utf8_ok]. unfold within, cont, within.
  destruct (N.ltb_spec (0xF0 + c / 262144) 0x80); [lia|].
  replace ((0xC2 <=? 0xF0 + c / 262144) && (0xF0 + c / 262144 <=? 0xDF)) with false by lia.
  replace ((0xE0 <=? 0xF0 + c / 262144) && (0xF0 + c / 262144 <=? 0xEF)) with false by lia.
  replace ((0xF0 <=? 0xF0 + c / 262144) && (0xF0 + c / 262144 <=? 0xF4)) with true by lia.
  replace ((0x80 <=? 0x80 + c mod 64) && (0x80 + c mod 64 <=? 0xBF)) with true by lia.
  replace ((0x80 <=? 0x80 + c / 64 mod 64) && (0x80 + c / 64 mod 64 <=? 0xBF)) with true by lia.
  destruct (N.eqb_spec (0xF0 + c / 262144) 0xF0);
    [|destruct (N.eqb_spec (0xF0 + c / 262144) 0xF4)];
    match goal with |- true && ?b && true && true && _ = _ => replace b with true by lia end; reflexivity.
Qed.
Lemma utf8_ok_iff s : utf8_ok s = true <-> utf8 s.
Proof.
  split.
  - remember (length s) as n eqn:En. assert (Hn : (length s <= n)%nat) by lia. clear En. revert s Hn.
    induction n as [|n IH]; intros s Hn H.
    { destruct s; [|cbn in Hn; lia]. exists []. split; [constructor|reflexivity]. }
    assert (K : forall c r, scalar c -> s = encode_scalar c ++ r -> utf8_ok r = true -> (length r <= n)%nat -> utf8 s).
    { intros c r Hc -> Hr Hl. destruct (IH r Hl Hr) as (l & Hs & ->). exists (c :: l). split; [constructor; auto|reflexivity]. }
    destruct s as [|a s]; [exists []; split; [constructor|reflexivity]|]. cbn [length] in Hn.
    cbn [utf8_ok] in H. destruct (N.ltb_spec a 0x80) as [L|L].
    { apply (K a s); auto; [left; lia| |lia]. unfold encode_scalar. destruct (N.ltb_spec a 0x80); [reflexivity|lia]. }
    destruct s as [|b s]; [discriminate|]. cbn [length] in Hn. unfold within, cont, within in H.
    destruct ((0xC2 <=? a) && (a <=? 0xDF)) eqn:E2.
    { apply andb_prop in H as [H1 H]. apply (K ((a - 0xC0) * 64 + (b - 0x80)) s); auto; [left; lia| |lia].
      unfold encode_scalar. destruct (N.ltb_spec ((a - 0xC0) * 64 + (b - 0x80)) 0x80); [lia|].
      destruct (N.ltb_spec ((a - 0xC0) * 64 + (b - 0x80)) 0x800); [|lia]. cbn [app]. repeat f_equal; lia. }
    destruct s as [|c s]; [discriminate|]. cbn [length] in Hn.
    destruct ((0xE0 <=? a) && (a <=? 0xEF)) eqn:E3.
    { apply andb_prop in H as [H1 H]. apply andb_prop in H1 as [H1 H2].
      assert (B : 0x80 <= b <= 0xBF /\ (a = 0xE0 -> 0xA0 <= b) /\ (a = 0xED -> b <= 0x9F)).
      { destruct (N.eqb_spec a 0xE0); [|destruct (N.eqb_spec a 0xED)]; lia. } clear H1.
      set (v := (a - 0xE0) * 4096 + (b - 0x80) * 64 + (c - 0x80)).
      assert (V1 : 0x800 <= v < 0x10000) by (unfold v; lia).
      apply (K v s); auto; [unfold scalar, v; lia| |lia].
      unfold encode_scalar. destruct (N.ltb_spec v 0x80); [lia|]. destruct (N.ltb_spec v 0x800); [lia|]. destruct (N.ltb_spec v 0x10000); [|lia].
      cbn [app]. unfold v. repeat f_equal; lia. }
    destruct s as [|d s]; [discriminate|]. cbn [length] in Hn.
    apply andb_prop in H as [H1 H]. apply andb_prop in H1 as [H1 H4]. apply andb_prop in H1 as [H1 H3]. apply andb_prop in H1 as [H1 H2].
    assert (B : 0x80 <= b <= 0xBF /\ (a = 0xF0 -> 0x90 <= b) /\ (a = 0xF4 -> b <= 0x8F)).
    { destruct (N.eqb_spec a 0xF0); [|destruct (N.eqb_spec a 0xF4)]; lia. } clear H2.
    set (v := (a - 0xF0) * 262144 + (b - 0x80) * 4096 + (c - 0x80) * 64 + (d - 0x80)).
    assert (V1 : 0x10000 <= v < 0x110000) by (unfold v; lia).
    apply (K v s); auto; [unfold scalar; lia| |lia].
    unfold encode_scalar. destruct (N.ltb_spec v 0x80); [lia|]. destruct (N.ltb_spec v 0x800); [lia|]. destruct (N.ltb_spec v 0x10000); [lia|].
    cbn [app]. unfold v. repeat f_equal; lia.
  - intros (l & H & ->). induction H as [|c l Hc H IH]; [reflexivity|]. cbn [flat_map]. rewrite encode_scalar_ok; auto.
Qed.
Lemma latin1_ascii s : Forall (fun b => b < 128) s -> latin1 s = s.
Proof.
  induction 1 as [|b s H _ IH]; [reflexivity|]. unfold latin1 in *. cbn [flat_map]. rewrite IH.
  unfold encode_scalar. destruct (N.ltb_spec b 0x80); [reflexivity|lia].
Qed.
Lemma latin1_utf8 s : bytes_ok s -> utf8 (latin1 s).
Proof.
  intros H. exists s. split; [|reflexivity]. eapply Forall_impl; [|exact H]. intros b Hb. left. cbn in Hb. lia.
Qed.

(** * Maps *)
Lemma map_get_insert {K V} (eqb : K -> K -> bool) (Heq : forall a b, eqb a b = true <-> a = b) k v (m : list (K * V)) j :
  map_get eqb j (map_insert eqb k v m) = if eqb j k then Some v else map_get eqb j m.
Proof.
  induction m as [|[k' v'] m IH]; cbn [map_insert map_get]; [reflexivity|].
  destruct (eqb k k') eqn:E.
  - apply Heq in E. subst k'. cbn [map_get]. destruct (eqb j k); reflexivity.
  - cbn [map_get]. destruct (eqb j k') eqn:E2; [|exact IH]. apply Heq in E2. subst j.
    destruct (eqb k' k) eqn:E3; [|reflexivity]. apply Heq in E3. subst. rewrite (proj2 (Heq k k) eq_refl) in E. discriminate.
Qed.
Lemma map_get_none {K V} (eqb : K -> K -> bool) (Heq : forall a b, eqb a b = true <-> a = b) k (m : list (K * V)) :
  map_get eqb k m = None <-> ~ In k (map fst m).
Proof.
  induction m as [|[k' v'] m IH]; cbn [map_get map fst In]; [tauto|].
  destruct (eqb k k') eqn:E.
  - apply Heq in E. split; [discriminate|]. intros H. exfalso. apply H. auto.
  - rewrite IH. split; [|tauto]. intros H [F|F]; [|tauto]. subst. rewrite (proj2 (Heq k k) eq_refl) in E. discriminate.
Qed.
Lemma map_get_in {K V} (eqb : K -> K -> bool) (Heq : forall a b, eqb a b = true <-> a = b) k v (m : list (K * V)) :
  map_ok m -> (map_get eqb k m = Some v <-> In (k, v) m).
Proof.
  unfold map_ok. induction m as [|[k' v'] m IH]; cbn [map_get map fst In]; intros H; [split; [discriminate|tauto]|].
  inversion H as [|? ? Hn Hd]; subst. destruct (eqb k k') eqn:E.
  - apply Heq in E. subst k'. split; [intros F; left; congruence|]. intros [F|F]; [congruence|].
    exfalso. apply Hn. apply (in_map fst) in F. exact F.
  - rewrite IH by auto. split; [auto|]. intros [F|F]; auto. injection F as -> _. rewrite (proj2 (Heq k k) eq_refl) in E. discriminate.
Qed.
Lemma insert_keys {K V} (eqb : K -> K -> bool) (Heq : forall a b, eqb a b = true <-> a = b) k v (m : list (K * V)) :
  map fst (map_insert eqb k v m) = if existsb (eqb k) (map fst m) then map fst m else map fst m ++ [k].
Proof.
  induction m as [|[k' v'] m IH]; cbn [map_insert map fst existsb]; [reflexivity|].
  destruct (eqb k k') eqn:E; cbn [orb map fst].
  - apply Heq in E. subst. reflexivity.
  - rewrite IH. destruct (existsb (eqb k) (map fst m)); reflexivity.
Qed.
Lemma insert_ok {K V} (eqb : K -> K -> bool) (Heq : forall a b, eqb a b = true <-> a = b) k v (m : list (K * V)) :
  map_ok m -> map_ok (map_insert eqb k v m).
Proof.
  unfold map_ok. intros H. rewrite (insert_keys eqb Heq). destruct (existsb (eqb k) (map fst m)) eqn:E; auto.
  apply NoDup_rev in H. rewrite <- (rev_involutive (map fst m ++ [k])). apply NoDup_rev. rewrite rev_app_distr. cbn.
  constructor; auto. intros F. apply in_rev in F. assert (existsb (eqb k) (map fst m) = true); [|congruence].
  apply existsb_exists. exists k. split; auto. apply Heq. reflexivity.
Qed.
Lemma insert_len {K V} (eqb : K -> K -> bool) (Heq : forall a b, eqb a b = true <-> a = b) k v (m : list (K * V)) :
  map_get eqb k m = None -> length (map_insert eqb k v m) = S (length m).
Proof.
  induction m as [|[k' v'] m IH]; cbn [map_insert map_get length]; [reflexivity|].
  destruct (eqb k k'); [discriminate|]. intros H. cbn [length]. rewrite IH; auto.
Qed.

(** * Sorting *)
Lemma insert_sorted_perm k l : Permutation (insert_sorted k l) (k :: l).
Proof.
  induction l as [|h t IH]; cbn [insert_sorted]; auto. destruct (k <=? h); auto.
  rewrite IH. apply perm_swap.
Qed.
Lemma sort_perm l : Permutation (sort_keys l) l.
Proof. induction l; cbn; auto. rewrite insert_sorted_perm. constructor. exact IHl. Qed.
Lemma insert_sorted_sorted k l : StronglySorted N.le l -> StronglySorted N.le (insert_sorted k l).
Proof.
  induction l as [|h t IH]; cbn [insert_sorted]; intros H; [repeat constructor|]. inversion H; subst.
  destruct (N.leb_spec k h) as [L|L].
  - constructor; auto. constructor; auto. eapply Forall_impl; [|exact H3]. cbn. intros; lia.
  - constructor; auto. rewrite Forall_forall in *. intros x Hx. apply (Permutation_in _ (insert_sorted_perm k t)) in Hx.
    destruct Hx as [<-|Hx]; [lia|auto].
Qed.
Lemma sort_sorted l : StronglySorted N.le (sort_keys l).
Proof. induction l; cbn; [constructor|]. apply insert_sorted_sorted. exact IHl. Qed.
Lemma sorted_unique l1 l2 : StronglySorted N.le l1 -> StronglySorted N.le l2 -> Permutation l1 l2 -> l1 = l2.
Proof.
  revert l2. induction l1 as [|a l1 IH]; intros l2 H1 H2 P.
  - apply Permutation_nil in P. auto.
  - destruct l2 as [|b l2]; [apply Permutation_sym, Permutation_nil in P; discriminate|].
    inversion H1; subst. inversion H2; subst. rewrite Forall_forall in *.
    assert (a = b).
    { assert (A : In a (b :: l2)) by (apply (Permutation_in _ P); left; auto).
      assert (B : In b (a :: l1)) by (apply (Permutation_in _ (Permutation_sym P)); left; auto).
      destruct A as [A|A]; auto. destruct B as [B|B]; auto. specialize (H4 _ B). specialize (H6 _ A). lia. }
    subst b. f_equal. apply IH; auto. apply Permutation_cons_inv in P. exact P.
Qed.

(** * Peers *)
Lemma width_asn t : (if type_as4 t then 4%nat else 2%nat) = asn_width (if type_as4 t then Bits32 else Bits16).
Proof. destruct (type_as4 t); reflexivity. Qed.
Lemma encode_peer_wire p : pe_type p < 256 -> encode_peer p = peer_wire p.
Proof. intros H. unfold encode_peer, peer_wire. rewrite be_1 by auto. reflexivity. Qed.
Lemma peer_fits p : peer_ok p -> asn_fits (if type_as4 (pe_type p) then Bits32 else Bits16) (pe_asn p).
Proof. intros (_ & _ & _ & _ & H). unfold type_as4. destruct (N.testbit (pe_type p) 1); exact H. Qed.
Lemma peer_afi p : peer_ok p -> (if type_ipv6 (pe_type p) then AIpv6 else AIpv4) = afi_of_ip (pe_ip p).
Proof. intros (_ & _ & _ & H & _). unfold type_ipv6. rewrite H. destruct (pe_ip p); reflexivity. Qed.
Lemma read_peer_wire p r : peer_ok p -> read_peer (peer_wire p ++ r) = Ok (p, r).
Proof.
  intros H. unfold read_peer, peer_wire. rewrite <- !app_assoc. cbn [app].
  rewrite (bind_ok _ _ _ _ _ (read_u8_cons _ _)). destruct H as (H1 & H2 & H3 & H4 & H5).
  rewrite (bind_ok _ _ _ _ _ (read_be_be 4 _ _ H2)). rewrite (peer_afi p) by (repeat split; auto).
  rewrite (bind_ok _ _ _ _ _ (read_address_octets _ _ H3)).
  change (N.testbit (pe_type p) 1) with (type_as4 (pe_type p)). rewrite width_asn.
  rewrite (bind_ok _ _ _ _ _ (read_asn_be _ (pe_asn p) r (peer_fits p (conj H1 (conj H2 (conj H3 (conj H4 H5))))))).
  destruct p; reflexivity.
Qed.
Lemma read_peer_inv s p r : read_peer s = Ok (p, r) -> bytes_ok s -> s = peer_wire p ++ r /\ peer_ok p.
Proof.
  intros H Hs. unfold read_peer in H. pstep H. pstep H.
  apply bind_inv in H as (i & s1 & Hi & H). apply read_address_inv in Hi as (E1 & I & F); auto; [|destruct (type_ipv6 a); discriminate].
  subst s. apply bytes_ok_app in Ho0 as [_ Ho0].
  apply bind_inv in H as (x & s2 & Hx & H). apply read_asn_inv in Hx as (E2 & L); auto. apply ret_inv in H as [<- ->].
  unfold peer_wire, peer_ok. cbn [pe_type pe_id pe_ip pe_asn]. lits. rewrite be_1 by auto. split.
  - rewrite E2. unfold encode_asn. rewrite <- width_asn. rewrite <- !app_assoc. reflexivity.
  - repeat split; auto; unfold type_ipv6, type_as4 in *.
    + destruct (N.testbit a 0), i; cbn in *; congruence.
    + destruct (N.testbit a 1); exact L.
Qed.
Lemma npp_read_peer : npp read_peer.
Proof.
  unfold read_peer. repeat (apply npp_bind; [apply npp_read_be|]; intros). apply npp_bind; [apply npp_read_address|]; intros.
  apply npp_bind; [apply npp_read_asn|]; intros. apply npp_ret.
Qed.

(** * Numbering *)
Lemma nmod_small k : k < 65536 -> k mod 65536 = k. Proof. intros. apply N.mod_small. auto. Qed.
Definition add_at (k : N) (p : peer) (t : peer_table) : peer_table :=
  PeerTable (pt_collector t) (pt_name t) (map_insert N.eqb (k mod 65536) p (pt_peers t)) (map_insert ip_eqb (pe_ip p) (k mod 65536) (pt_ids t)).
Lemma number_snoc k l p t : number_peers k (l ++ [p]) t = add_at (k + nlen l) p (number_peers k l t).
Proof.
  revert k t. induction l as [|q l IH]; intros k t; cbn [app number_peers].
  - unfold nlen. cbn [length]. rewrite N.add_0_r. reflexivity.
  - rewrite IH. rewrite nlen_cons. f_equal. lia.
Qed.
Lemma number_head k l t : pt_collector (number_peers k l t) = pt_collector t /\ pt_name (number_peers k l t) = pt_name t.
Proof. revert k t. induction l; intros; cbn [number_peers]; auto. rewrite (proj1 (IHl _ _)), (proj2 (IHl _ _)). auto. Qed.
Lemma nth_error_snoc {A} (l : list A) x n : nth_error (l ++ [x]) n =
  if Nat.eqb n (length l) then Some x else nth_error l n.
Proof.
  destruct (Nat.eqb_spec n (length l)) as [->|H].
  - rewrite nth_error_app2, Nat.sub_diag by lia. reflexivity.
  - destruct (Nat.lt_ge_cases n (length l)).
    + rewrite nth_error_app1 by auto. reflexivity.
    + rewrite (proj2 (nth_error_None l n)) by lia. apply nth_error_None. rewrite app_length. cbn. lia.
Qed.
Lemma eqb_nat id (l : list peer) : (id =? nlen l) = Nat.eqb (N.to_nat id) (length l).
Proof. unfold nlen. lia. Qed.
Lemma number_numbered c nm l : nlen l <= 65536 -> numbered (number_peers 0 l (PeerTable c nm [] [])) l.
Proof.
  induction l as [|p l IH] using rev_ind; intros Hl id.
  - cbn. destruct (N.to_nat id); reflexivity.
  - rewrite nlen_app in Hl. unfold nlen in Hl at 2. cbn in Hl. specialize (IH ltac:(lia)).
    rewrite number_snoc, N.add_0_l. unfold add_at, get_peer_by_id. cbn [pt_peers].
    rewrite (map_get_insert N.eqb N.eqb_eq). rewrite nmod_small by lia. rewrite nth_error_snoc, eqb_nat.
    destruct (Nat.eqb (N.to_nat id) (length l)); auto. apply IH.
Qed.
Lemma number_addresses c nm l : nlen l <= 65536 -> addresses_last (number_peers 0 l (PeerTable c nm [] [])) l.
Proof.
  induction l as [|p l IH] using rev_ind; intros Hl i.
  - cbn. intros p [].
  - rewrite nlen_app in Hl. unfold nlen in Hl at 2. cbn in Hl. specialize (IH ltac:(lia) i).
    rewrite number_snoc, N.add_0_l. unfold add_at, get_peer_id_by_addr in *. cbn [pt_ids].
    rewrite (map_get_insert ip_eqb ip_eqb_eq). rewrite nmod_small by lia.
    destruct (ip_eqb i (pe_ip p)) eqn:E.
    + apply ip_eqb_eq in E. split.
      * exists p. rewrite nth_error_snoc. unfold nlen. rewrite Nat2N.id, Nat.eqb_refl. auto.
      * intros j q Hj _. unfold nlen. rewrite Nat2N.id. assert (nth_error (l ++ [p]) j <> None) by congruence.
        apply nth_error_Some in H. rewrite app_length in H. cbn in H. lia.
    + assert (N1 : pe_ip p <> i). { intros X. symmetry in X. apply ip_eqb_eq in X. congruence. }
      destruct (map_get ip_eqb i (pt_ids (number_peers 0 l (PeerTable c nm [] [])))) as [id|].
      * destruct IH as [(q & Hq & Eq) IH]. split.
        { exists q. rewrite nth_error_app1; auto. apply nth_error_Some. congruence. }
        intros j q' Hj Ej. rewrite nth_error_snoc in Hj. destruct (Nat.eqb j (length l)); [congruence|]. eauto.
      * intros q Hq. apply in_app_or in Hq as [Hq|[<-|[]]]; auto.
Qed.
Lemma number_ok k l t : map_ok (pt_peers t) -> map_ok (pt_peers (number_peers k l t)).
Proof. revert k t. induction l; intros k t H; cbn [number_peers]; auto. apply IHl. cbn [pt_peers]. apply insert_ok; auto. apply N.eqb_eq. Qed.

(** * The table *)
Lemma flat_map_wire (l : list peer) : Forall peer_ok l -> flat_map encode_peer l = flat_map peer_wire l.
Proof. induction 1 as [|p l Hp H IH]; cbn [flat_map]; auto. rewrite IH, encode_peer_wire; auto. apply Hp. Qed.
Lemma table_parse c nm l r : c < 2 ^ 32 -> nlen nm < 2 ^ 16 -> nlen l < 2 ^ 16 -> Forall peer_ok l ->
  parse_peer_table (table_wire c nm l ++ r) = Ok (number_peers 0 l (PeerTable c (if utf8_ok nm then nm else []) [] []), r).
Proof.
  intros Hc Hn Hl Hp. unfold parse_peer_table, table_wire. rewrite <- !app_assoc.
  rewrite (bind_ok _ _ _ _ _ (read_be_be 4 c _ Hc)). rewrite (bind_ok _ _ _ _ _ (read_be_be 2 _ _ Hn)).
  rewrite (bind_ok _ _ _ _ _ (read_n_bytes_app _ nm _ eq_refl)). rewrite (bind_ok _ _ _ _ _ (read_be_be 2 _ _ Hl)).
  rewrite to_nat_nlen. rewrite (bind_ok _ _ _ _ _ (repeat_p_app read_peer peer_wire peer_ok l r (fun a s H => read_peer_wire a s H) Hp)). reflexivity.
Qed.

Lemma table_parsed s t r : parse_peer_table s = Ok (t, r) -> bytes_ok s -> exists nm l,
  s = table_wire (pt_collector t) nm l ++ r /\ pt_collector t < 2 ^ 32 /\ nlen nm < 2 ^ 16 /\ nlen l < 2 ^ 16 /\
  Forall peer_ok l /\ t = number_peers 0 l (PeerTable (pt_collector t) (if utf8_ok nm then nm else []) [] []).
Proof.
  intros H Hs. unfold parse_peer_table in H. pstep H. pstep H.
  apply bind_inv in H as (nm & s1 & H1 & H). apply read_n_bytes_inv in H1 as (-> & <-). apply bytes_ok_app in Ho0 as [_ Ho1].
  apply bind_inv in H as (cnt & s2 & H1 & H). apply read_be_inv_ok in H1 as (-> & Hb1 & Ho2); auto.
  apply bind_inv in H as (l & s3 & H1 & H). apply (repeat_p_inv read_peer peer_wire peer_ok) in H1 as (-> & F & L); auto using read_peer_inv.
  apply ret_inv in H as [<- ->]. exists nm, l. destruct (number_head 0 l (PeerTable a (if utf8_ok nm then nm else []) [] [])) as [-> _].
  cbn [pt_collector]. lits. assert (cnt = nlen l) as -> by (unfold nlen; lia). unfold table_wire. rewrite <- !app_assoc. auto 7.
Qed.
Lemma npp_table : npp parse_peer_table.
Proof.
  unfold parse_peer_table. do 2 (apply npp_bind; [apply npp_read_be|]; intros). apply npp_bind; [apply npp_read_n_bytes|]; intros.
  apply npp_bind; [apply npp_read_be|]; intros. apply npp_bind; [apply npp_repeat, npp_read_peer|]; intros. apply npp_ret.
Qed.
(** Encoding. *)
Lemma sorted_lt_le (l : list (N * peer)) : StronglySorted key_lt l -> StronglySorted N.le (map fst l).
Proof.
  induction 1 as [|x l H IH F]; cbn [map]; constructor; auto. apply Forall_map. eapply Forall_impl; [|exact F]. unfold key_lt. intros; lia.
Qed.
Lemma sorted_keys_lt l : StronglySorted N.le l -> NoDup l -> StronglySorted N.lt l.
Proof.
  induction 1 as [|x l H IH F]; intros D; constructor; inversion D; subst; auto.
  rewrite Forall_forall in *. intros y Hy. specialize (F y Hy). assert (x <> y) by congruence. lia.
Qed.
Lemma check_max_iff a b u : check_max a b = Ok u <-> a <= b.
Proof. unfold check_max. destruct u. destruct (N.ltb_spec b a); split; intros; try discriminate; auto; lia. Qed.
Lemma encode_table_iff t b : map_ok (pt_peers t) -> encode_peer_table t = Ok b <->
  nlen (pt_name t) < 2 ^ 16 /\ nlen (pt_peers t) < 2 ^ 16 /\
  exists l, Permutation l (pt_peers t) /\ StronglySorted key_lt l /\
    b = be 4 (pt_collector t) ++ be 2 (nlen (pt_name t)) ++ pt_name t ++ be 2 (nlen l) ++ flat_map (fun x => encode_peer (snd x)) l.
Proof.
  intros Hm. unfold encode_peer_table.
  assert (G : forall l, Permutation (map fst l) (map fst (pt_peers t)) -> (forall k p, In (k, p) l -> In (k, p) (pt_peers t)) ->
    rmap (fun id => match get_peer_by_id t id with Some p => Ok (encode_peer p) | None => Panic end) (map fst l)
    = Ok (map (fun x => encode_peer (snd x)) l)).
  { intros l _ Hi. induction l as [|[k p] l IH]; [reflexivity|]. cbn [map rmap fst snd].
    assert (E : get_peer_by_id t k = Some p). { apply (map_get_in N.eqb N.eqb_eq); auto. apply Hi. left; auto. }
    rewrite E. cbn [rbind]. rewrite IH by (intros; apply Hi; right; auto). reflexivity. }
  (* the sorted association list *)
  assert (S : exists l, Permutation l (pt_peers t) /\ StronglySorted key_lt l /\ map fst l = sort_keys (map fst (pt_peers t))).
  { set (ks := sort_keys (map fst (pt_peers t))).
    assert (Pk : Permutation ks (map fst (pt_peers t))) by apply sort_perm.
    apply Permutation_map_inv in Pk as (l & E & Pl). exists l. split; [symmetry; auto|]. split; auto.
    assert (SL : StronglySorted N.lt (map fst l)).
    { rewrite <- E. apply sorted_keys_lt; [apply sort_sorted|]. eapply Permutation_NoDup; [|exact Hm]. apply Permutation_sym, sort_perm. }
    clear - SL. induction l; [constructor|]. cbn in SL. inversion SL; subst. constructor; auto.
    exact (proj1 (Forall_map _ _ _) H2). }
  destruct S as (l & Pl & Sl & El). rewrite <- El.
  assert (U : forall l', Permutation l' (pt_peers t) -> StronglySorted key_lt l' -> l' = l).
  { intros l' P' S'. assert (K : map fst l' = map fst l).
    { apply sorted_unique; auto using sorted_lt_le. apply Permutation_map. rewrite P', Pl. reflexivity. }
    assert (V : forall k p q, In (k, p) l' -> In (k, q) l -> p = q).
    { intros k p q H1 H2. apply (Permutation_in _ P') in H1. apply (Permutation_in _ Pl) in H2.
      apply (map_get_in N.eqb N.eqb_eq k p) in H1; auto. apply (map_get_in N.eqb N.eqb_eq k q) in H2; auto. congruence. }
    clear - K V. revert l K V. induction l' as [|[k p] l' IH]; intros [|[k2 q] l] K V; cbn in K; try discriminate; auto.
    injection K as -> K. f_equal; [f_equal; eapply V; left; reflexivity|]. apply IH; auto. intros; eapply V; right; eauto. }
  rewrite G; [|apply Permutation_map; auto|intros k p Hi; apply (Permutation_in _ Pl); auto].
  cbn [rbind]. rewrite <- flat_map_concat_map. split.
  - intros H. apply rbind_inv in H as (nm & H1 & H). apply put_len_slice_inv in H1 as (L1 & ->).
    apply rbind_inv in H as (u & H1 & H). apply check_max_iff in H1. cbn [rbind] in H. lits. apply ok_inj in H. subst b.
    split; auto. split; [lia|]. exists l. split; auto. split; auto.
    replace (nlen l) with (nlen (pt_peers t)) by (unfold nlen; rewrite (Permutation_length Pl); auto). rewrite <- !app_assoc. reflexivity.
  - intros (H1 & H2 & l' & P' & S' & ->). rewrite (U l' P' S'). rewrite put_len_slice_ok by exact H1. cbn [rbind].
    rewrite (proj2 (check_max_iff _ _ tt)) by lia. cbn [rbind].
    replace (nlen (pt_peers t)) with (nlen l) by (unfold nlen; rewrite (Permutation_length Pl); auto). rewrite <- !app_assoc. reflexivity.
Qed.
Lemma np_encode_table t : map_ok (pt_peers t) -> np (encode_peer_table t).
Proof.
  intros Hm. unfold encode_peer_table. apply np_rbind; [apply np_put_len|]. intros. apply np_rbind; [apply np_check_max|]. intros.
  apply np_rbind; [|intros; apply np_ok]. apply np_rmap. intros k Hk. apply (Permutation_in _ (sort_perm _)) in Hk.
  destruct (get_peer_by_id t k) eqn:E; [apply np_ok|]. apply (map_get_none N.eqb N.eqb_eq) in E. contradiction.
Qed.
(** A table whose peers are numbered from 0. *)
Definition indexed (l : list peer) : list (N * peer) := combine (map N.of_nat (seq 0 (length l))) l.
Lemma combine_fst {A B} (a : list A) (b : list B) : length a = length b -> map fst (combine a b) = a.
Proof. revert b. induction a; destruct b; cbn; intros; try discriminate; auto. f_equal. auto. Qed.
Lemma combine_snd {A B} (a : list A) (b : list B) : length a = length b -> map snd (combine a b) = b.
Proof. revert b. induction a; destruct b; cbn; intros; try discriminate; auto. f_equal. auto. Qed.
Lemma indexed_len (l : list peer) : length (map N.of_nat (seq 0 (length l))) = length l.
Proof. rewrite map_length, seq_length. reflexivity. Qed.
Lemma indexed_sorted l : StronglySorted key_lt (indexed l).
Proof.
  unfold indexed. generalize 0%nat as k. induction l as [|p l IH]; intros k; cbn [length seq map combine]; constructor; auto.
  apply Forall_forall. intros [j q] H. apply in_combine_l in H. apply in_map_iff in H as (x & <- & H). apply in_seq in H.
  unfold key_lt. cbn [fst]. lia.
Qed.
Lemma indexed_in l k p : In (k, p) (indexed l) <-> nth_error l (N.to_nat k) = Some p.
Proof.
  unfold indexed. enough (G : forall a, In (k, p) (combine (map N.of_nat (seq a (length l))) l) <->
     (a <= N.to_nat k)%nat /\ nth_error l (N.to_nat k - a) = Some p).
  { rewrite G, Nat.sub_0_r. intuition lia. }
  induction l as [|q l IH]; intros a; cbn [length seq map combine In].
  - split; [tauto|]. intros [_ H]. destruct (N.to_nat k - a)%nat; discriminate.
  - rewrite IH. split.
    + intros [H|[H1 H2]].
      * injection H as <- <-. rewrite Nat2N.id, Nat.sub_diag. auto.
      * split; [lia|]. replace (N.to_nat k - a)%nat with (S (N.to_nat k - S a)) by lia. exact H2.
    + intros [H1 H2]. destruct (Nat.eq_dec (N.to_nat k) a) as [E|E].
      * left. rewrite E, Nat.sub_diag in H2. cbn in H2. f_equal; [lia|congruence].
      * right. split; [lia|]. replace (N.to_nat k - a)%nat with (S (N.to_nat k - S a)) in H2 by lia. exact H2.
Qed.
Lemma numbered_perm t l : map_ok (pt_peers t) -> numbered t l -> Permutation (indexed l) (pt_peers t).
Proof.
  intros Hm Hn. apply NoDup_Permutation.
  - apply (NoDup_map_inv fst). unfold indexed. rewrite combine_fst by apply indexed_len.
    apply FinFun.Injective_map_NoDup; [|apply seq_NoDup]. intros x y. lia.
  - apply (NoDup_map_inv fst). exact Hm.
  - intros [k p]. rewrite indexed_in, <- Hn. apply (map_get_in N.eqb N.eqb_eq); auto.
Qed.
Lemma indexed_flat l : flat_map (fun x => encode_peer (snd x)) (indexed l) = flat_map encode_peer l.
Proof.
  assert (H : map snd (indexed l) = l) by (apply combine_snd, indexed_len).
  rewrite !flat_map_concat_map. rewrite <- H at 2. rewrite map_map. reflexivity.
Qed.
Lemma table_roundtrip t l : map_ok (pt_peers t) -> numbered t l -> pt_collector t < 2 ^ 32 -> nlen (pt_name t) < 2 ^ 16 ->
  nlen l < 2 ^ 16 -> Forall peer_ok l ->
  encode_peer_table t = Ok (table_wire (pt_collector t) (pt_name t) l).
Proof.
  intros Hm Hn Hc Hnm Hl Hp. pose proof (numbered_perm t l Hm Hn) as Pm. apply encode_table_iff; auto. split; auto.
  assert (L : nlen (indexed l) = nlen l). { unfold nlen, indexed. rewrite combine_length, indexed_len. lia. }
  split. { unfold nlen in *. rewrite <- (Permutation_length Pm). lia. }
  exists (indexed l). split; auto. split; [apply indexed_sorted|]. rewrite L, indexed_flat, flat_map_wire by auto. reflexivity.
Qed.

(** * Registering peers *)
Lemma max_peers_val : N.of_nat max_peers = 65535. Proof. apply N2Nat.id. Qed.
Opaque max_peers.
Record registered (t : peer_table) (l : list peer) : Prop := {
  rg_num : numbered t l;
  rg_ids : forall i id, get_peer_id_by_addr t i = Some id <-> exists p, nth_error l (N.to_nat id) = Some p /\ pe_ip p = i;
  rg_dup : NoDup (map pe_ip l);
  rg_len : length (pt_ids t) = length l;
  rg_max : (length l <= max_peers)%nat }.
Lemma registered_empty c nm : registered (PeerTable c nm [] []) [].
Proof.
  constructor; cbn [pt_ids pt_peers map length]; auto; try lia; try constructor.
  - intros id. cbn. destruct (N.to_nat id); reflexivity.
  - discriminate.
  - intros (p & H & _). destruct (N.to_nat id); discriminate.
Qed.
Lemma registered_known t l p id : registered t l -> get_peer_id_by_addr t (pe_ip p) = Some id -> add_peer t p = (Ok id, t).
Proof. intros _ H. unfold add_peer. unfold get_peer_id_by_addr in H. rewrite H. reflexivity. Qed.
Lemma registered_none t l i : registered t l -> (get_peer_id_by_addr t i = None <-> forall p, In p l -> pe_ip p <> i).
Proof.
  intros R. split.
  - intros H p Hp E. apply In_nth_error in Hp as (n & Hn).
    assert (get_peer_id_by_addr t i = Some (N.of_nat n)); [|congruence]. apply (rg_ids _ _ R). exists p. rewrite Nat2N.id. auto.
  - intros H. destruct (get_peer_id_by_addr t i) eqn:E; auto. apply (rg_ids _ _ R) in E as (p & Hp & E).
    apply nth_error_In in Hp. elim (H p Hp E).
Qed.
Lemma registered_full t l p : registered t l -> get_peer_id_by_addr t (pe_ip p) = None -> length l = max_peers ->
  add_peer t p = (Err EEncTooLarge, t).
Proof.
  intros R H L. unfold add_peer. unfold get_peer_id_by_addr in H. rewrite H. unfold check_max, nlen. rewrite (rg_len _ _ R), L, max_peers_val. reflexivity.
Qed.
Lemma registered_new t l p : registered t l -> get_peer_id_by_addr t (pe_ip p) = None -> (length l < max_peers)%nat ->
  exists t', add_peer t p = (Ok (nlen l), t') /\ registered t' (l ++ [p]) /\ pt_collector t' = pt_collector t /\ pt_name t' = pt_name t.
Proof.
  intros R H L. unfold add_peer. pose proof H as H'. unfold get_peer_id_by_addr in H. rewrite H. unfold check_max, nlen. rewrite (rg_len _ _ R).
  pose proof max_peers_val. destruct (N.ltb_spec 65535 (N.of_nat (length l) + 1)); [lia|]. eexists. split; [reflexivity|]. split; [|auto].
  constructor; cbn [pt_ids pt_peers].
  - intros id. unfold get_peer_by_id. cbn [pt_peers]. rewrite (map_get_insert N.eqb N.eqb_eq), nth_error_snoc.
    fold (nlen l). rewrite eqb_nat. destruct (Nat.eqb _ _); auto. apply (rg_num _ _ R).
  - intros i id. unfold get_peer_id_by_addr. cbn [pt_ids]. rewrite (map_get_insert ip_eqb ip_eqb_eq).
    destruct (ip_eqb i (pe_ip p)) eqn:E.
    + apply ip_eqb_eq in E. split.
      * intros X. injection X as <-. exists p. rewrite Nat2N.id, nth_error_snoc, Nat.eqb_refl. auto.
      * intros (q & Hq & Eq). rewrite nth_error_snoc in Hq. destruct (Nat.eqb_spec (N.to_nat id) (length l)) as [e|e]; [f_equal; lia|].
        exfalso. apply nth_error_In in Hq. apply (proj1 (registered_none _ _ _ R) H' q Hq). congruence.
    + fold (get_peer_id_by_addr t i). rewrite (rg_ids _ _ R). split; intros (q & Hq & Eq); exists q; split; auto.
      * rewrite nth_error_app1; auto. apply nth_error_Some. congruence.
      * rewrite nth_error_snoc in Hq. destruct (Nat.eqb _ _); auto. injection Hq as ->. exfalso.
        assert (ip_eqb i (pe_ip q) = true); [|congruence]. apply ip_eqb_eq. auto.
  - rewrite map_app. cbn [map]. pose proof (NoDup_rev (rg_dup _ _ R)) as D.
    rewrite <- (rev_involutive (map pe_ip l ++ [pe_ip p])). apply NoDup_rev. rewrite rev_app_distr. cbn [rev app]. constructor; auto.
    intros X. apply in_rev in X. apply in_map_iff in X as (q & Eq & Hq). apply (proj1 (registered_none _ _ _ R) H' q Hq Eq).
  - rewrite (insert_len ip_eqb ip_eqb_eq) by exact H. rewrite app_length, (rg_len _ _ R). cbn. lia.
  - rewrite app_length. cbn. lia.
Qed.
Lemma filter_snoc {A} (f : A -> bool) l x : filter f (l ++ [x]) = filter f l ++ (if f x then [x] else []).
Proof. rewrite filter_app. reflexivity. Qed.
Lemma firsts_snoc l p : firsts (l ++ [p]) = firsts l ++ (if existsb (fun q => ip_eqb (pe_ip q) (pe_ip p)) l then [] else [p]).
Proof.
  induction l as [|q l IH]; cbn [app firsts existsb]; [reflexivity|]. rewrite IH. f_equal.
  destruct (existsb (fun q0 => ip_eqb (pe_ip q0) (pe_ip p)) l) eqn:E; cbn [app].
  - rewrite !app_nil_r. rewrite Bool.orb_true_r. rewrite app_nil_r. reflexivity.
  - rewrite filter_snoc. rewrite Bool.orb_false_r.
    replace (ip_eqb (pe_ip p) (pe_ip q)) with (ip_eqb (pe_ip q) (pe_ip p)).
    + destruct (ip_eqb (pe_ip q) (pe_ip p)); reflexivity.
    + destruct (ip_eqb (pe_ip q) (pe_ip p)) eqn:X; symmetry.
      * apply ip_eqb_eq in X. apply ip_eqb_eq. auto.
      * destruct (ip_eqb (pe_ip p) (pe_ip q)) eqn:Y; auto. apply ip_eqb_eq in Y. symmetry in Y. apply ip_eqb_eq in Y. congruence.
Qed.
Lemma firsts_covers l p : In p l -> exists q, In q (firsts l) /\ pe_ip q = pe_ip p.
Proof.
  induction l as [|h l IH]; [intros []|]. intros [->|H]; cbn [firsts].
  - exists p. split; [left|]; auto.
  - destruct (IH H) as (q & Hq & E). destruct (ip_eqb (pe_ip q) (pe_ip h)) eqn:X.
    + apply ip_eqb_eq in X. exists h. split; [left; auto|congruence].
    + exists q. split; auto. right. apply filter_In. rewrite X. auto.
Qed.
Lemma firsts_in l p : In p (firsts l) -> In p l.
Proof. induction l as [|h l IH]; cbn [firsts]; auto. intros [->|H]; [left; auto|]. apply filter_In in H as [H _]. right; auto. Qed.
Lemma register_snoc t ps p : register t (ps ++ [p]) =
  (let '(rs, t1) := register t ps in let '(r, t2) := add_peer t1 p in (rs ++ [r], t2)).
Proof. unfold register. rewrite fold_left_app. reflexivity. Qed.
Lemma firstn_snoc {A} n (l : list A) x : firstn n (l ++ [x]) = if (length l <? n)%nat then firstn n l ++ [x] else firstn n l.
Proof.
  rewrite firstn_app. destruct (Nat.ltb_spec (length l) n).
  - destruct (n - length l)%nat eqn:E; [lia|]. cbn. rewrite firstn_nil. reflexivity.
  - replace (n - length l)%nat with 0%nat by lia. cbn. apply app_nil_r.
Qed.
Lemma register_all c nm ps : exists rs t, register (PeerTable c nm [] []) ps = (rs, t) /\
  registered t (firstn max_peers (firsts ps)) /\ length rs = length ps /\ pt_collector t = c /\ pt_name t = nm /\
  forall k p, nth_error ps k = Some p -> exists n q,
    nth_error (firsts ps) n = Some q /\ pe_ip q = pe_ip p /\ nth_error rs k = Some (entry_result n).
Proof.
  induction ps as [|p ps IH] using rev_ind.
  - exists [], (PeerTable c nm [] []). split; [reflexivity|]. split; [apply registered_empty|]. repeat split; auto.
    intros [|k] p H; discriminate.
  - destruct IH as (rs & t & E & R & L & C1 & C2 & A). rewrite register_snoc, E.
    assert (OLD : forall r f, (forall n q, nth_error (firsts ps) n = Some q -> nth_error f n = Some q) ->
       forall k p0, nth_error ps k = Some p0 -> exists n q,
         nth_error f n = Some q /\ pe_ip q = pe_ip p0 /\ nth_error (rs ++ [r]) k = Some (entry_result n)).
    { intros r f Hf k p0 Hk. destruct (A k p0 Hk) as (n & q & H1 & H2 & H3). exists n, q. split; auto. split; auto.
      rewrite nth_error_app1; auto. apply nth_error_Some. congruence. }
    assert (LAST : forall r f, (forall n q, nth_error (firsts ps) n = Some q -> nth_error f n = Some q) ->
       (exists n q, nth_error f n = Some q /\ pe_ip q = pe_ip p /\ r = entry_result n) ->
       forall k p0, nth_error (ps ++ [p]) k = Some p0 -> exists n q,
         nth_error f n = Some q /\ pe_ip q = pe_ip p0 /\ nth_error (rs ++ [r]) k = Some (entry_result n)).
    { intros r f Hf (n & q & H1 & H2 & H3) k p0 Hk. rewrite nth_error_snoc in Hk. destruct (Nat.eqb_spec k (length ps)) as [->|Hne].
      - injection Hk as <-. exists n, q. split; auto. split; auto. rewrite nth_error_snoc, L, Nat.eqb_refl. congruence.
      - apply OLD; auto. }
    rewrite firsts_snoc. set (F := firsts ps) in *.
    destruct (existsb (fun q => ip_eqb (pe_ip q) (pe_ip p)) ps) eqn:EX.
    + rewrite app_nil_r. apply existsb_exists in EX as (q0 & Hq0 & X). apply ip_eqb_eq in X.
      destruct (firsts_covers ps q0 Hq0) as (q & Hq & Eq). apply In_nth_error in Hq as (n & Hn). fold F in Hn.
      destruct (Nat.lt_ge_cases n max_peers) as [Hlt|Hge].
      * assert (G : get_peer_id_by_addr t (pe_ip p) = Some (N.of_nat n)).
        { apply (rg_ids _ _ R). exists q. rewrite Nat2N.id. split; [|congruence]. rewrite <- Hn.
          clear - Hlt. revert n Hlt. generalize max_peers as m. induction F; intros m n H; destruct m, n; cbn; auto; try lia. apply IHF. lia. }
        rewrite (registered_known _ _ p _ R G). exists (rs ++ [Ok (N.of_nat n)]), t.
        split; auto. split; auto. split; [rewrite !app_length; cbn; lia|]. split; auto. split; auto.
        apply LAST; auto. exists n, q. split; auto. split; [congruence|]. unfold entry_result. destruct (Nat.ltb_spec n max_peers); [auto|lia].
      * assert (LF : (max_peers < length F)%nat). { assert (n < length F)%nat by (apply nth_error_Some; congruence). lia. }
        assert (ND : NoDup (map pe_ip F)).
        { unfold F. clear. induction ps as [|h l IH]; cbn [firsts map]; constructor.
          - intros X. apply in_map_iff in X as (q & Eq & Hq). apply filter_In in Hq as [_ Hq].
            assert (ip_eqb (pe_ip q) (pe_ip h) = true) by (apply ip_eqb_eq; auto). rewrite H in Hq. discriminate.
          - clear - IH. induction (firsts l) as [|q f IHf]; cbn [filter]; [constructor|]. inversion IH; subst.
            destruct (negb _); auto. cbn [map]. constructor; auto. intros X. apply H1. apply in_map_iff in X as (y & Ey & Hy).
            apply filter_In in Hy as [Hy _]. apply in_map_iff. eauto. }
        assert (G : get_peer_id_by_addr t (pe_ip p) = None).
        { apply (registered_none _ _ _ R). intros y Hy Ey. apply In_nth_error in Hy as (j & Hj).
          assert (Hj65 : (j < max_peers)%nat). { assert (j < length (firstn max_peers F))%nat by (apply nth_error_Some; congruence). rewrite firstn_length in H. lia. }
          assert (HjF : nth_error F j = Some y).
          { rewrite <- Hj. clear - Hj65. revert j Hj65. generalize max_peers as m. induction F; intros m j H; destruct m, j; cbn; auto; try lia. apply IHF. lia. }
          assert (j = n); [|lia]. apply (proj1 (NoDup_nth_error (map pe_ip F)) ND).
          - rewrite map_length. apply nth_error_Some. congruence.
          - rewrite !nth_error_map, HjF, Hn. cbn. congruence. }
        rewrite (registered_full _ _ p R G); [|rewrite firstn_length; lia]. exists (rs ++ [Err EEncTooLarge]), t.
        split; auto. split; auto. split; [rewrite !app_length; cbn; lia|]. split; auto. split; auto.
        apply LAST; auto. exists n, q. split; auto. split; [congruence|]. unfold entry_result. destruct (Nat.ltb_spec n max_peers); [lia|auto].
    + assert (G : get_peer_id_by_addr t (pe_ip p) = None).
      { apply (registered_none _ _ _ R). intros y Hy Ey. assert (In y ps). { apply firsts_in. fold F. clear - Hy.
          revert Hy. generalize max_peers as m. induction F; intros [|m]; cbn; auto; try tauto. intros [->|H]; eauto. }
        assert (existsb (fun q => ip_eqb (pe_ip q) (pe_ip p)) ps = true); [|congruence]. apply existsb_exists. exists y.
        split; auto. apply ip_eqb_eq. auto. }
      assert (EXT : forall n q, nth_error F n = Some q -> nth_error (F ++ [p]) n = Some q).
      { intros n q H. rewrite nth_error_app1; auto. apply nth_error_Some. congruence. }
      assert (TOP : nth_error (F ++ [p]) (length F) = Some p) by (rewrite nth_error_snoc, Nat.eqb_refl; auto).
      rewrite firstn_snoc. destruct (Nat.ltb_spec (length F) max_peers) as [Hlt|Hge].
      * assert (FN : firstn max_peers F = F) by (apply firstn_all2; lia). rewrite FN in *.
        destruct (registered_new _ _ p R G Hlt) as (t' & E' & R' & C1' & C2'). rewrite E'.
        exists (rs ++ [Ok (nlen F)]), t'. split; auto. split; auto. split; [rewrite !app_length; cbn; lia|].
        split; [congruence|]. split; [congruence|]. apply LAST; auto. exists (length F), p. split; auto. split; auto.
        unfold entry_result. destruct (Nat.ltb_spec (length F) max_peers); [auto|lia].
      * rewrite (registered_full _ _ p R G); [|rewrite firstn_length; lia]. exists (rs ++ [Err EEncTooLarge]), t.
        split; auto. split; auto. split; [rewrite !app_length; cbn; lia|]. split; auto. split; auto.
        apply LAST; auto. exists (length F), p. split; auto. split; auto.
        unfold entry_result. destruct (Nat.ltb_spec (length F) max_peers); [lia|auto].
Qed.

(** * Geographic peers *)
Lemma read_geo_wire g r : geo_ok g -> read_geo_peer (geo_wire g ++ r) = Ok (g, r).
Proof.
  intros (Hp & H1 & H2). destruct g as [[t id i a] la lo]. cbn [gp_peer gp_lat gp_lon] in *.
  destruct Hp as (P1 & P2 & P3 & P4 & P5). cbn [pe_type pe_id pe_ip pe_asn] in *.
  unfold read_geo_peer, geo_wire, peer_wire, read_ipv4, read_ipv6. cbn [gp_peer gp_lat gp_lon pe_type pe_id pe_ip pe_asn].
  rewrite <- !app_assoc. cbn [app]. rewrite (bind_ok _ _ _ _ _ (read_u8_cons _ _)).
  rewrite (bind_ok _ _ _ _ _ (read_be_be 4 _ _ P2)). unfold type_ipv6, type_as4. rewrite P4.
  erewrite bind_ok.
  2:{ destruct i; cbn [is_v4 negb octets ip_ok] in *;
      [rewrite (bind_ok _ _ _ _ _ (read_be_be 4 _ _ P3))|rewrite (bind_ok _ _ _ _ _ (read_be_be 16 _ _ P3))]; reflexivity. }
  erewrite bind_ok; [|destruct (N.testbit t 1); apply read_be_be; exact P5].
  rewrite (bind_ok _ _ _ _ _ (read_be_be 4 _ _ H1)). rewrite (bind_ok _ _ _ _ _ (read_be_be 4 _ _ H2)).
  destruct i; reflexivity.
Qed.
Lemma read_geo_inv s g r : read_geo_peer s = Ok (g, r) -> bytes_ok s -> s = geo_wire g ++ r /\ geo_ok g.
Proof.
  intros H Hs. unfold read_geo_peer, read_ipv4, read_ipv6 in H. pstep H. pstep H.
  apply bind_inv in H as (i & s1 & Hi & H).
  assert (I : s = octets i ++ s1 /\ ip_ok i /\ bytes_ok s1 /\ N.testbit a 0 = negb (is_v4 i)).
  { unfold type_ipv6 in Hi. destruct (N.testbit a 0); pstep Hi; apply ret_inv in Hi as [<- ->]; auto. }
  destruct I as (-> & I1 & I2 & I3). clear Hi.
  apply bind_inv in H as (x & s2 & Hx & H).
  assert (X : s1 = be (if N.testbit a 1 then 4 else 2) x ++ s2 /\ x < (if N.testbit a 1 then 2 ^ 32 else 2 ^ 16) /\ bytes_ok s2).
  { unfold type_as4 in Hx. destruct (N.testbit a 1); apply read_be_inv_ok in Hx; auto. }
  destruct X as (-> & X1 & X2). clear Hx.
  pstep H. pstep H. apply ret_inv in H as [<- ->]. unfold geo_wire, geo_ok, peer_wire, peer_ok. cbn [gp_peer gp_lat gp_lon pe_type pe_id pe_ip pe_asn].
  rewrite (be_1 a) by exact Hb. rewrite <- !app_assoc. split; [reflexivity|]. repeat split; auto.
Qed.
Lemma npp_read_geo : npp read_geo_peer.
Proof.
  unfold read_geo_peer, read_ipv4, read_ipv6. do 2 (apply npp_bind; [apply npp_read_be|]; intros).
  apply npp_bind. { destruct (type_ipv6 _); (apply npp_bind; [apply npp_read_be|]; intros; apply npp_ret). }
  intros. apply npp_bind. { destruct (type_as4 _); apply npp_read_be. }
  intros. do 2 (apply npp_bind; [apply npp_read_be|]; intros). apply npp_ret.
Qed.
Lemma geo_parse c nm la lo l r : c < 2 ^ 32 -> nlen nm < 2 ^ 16 -> la < 2 ^ 32 -> lo < 2 ^ 32 -> nlen l < 2 ^ 16 -> Forall geo_ok l ->
  parse_geo_table (geo_table_wire c nm la lo l ++ r) = Ok (GeoTable c (latin1 nm) la lo l, r).
Proof.
  intros Hc Hn Ha Ho Hl Hp. unfold parse_geo_table, geo_table_wire, read_ipv4. rewrite <- !app_assoc.
  rewrite (bind_ok _ _ _ _ _ (read_be_be 4 c _ Hc)). rewrite (bind_ok _ _ _ _ _ (read_be_be 2 _ _ Hn)).
  rewrite (bind_ok _ _ _ _ _ (read_n_bytes_app _ nm _ eq_refl)).
  rewrite (bind_ok _ _ _ _ _ (read_be_be 4 _ _ Ha)). rewrite (bind_ok _ _ _ _ _ (read_be_be 4 _ _ Ho)).
  rewrite (bind_ok _ _ _ _ _ (read_be_be 2 _ _ Hl)).
  rewrite to_nat_nlen. rewrite (bind_ok _ _ _ _ _ (repeat_p_app read_geo_peer geo_wire geo_ok l r (fun a s H => read_geo_wire a s H) Hp)). reflexivity.
Qed.
Lemma geo_parsed s t r : parse_geo_table s = Ok (t, r) -> bytes_ok s -> exists nm,
  s = geo_table_wire (gt_collector t) nm (gt_lat t) (gt_lon t) (gt_peers t) ++ r /\ gt_collector t < 2 ^ 32 /\ nlen nm < 2 ^ 16 /\
  gt_lat t < 2 ^ 32 /\ gt_lon t < 2 ^ 32 /\ nlen (gt_peers t) < 2 ^ 16 /\ Forall geo_ok (gt_peers t) /\ gt_name t = latin1 nm.
Proof.
  intros H Hs. unfold parse_geo_table, read_ipv4 in H. pstep H. pstep H.
  apply bind_inv in H as (nm & s1 & H1 & H). apply read_n_bytes_inv in H1 as (-> & <-). apply bytes_ok_app in Ho0 as [_ Ho1].
  pstep H. pstep H.
  apply bind_inv in H as (cnt & s2 & H1 & H). apply read_be_inv_ok in H1 as (-> & Hb3 & Ho4); auto.
  apply bind_inv in H as (l & s3 & H1 & H). apply (repeat_p_inv read_geo_peer geo_wire geo_ok) in H1 as (-> & F & L); auto using read_geo_inv.
  apply ret_inv in H as [<- ->]. exists nm. cbn [gt_collector gt_name gt_lat gt_lon gt_peers]. lits.
  assert (cnt = nlen l) as -> by (unfold nlen; lia). unfold geo_table_wire. rewrite <- !app_assoc. auto 9.
Qed.
Lemma npp_geo : npp parse_geo_table.
Proof.
  unfold parse_geo_table, read_ipv4. do 2 (apply npp_bind; [apply npp_read_be|]; intros). apply npp_bind; [apply npp_read_n_bytes|]; intros.
  do 3 (apply npp_bind; [apply npp_read_be|]; intros). apply npp_bind; [apply npp_repeat, npp_read_geo|]; intros. apply npp_ret.
Qed.
Lemma encode_geo_iff t b : encode_geo_table t = Ok b <-> nlen (gt_name t) < 2 ^ 16 /\ nlen (gt_peers t) < 2 ^ 16 /\
  b = be 4 (gt_collector t) ++ be 2 (nlen (gt_name t)) ++ gt_name t ++ be 4 (gt_lat t) ++ be 4 (gt_lon t) ++ be 2 (nlen (gt_peers t)) ++
      flat_map encode_geo_peer (gt_peers t).
Proof.
  unfold encode_geo_table. split.
  - intros H. apply rbind_inv in H as (nm & H1 & H). apply put_len_slice_inv in H1 as (L1 & ->).
    apply rbind_inv in H as (u & H1 & H). apply check_max_iff in H1. lits. apply ok_inj in H. subst b.
    split; auto. split; [lia|]. rewrite <- !app_assoc. reflexivity.
  - intros (H1 & H2 & ->). rewrite put_len_slice_ok by exact H1. cbn [rbind].
    rewrite (proj2 (check_max_iff _ _ tt)) by lia. cbn [rbind]. rewrite <- !app_assoc. reflexivity.
Qed.
Lemma flat_map_geo l : Forall geo_ok l -> flat_map encode_geo_peer l = flat_map geo_wire l.
Proof.
  induction 1 as [|g l Hg H IH]; cbn [flat_map]; auto. rewrite IH. f_equal. unfold encode_geo_peer, geo_wire.
  rewrite encode_peer_wire; auto. apply Hg.
Qed.
Lemma np_encode_geo t : np (encode_geo_table t).
Proof.
  unfold encode_geo_table. apply np_rbind; [apply np_put_len|]. intros. apply np_rbind; [apply np_check_max|]. intros. apply np_ok.
Qed.

(** * RIB entries *)
Lemma rib_subtype_iff t a sf ap : rib_subtype t a sf ap <-> rib_family t = Some (a, sf) /\ rib_add_path t = ap.
Proof.
  split.
  - intros (-> & [-> | ->] & [-> | ->]); destruct ap; split; reflexivity.
  - intros [H <-]. unfold rib_family in H. code_cases t; try discriminate; injection H as <- <-;
      (split; [reflexivity|split; [first [left; reflexivity|right; reflexivity]|first [left; reflexivity|right; reflexivity]]]).
Qed.
Lemma encode_prefix_net x : net_len x < 256 -> encode_prefix (Pfx x None) = net_wire x.
Proof.
  intros H. unfold encode_prefix, net_wire. cbn [p_net p_id]. rewrite be_1 by auto. reflexivity.
Qed.
Lemma net_ok_small x : net_ok x -> net_len x < 256.
Proof. intros [_ H]. destruct (net_addr x); cbn in H; lia. Qed.
Lemma afi_v4 a : afi_eqb a AIpv4 = match a with AIpv4 => true | _ => false end.
Proof. destruct a; reflexivity. Qed.
Lemma read_entry ap a sf p w e r : entry_reads ap a sf p w e -> read_rib_entry ap a sf p (w ++ r) = Ok (e, r).
Proof.
  intros (b & A & -> & H1 & H2 & H3 & H4 & H5 & H6). unfold read_rib_entry.
  replace (Nat.ltb (length (entry_wire (re_peer e) (re_time e) (re_path e) b ++ r)) 8) with false.
  2:{ symmetry. apply Nat.ltb_ge. unfold entry_wire. rewrite !app_length, !be_length. lia. }
  unfold entry_wire. rewrite <- !app_assoc.
  rewrite (bind_ok _ _ _ _ _ (read_be_be 2 _ _ H1)). rewrite (bind_ok _ _ _ _ _ (read_be_be 4 _ _ H2)).
  rewrite (bind_ok _ _ _ (re_path e) (be 2 (nlen b) ++ b ++ r)).
  2:{ unfold path_wire, path_ok in *. destruct (re_path e) as [i|].
      - destruct H3 as [-> H3]. rewrite (bind_ok _ _ _ _ _ (read_be_be 4 i _ H3)). reflexivity.
      - subst ap. reflexivity. }
  rewrite (bind_ok _ _ _ _ _ (read_be_be 2 _ _ H4)).
  assert (L : nlen b <= nlen (b ++ r)) by (rewrite nlen_app; lia). rewrite (bind_ok _ _ _ _ _ (has_n_ok _ _ L)). rewrite to_nat_nlen.
  rewrite (bind_ok _ _ _ _ _ (split_to_app (length b) b r eq_refl)). fold (rib_cfg ap a sf p). rewrite (bind_ok _ _ _ A r) by (unfold lift; rewrite H5; reflexivity).
  unfold ret. rewrite afi_v4, <- H6. destruct e; reflexivity.
Qed.
Lemma read_entry_inv ap a sf p s e r : read_rib_entry ap a sf p s = Ok (e, r) -> bytes_ok s ->
  exists w, s = w ++ r /\ entry_reads ap a sf p w e.
Proof.
  unfold read_rib_entry. destruct (Nat.ltb (length s) 8); [discriminate|]. intros H Hs.
  pstep H. pstep H. apply bind_inv in H as (o & s1 & H1 & H).
  assert (X : s = path_wire o ++ s1 /\ path_ok ap o /\ bytes_ok s1).
  { destruct ap; [pstep H1|]; apply ret_inv in H1 as [<- ->]; cbn; auto. }
  destruct X as (-> & Hpo & Ho1). clear H1.
  apply bind_inv in H as (n & s2 & H1 & H). apply read_be_inv_ok in H1 as (-> & Hn & Ho3); auto.
  apply bind_inv in H as (u & s3 & H1 & H). apply has_n_inv in H1 as [-> H1].
  apply bind_inv in H as (b & s4 & H2 & H). apply split_to_inv in H2 as [-> H2].
  apply bind_inv in H as (A & s5 & H3 & H). apply lift_inv in H3 as [H3 ->]. apply ret_inv in H as [<- ->].
  assert (n = nlen b) as -> by (unfold nlen; lia).
  exists (entry_wire a0 a1 o b). split; [unfold entry_wire; rewrite <- !app_assoc; reflexivity|].
  exists b, A. cbn [re_peer re_time re_path re_attrs]. lits. rewrite afi_v4. auto 8.
Qed.
Lemma npp_rib_entry ap a sf p : npp (read_rib_entry ap a sf p).
Proof.
  intros s. unfold read_rib_entry. destruct (Nat.ltb (length s) 8); [discriminate|]. revert s.
  change (npp (pi <- read_u16 ;; t <- read_u32 ;;
   pid <- (if ap then i <- read_u32 ;; ret (Some i) else ret None) ;;
   n <- read_u16 ;; has_n n ;;; b <- split_to (N.to_nat n) ;;
   A <- lift (parse_attributes (ACfg Bits32 ap (Some a) (Some sf) (Some [p])) b) ;;
   ret (RibEntry pi t pid (check_mandatory A true (afi_eqb a AIpv4))))).
  do 2 (apply npp_bind; [apply npp_read_be|]; intros).
  apply npp_bind; [destruct ap; [apply npp_bind; [apply npp_read_be|]; intros|]; apply npp_ret|]. intros.
  apply npp_bind; [apply npp_read_be|]; intros n s.
  unfold has_n at 1. unfold bind at 1. destruct (N.ltb_spec (nlen s) n); [discriminate|].
  apply np_split_bind; [unfold nlen in *; lia|]. intros l r _ _. apply np_bind; [apply npp_lift, parse_attributes_np|]. intros. apply npp_ret.
Qed.
(** [upto_p] reads as many as it can. *)
Lemma upto_inv {A} (p : P A) (Q : bytes -> A -> Prop) :
  (forall s e r, p s = Ok (e, r) -> bytes_ok s -> exists w, s = w ++ r /\ Q w e) -> npp p ->
  forall n s l, upto_p n p s = Ok l -> bytes_ok s ->
  exists ws rest, s = concat ws ++ rest /\ Forall2 Q ws l /\ (length l <= n)%nat /\
    ((length l < n)%nat -> exists e, p rest = Err e).
Proof.
  intros Hp Hnp. induction n as [|n IH]; intros s l H Hs; cbn [upto_p] in H.
  - injection H as <-. exists [], s. cbn. split; auto. split; auto. split; auto. lia.
  - destruct (p s) as [[e r]|e|] eqn:E.
    + apply Hp in E as (w & -> & Hw); auto. apply rbind_inv in H as (l' & H1 & H). injection H as <-. apply bytes_ok_app in Hs as [_ Hs].
      destruct (IH r l' H1 Hs) as (ws & rest & -> & F & L & N1). exists (w :: ws), rest. cbn [concat length]. rewrite <- app_assoc.
      split; auto. split; [constructor; auto|]. split; [lia|]. intros; apply N1; lia.
    + injection H as <-. exists [], s. cbn [concat length app]. split; auto. split; auto. split; [lia|]. intros _. eauto.
    + discriminate.
Qed.
Lemma upto_ok {A} (p : P A) (Q : bytes -> A -> Prop) :
  (forall w e r, Q w e -> p (w ++ r) = Ok (e, r)) ->
  forall n ws l rest, Forall2 Q ws l -> (length l <= n)%nat -> ((length l < n)%nat -> exists e, p rest = Err e) ->
  upto_p n p (concat ws ++ rest) = Ok l.
Proof.
  intros Hp. induction n as [|n IH]; intros ws l rest F L E; cbn [upto_p].
  - destruct F; [reflexivity|cbn in L; lia].
  - destruct F as [|w e ws l Hw F]; cbn [concat length] in *.
    + cbn [app]. destruct (E ltac:(lia)) as [x ->]. reflexivity.
    + rewrite <- app_assoc, (Hp w e _ Hw). rewrite (IH ws l rest F); [reflexivity|lia|]. intros; apply E; lia.
Qed.
Lemma np_upto {A} n (p : P A) s : npp p -> np (upto_p n p s).
Proof.
  intros Hp. revert s. induction n as [|n IH]; intros s; cbn [upto_p]; [apply np_ok|]. specialize (Hp s).
  destruct (p s) as [[e r]|e|]; [|apply np_ok|congruence]. apply np_rbind; auto. intros; apply np_ok.
Qed.
Lemma parse_rib_np t s : np (parse_rib t s).
Proof.
  unfold parse_rib. destruct (rib_family t) as [[a sf]|]; [|apply np_err]. apply np_run.
  apply npp_bind; [apply npp_read_be|]. intros. apply npp_bind; [apply npp_read_nlri_prefix|]. intros. apply npp_bind; [apply npp_read_be|]. intros n s'.
  unfold bind at 1, peek. apply np_bind; [apply npp_lift, np_upto, npp_rib_entry|]. intros. apply npp_ret.
Qed.
(** What no entry can be read from. *)
Lemma entry_err ap a sf p s : bytes_ok s -> ((exists e, read_rib_entry ap a sf p s = Err e) <->
  forall w r e, s = w ++ r -> ~ entry_reads ap a sf p w e).
Proof.
  intros Hs. split.
  - intros [x H] w r e -> R. rewrite (read_entry _ _ _ _ _ _ r R) in H. discriminate.
  - intros H. destruct (read_rib_entry ap a sf p s) as [[e r]|e|] eqn:E; eauto.
    + apply read_entry_inv in E as (w & Ew & R); auto. elim (H w r e Ew R).
    + elim (npp_rib_entry ap a sf p s E).
Qed.
Lemma family_subtype t a sf : rib_family t = Some (a, sf) -> a <> ALinkState.
Proof. unfold rib_family. intros H. code_cases t; try discriminate; injection H as <- _; discriminate. Qed.
Lemma parse_rib_make t r a sf ap x count ws rest : rib_subtype t a sf ap -> bytes_ok rest ->
    rb_type r = t -> rb_seq r < 2 ^ 32 -> count < 2 ^ 16 -> net_ok x -> afi_of_ip (net_addr x) = a ->
    rb_prefix r = Pfx (wire_trunc x) None -> Forall2 (entry_reads ap a sf (rb_prefix r)) ws (rb_entries r) ->
    nlen (rb_entries r) <= count ->
    (nlen (rb_entries r) < count -> forall w y e, rest = w ++ y -> ~ entry_reads ap a sf (rb_prefix r) w e) ->
  parse_rib t (rib_wire (rb_seq r) x count (concat ws ++ rest)) = Ok r.
Proof.
  intros Ht Hr E1 H1 H2 Hx Hf E2 F L N1. unfold parse_rib.
    apply rib_subtype_iff in Ht as [-> <-]. unfold rib_wire. eapply run_ok.
    rewrite (bind_ok _ _ _ _ _ (read_be_be 4 _ _ H1)).
    assert (Ef : a = family (Pfx x None)) by (unfold family; cbn [p_net]; rewrite <- Hf; destruct (net_addr x); reflexivity).
    rewrite <- encode_prefix_net by (apply net_ok_small; auto).
    pose proof (read_encode_prefix (Pfx x None) (be 2 count ++ concat ws ++ rest) (conj Hx I)) as R. rewrite <- Ef in R. unfold has_id in R. cbn [p_id p_net] in R.
    rewrite <- E2 in R. rewrite (bind_ok _ _ _ _ _ R). rewrite (bind_ok _ _ _ _ _ (read_be_be 2 _ _ H2)).
    rewrite (bind_ok _ _ _ (concat ws ++ rest) (concat ws ++ rest)) by reflexivity.
    unfold lift. unfold bind at 1.
    rewrite (upto_ok _ (entry_reads (rib_add_path t) a sf (rb_prefix r)) (read_entry _ _ _ _) _ ws (rb_entries r) rest F).
    + rewrite <- E1. destruct r; reflexivity.
    + unfold nlen in L. lia.
    + intros Hc. apply entry_err; auto. apply N1. unfold nlen. lia.
Qed.
Lemma parse_rib_iff t s r : bytes_ok s -> (parse_rib t s = Ok r <->
  exists a sf ap x count ws rest, rib_subtype t a sf ap /\ s = rib_wire (rb_seq r) x count (concat ws ++ rest) /\
    rb_type r = t /\ rb_seq r < 2 ^ 32 /\ count < 2 ^ 16 /\ net_ok x /\ afi_of_ip (net_addr x) = a /\
    rb_prefix r = Pfx (wire_trunc x) None /\ Forall2 (entry_reads ap a sf (rb_prefix r)) ws (rb_entries r) /\
    nlen (rb_entries r) <= count /\
    (nlen (rb_entries r) < count -> forall w y e, rest = w ++ y -> ~ entry_reads ap a sf (rb_prefix r) w e)).
Proof.
  intros Hs. unfold parse_rib. split.
  - destruct (rib_family t) as [[a sf]|] eqn:Ef; [|discriminate]. intros H. apply run_inv in H as (z & H).
    pose proof (family_subtype _ _ _ Ef) as Ha.
    pstep H. apply bind_inv in H as (p & s1 & H1 & H). pose proof H1 as H1'. apply read_nlri_prefix_inv in H1 as (-> & Hp & Hf & Hi); auto.
    apply bytes_ok_app in Ho as [_ Ho]. apply bind_inv in H as (n & s2 & H2 & H). apply read_be_inv_ok in H2 as (-> & Hn & Ho2); auto.
    unfold peek in H. apply bind_inv in H as (y & s3 & H2 & H). inversion H2; subst y s3; clear H2.
    apply bind_inv in H as (l & s4 & H2 & H). apply lift_inv in H2 as [H2 ->]. apply ret_inv in H as [<- ->].
    apply (upto_inv _ (entry_reads (rib_add_path t) a sf p)) in H2; auto using read_entry_inv, npp_rib_entry.
    destruct H2 as (ws & rest & -> & F & L & E). apply bytes_ok_app in Ho2 as [_ Ho2].
    exists a, sf, (rib_add_path t), (p_net p), n, ws, rest. cbn [rb_type rb_seq rb_prefix rb_entries]. lits.
    unfold has_id in Hi. destruct p as [x [|]]; [discriminate|]. cbn [p_net p_id] in *. destruct Hp as [Hp _].
    split; [apply rib_subtype_iff; auto|]. unfold rib_wire. rewrite <- encode_prefix_net by (apply net_ok_small; auto).
    split; auto. split; auto. split; auto. split; auto. split; auto. split; [unfold family in Hf; cbn [p_net] in Hf; destruct (net_addr x); exact Hf|].
    split.
    { pose proof (read_encode_prefix (Pfx x None) (be 2 n ++ concat ws ++ rest) (conj Hp I)) as R. rewrite Hf in R. unfold has_id in R. cbn [p_id p_net] in R.
      rewrite H1' in R. congruence. }
    split; auto. split; [unfold nlen; lia|]. intros Hc. apply entry_err; auto. apply E. unfold nlen in Hc. lia.
  - intros (a & sf & ap & x & count & ws & rest & Ht & -> & E1 & H1 & H2 & Hx & Hf & E2 & F & L & N1).
    assert (Hr : bytes_ok rest). { unfold rib_wire in Hs. do 3 apply bytes_ok_app in Hs as [_ Hs]. apply bytes_ok_app in Hs. tauto. }
    apply (parse_rib_make t r a sf ap x count ws rest); auto.
Qed.
Lemma encode_rib_entry_iff ap e b : encode_rib_entry ap e = Ok b <->
  exists x, encode_attributes Bits32 (at_inner (re_attrs e)) = Ok x /\ nlen x < 2 ^ 16 /\
    b = entry_wire (re_peer e) (re_time e) (if ap then re_path e else None) x.
Proof.
  unfold encode_rib_entry, with_len, entry_wire. split.
  - intros H. apply rbind_inv in H as (y & H1 & H). apply rbind_inv in H1 as (x & H1 & H2). apply put_len_slice_inv in H2 as (L & ->).
    apply ok_inj in H. subst b. exists x. split; auto. split; auto. unfold path_wire. destruct ap; auto.
  - intros (x & H1 & H2 & ->). rewrite H1. cbn [rbind]. rewrite put_len_slice_ok by exact H2. cbn [rbind]. unfold path_wire. destruct ap; auto.
Qed.
Lemma encode_rib_iff r b : encode_rib r = Ok b <->
  nlen (rb_entries r) < 2 ^ 16 /\ exists xs,
    Forall2 (fun e x => encode_attributes Bits32 (at_inner (re_attrs e)) = Ok x /\ nlen x < 2 ^ 16) (rb_entries r) xs /\
    b = be 4 (rb_seq r) ++ encode_prefix (rb_prefix r) ++ be 2 (nlen (rb_entries r)) ++
        concat (map (fun y => entry_wire (re_peer (fst y)) (re_time (fst y)) (if rib_add_path (rb_type r) then re_path (fst y) else None) (snd y))
          (combine (rb_entries r) xs)).
Proof.
  unfold encode_rib. set (ap := rib_add_path (rb_type r)).
  assert (G : forall l bs, rmap (encode_rib_entry ap) l = Ok bs <-> exists xs,
     Forall2 (fun e x => encode_attributes Bits32 (at_inner (re_attrs e)) = Ok x /\ nlen x < 2 ^ 16) l xs /\
     bs = map (fun y => entry_wire (re_peer (fst y)) (re_time (fst y)) (if ap then re_path (fst y) else None) (snd y)) (combine l xs)).
  { intros l bs. rewrite rmap_ok. split.
    - induction 1 as [|e b0 l bs He F IH].
      + exists []. split; [constructor|reflexivity].
      + destruct IH as (xs & F2 & ->). apply encode_rib_entry_iff in He as (x & H1 & H2 & ->). exists (x :: xs). split; [constructor; auto|reflexivity].
    - intros (xs & F & ->). induction F as [|e x l xs [H1 H2] F IH]; cbn [combine map]; constructor; auto.
      apply encode_rib_entry_iff. exists x. auto. }
  split.
  - intros H. apply rbind_inv in H as (u & H1 & H). apply check_max_iff in H1. apply rbind_inv in H as (bs & H2 & H).
    apply ok_inj in H. subst b. split; [lia|]. apply G in H2 as (xs & F & ->). exists xs. auto.
  - intros (H1 & xs & F & ->). rewrite (proj2 (check_max_iff _ _ tt)) by lia. cbn [rbind].
    rewrite (proj2 (G _ _) (ex_intro _ xs (conj F eq_refl))). reflexivity.
Qed.
Lemma rib_roundtrip t a sf ap r b : rib_subtype t a sf ap -> rb_type r = t -> rb_seq r < 2 ^ 32 ->
  prefix_ok (rb_prefix r) -> p_id (rb_prefix r) = None -> wire_exact (p_net (rb_prefix r)) -> afi_of_ip (net_addr (p_net (rb_prefix r))) = a ->
  Forall (rib_entry_ok ap a sf (rb_prefix r)) (rb_entries r) -> encode_rib r = Ok b ->
  exists r', parse_rib t b = Ok r' /\ rb_type r' = rb_type r /\ rb_seq r' = rb_seq r /\ rb_prefix r' = rb_prefix r /\
    Forall2 same_entry (rb_entries r) (rb_entries r').
Proof.
  intros Ht E1 Hq Hp Hi Hw Hf Fe He. apply encode_rib_iff in He as (Hc & xs & F & ->).
  pose proof (proj1 (rib_subtype_iff _ _ _ _) Ht) as [_ Eap]. rewrite E1, Eap in *.
  assert (G : exists l', Forall2 (entry_reads ap a sf (rb_prefix r))
     (map (fun y => entry_wire (re_peer (fst y)) (re_time (fst y)) (if ap then re_path (fst y) else None) (snd y)) (combine (rb_entries r) xs)) l'
     /\ Forall2 same_entry (rb_entries r) l').
  { clear - Fe F. induction F as [|e x l xs [H1 H2] F IH]; [exists []; split; constructor|].
    inversion Fe as [|? ? (K1 & K2 & K3 & K4) Fe']; subst. destruct (IH Fe') as (l' & I1 & I2).
    destruct (attributes_roundtrip _ _ K4) as (b & rs & B1 & _ & _ & A & B2 & B3).
    assert (b = x) as -> by (unfold rib_cfg in B1; cbn [ac_asn] in B1; congruence).
    exists (RibEntry (re_peer e) (re_time e) (re_path e) (check_mandatory A true (match a with AIpv4 => true | _ => false end)) :: l').
    cbn [combine map fst snd]. split; constructor; auto.
    - exists x, A. cbn [re_peer re_time re_path re_attrs]. split.
      + f_equal. unfold path_ok in K3. destruct (re_path e); [destruct K3 as [-> _]; reflexivity|subst; reflexivity].
      + auto 8.
    - unfold same_entry. cbn [re_peer re_time re_path re_attrs]. rewrite (proj1 (check_mandatory_same _ _ _)). auto. }
  destruct G as (l' & G1 & G2). exists (Rib t (rb_seq r) (rb_prefix r) l'). cbn [rb_type rb_seq rb_prefix rb_entries]. split; auto.
  destruct (rb_prefix r) as [x o] eqn:Ep. cbn [p_net p_id] in *. subst o.
  rewrite encode_prefix_net in * by (apply net_ok_small; apply Hp).
  assert (L : nlen l' = nlen (rb_entries r)) by (unfold nlen; rewrite (forall2_length _ _ _ G2); reflexivity).
  set (ws := map _ _) in *. rewrite <- (app_nil_r (concat ws)).
  apply (parse_rib_make t (Rib t (rb_seq r) (Pfx x None) l') a sf ap x (nlen (rb_entries r)) ws []); cbn [rb_type rb_seq rb_prefix rb_entries];
    auto; try apply Hp; try constructor; try lia. rewrite wire_exact_trunc; auto.
Qed.

(** * TABLE_DUMP *)
Lemma dump_subtype_iff sub a : dump_subtype sub a <-> dump_afi sub = Some a.
Proof.
  unfold dump_subtype. split.
  - intros [[-> ->]|[-> ->]]; reflexivity.
  - unfold dump_afi. intros H. code_cases sub; try discriminate; injection H as <-; auto.
Qed.
Lemma read_dump_wire a v q w m r : dump_reads a w m -> td_view m = v -> td_seq m = q ->
  read_dump_entry a v q (w ++ r) = Ok (m, r).
Proof.
  intros (b & A & -> & (H1 & H2 & H3 & H4 & H5 & H6 & H7 & H8) & Hb & HA & E) <- <-. unfold read_dump_entry, dump_wire. rewrite <- !app_assoc.
  destruct m as [vw sq [[pa pl] o] st tm pe asn at_]. cbn [td_view td_seq td_prefix td_status td_time td_peer td_asn td_attrs p_net p_id net_addr net_len] in *.
  subst o. destruct H1 as [I1 I2]. cbn [net_addr net_len] in *.
  rewrite (bind_ok _ _ _ (Net pa pl) ([st] ++ be 4 tm ++ octets pe ++ be 2 asn ++ be 2 (nlen b) ++ b ++ r)).
  2:{ destruct pa as [n|n]; cbn [afi_of_ip] in H3; subst a; unfold read_ipv4_prefix, read_ipv6_prefix, read_ipv4, read_ipv6; cbn [octets ip_ok net_width] in *;
      [rewrite (bind_ok _ _ _ _ _ (read_be_be 4 _ _ I1))|rewrite (bind_ok _ _ _ _ _ (read_be_be 16 _ _ I1))];
      cbn [app]; rewrite (bind_ok _ _ _ _ _ (read_u8_cons _ _));
      match goal with |- (if ?c then _ else _) _ = _ => replace c with true by (symmetry; apply N.leb_le; exact I2) end; reflexivity. }
  cbn [app]. rewrite (bind_ok _ _ _ _ _ (read_u8_cons _ _)). rewrite (bind_ok _ _ _ _ _ (read_be_be 4 _ _ H5)).
  rewrite <- H7. rewrite (bind_ok _ _ _ _ _ (read_address_octets _ _ H6)). rewrite (bind_ok _ _ _ _ _ (read_be_be 2 _ _ H8)).
  rewrite (bind_ok _ _ _ _ _ (read_be_be 2 _ _ Hb)).
  assert (L : nlen b <= nlen (b ++ r)) by (rewrite nlen_app; lia). rewrite (bind_ok _ _ _ _ _ (has_n_ok _ _ L)). rewrite to_nat_nlen.
  rewrite (bind_ok _ _ _ _ _ (split_to_app (length b) b r eq_refl)). fold dump_cfg. rewrite (bind_ok _ _ _ A r) by (unfold lift; rewrite HA; reflexivity).
  unfold ret. rewrite afi_v4, H7, <- E. reflexivity.
Qed.
Lemma read_dump_inv a v q s m r : a <> ALinkState -> read_dump_entry a v q s = Ok (m, r) -> bytes_ok s ->
  exists w, s = w ++ r /\ dump_reads a w m /\ td_view m = v /\ td_seq m = q.
Proof.
  intros Ha H Hs. unfold read_dump_entry in H. apply bind_inv in H as (x & s1 & H1 & H).
  assert (X : s = octets (net_addr x) ++ [net_len x] ++ s1 /\ net_ok x /\ afi_of_ip (net_addr x) = a /\ bytes_ok s1).
  { destruct a; [| |congruence]; unfold read_ipv4_prefix, read_ipv6_prefix, read_ipv4, read_ipv6 in H1; pstep H1; pstep H1;
      match type of H1 with (if ?c then _ else _) _ = _ => destruct c eqn:Ec; [|discriminate] end; apply ret_inv in H1 as [<- ->];
      apply N.leb_le in Ec; cbn [net_addr net_len octets]; rewrite be_1 by exact Hb0; repeat split; auto. }
  destruct X as (-> & Hx & Hf & Ho). clear H1.
  apply bind_inv in H as (st & s2 & H1 & H). apply read_be_inv_ok in H1 as (-> & Hst & Ho2); auto.
  apply bind_inv in H as (tm & s3 & H1 & H). apply read_be_inv_ok in H1 as (-> & Htm & Ho3); auto.
  apply bind_inv in H as (pe & s4 & H1 & H). apply read_address_inv in H1 as (-> & Hpe & Hpf); auto. apply bytes_ok_app in Ho3 as [_ Ho3].
  apply bind_inv in H as (pa & s5 & H1 & H). apply read_be_inv_ok in H1 as (-> & Hpa & Ho5); auto.
  apply bind_inv in H as (n & s6 & H1 & H). apply read_be_inv_ok in H1 as (-> & Hn & Ho6); auto.
  apply bind_inv in H as (u & s7 & H1 & H). apply has_n_inv in H1 as [-> H1].
  apply bind_inv in H as (b & s8 & H2 & H). apply split_to_inv in H2 as [-> H2].
  apply bind_inv in H as (A & s9 & H3 & H). apply lift_inv in H3 as [H3 ->]. apply ret_inv in H as [<- ->].
  assert (n = nlen b) as -> by (unfold nlen; lia). lits.
  set (m := Dump v q (Pfx x None) st tm pe pa (check_mandatory A true (afi_eqb a AIpv4))).
  exists (dump_wire m b). split; [|split; [|auto]].
  - unfold dump_wire, m. cbn [td_prefix p_net td_status td_time td_peer td_asn]. rewrite (be_1 st) by exact Hst. rewrite <- !app_assoc. reflexivity.
  - exists b, A. split; auto. split; [|split; [auto|split; [auto|]]].
    + unfold dump_head_ok, m. cbn [td_prefix p_net p_id td_status td_time td_peer td_asn]. auto 10.
    + unfold m. cbn [td_attrs]. rewrite afi_v4. reflexivity.
Qed.
Lemma npp_dump_entry a v q : npp (read_dump_entry a v q).
Proof.
  unfold read_dump_entry. apply npp_bind.
  { destruct a; [| |apply npp_ret]; unfold read_ipv4_prefix, read_ipv6_prefix, read_ipv4, read_ipv6;
      do 2 (apply npp_bind; [apply npp_read_be|]; intros); match goal with |- npp (if ?c then _ else _) => destruct c end; [apply npp_ret|apply npp_fail|apply npp_ret|apply npp_fail]. }
  intros. do 2 (apply npp_bind; [apply npp_read_be|]; intros). apply npp_bind; [apply npp_read_address|]; intros.
  do 2 (apply npp_bind; [apply npp_read_be|]; intros). intros s.
  unfold has_n at 1. unfold bind at 1. match goal with |- context [nlen s <? ?n] => destruct (N.ltb_spec (nlen s) n); [discriminate|] end.
  apply np_split_bind; [unfold nlen in *; lia|]. intros l r _ _. apply np_bind; [apply npp_lift, parse_attributes_np|]. intros. apply npp_ret.
Qed.
Lemma dump_wire_pos a w m : dump_reads a w m -> (0 < length w)%nat.
Proof. intros (b & A & -> & _). unfold dump_wire. rewrite !app_length, !be_length. cbn [length]. lia. Qed.
Lemma read_dump_progress a v q s m r : read_dump_entry a v q s = Ok (m, r) -> (length r < length s)%nat.
Proof.
  intros H. unfold read_dump_entry in H. apply bind_inv in H as (x & s1 & H1 & H).
  assert (L1 : (length s1 <= length s)%nat).
  { destruct a; unfold read_ipv4_prefix, read_ipv6_prefix, read_ipv4, read_ipv6 in H1.
    1,2: apply bind_inv in H1 as (? & ? & X1 & H1); apply read_be_len in X1; apply bind_inv in H1 as (? & ? & X2 & H1); apply read_be_len in X2;
      match type of H1 with (if ?c then _ else _) _ = _ => destruct c; [|discriminate] end; apply ret_inv in H1 as [_ <-]; lia.
    apply ret_inv in H1 as [_ <-]. lia. }
  apply bind_inv in H as (st & s2 & H2 & H). apply read_be_len in H2.
  apply bind_inv in H as (tm & s3 & H3 & H). apply read_be_len in H3.
  assert (C : forall n (k : bytes -> P dump) t, bind (has_n n) (fun _ => bind (split_to (N.to_nat n)) k) t = Ok (m, r) -> True) by auto. clear C.
  apply bind_inv in H as (pe & s4 & H4 & H).
  assert (L4 : (length s4 <= length s3)%nat).
  { destruct (consumes_read_address a s3 pe s4 H4) as (z & ->). rewrite app_length. lia. }
  apply bind_inv in H as (pa & s5 & H5 & H). apply read_be_len in H5. apply bind_inv in H as (n & s6 & H6 & H). apply read_be_len in H6.
  apply bind_inv in H as (u & s7 & H7 & H). apply has_n_inv in H7 as [-> _].
  apply bind_inv in H as (b & s8 & H8 & H). apply split_to_inv in H8 as [-> _]. apply bind_inv in H as (A & s9 & H9 & H). apply lift_inv in H9 as [_ ->].
  apply ret_inv in H as [_ <-]. rewrite app_length in *. lia.
Qed.
(** The loop over the entries. *)
Lemma many_dumps_ok a v q ws l fuel : Forall2 (dump_reads a) ws l -> Forall (fun m => td_view m = v /\ td_seq m = q) l ->
  (length (concat ws) <= fuel)%nat -> many_p fuel (read_dump_entry a v q) (concat ws) = Ok l.
Proof.
  intros F. revert fuel. induction F as [|w m ws l Hw F IH]; intros fuel Fv Hf; [destruct fuel; reflexivity|].
  inversion Fv as [|? ? [V1 V2] Fv']; subst. cbn [concat] in *. pose proof (dump_wire_pos _ _ _ Hw). rewrite app_length in Hf.
  destruct fuel as [|fuel]; [lia|]. cbn [many_p]. destruct (w ++ concat ws) eqn:E; [destruct w; [cbn in H; lia|discriminate]|]. rewrite <- E.
  rewrite (read_dump_wire a _ _ w m _ Hw eq_refl eq_refl). cbn [rbind]. rewrite IH; auto. lia.
Qed.
Lemma many_dumps_inv a v q fuel : a <> ALinkState -> forall s l, many_p fuel (read_dump_entry a v q) s = Ok l -> bytes_ok s ->
  exists ws, s = concat ws /\ Forall2 (dump_reads a) ws l /\ Forall (fun m => td_view m = v /\ td_seq m = q) l.
Proof.
  intros Ha. induction fuel; intros s l H Hs; destruct s as [|b s]; cbn [many_p] in H.
  - injection H as <-. exists []. auto.
  - discriminate.
  - injection H as <-. exists []. auto.
  - apply rbind_inv in H as ([m r] & E & H). apply rbind_inv in H as (l' & E2 & H). injection H as <-.
    apply read_dump_inv in E as (w & E & R & V1 & V2); auto. rewrite E in Hs. apply bytes_ok_app in Hs as [_ Hs].
    destruct (IHfuel r l' E2 Hs) as (ws & -> & F & Fv). exists (w :: ws). split; auto.
Qed.
Lemma parse_dumps_make sub a v q ws l : dump_subtype sub a -> v < 2 ^ 16 -> q < 2 ^ 16 -> l <> [] ->
  Forall2 (dump_reads a) ws l -> Forall (fun m => td_view m = v /\ td_seq m = q) l ->
  parse_dumps sub (be 2 v ++ be 2 q ++ concat ws) = Ok l.
Proof.
  intros Hsub Hv Hq Hl F Fv. unfold parse_dumps. apply dump_subtype_iff in Hsub as ->.
  eapply run_ok. rewrite (bind_ok _ _ _ _ _ (read_be_be 2 _ _ Hv)). rewrite (bind_ok _ _ _ _ _ (read_be_be 2 _ _ Hq)).
  rewrite (bind_ok _ _ _ (concat ws) (concat ws)) by reflexivity.
  rewrite (bind_ok _ _ _ l (concat ws)) by (unfold lift; rewrite (many_dumps_ok a v q ws l) by auto; reflexivity).
  destruct l; [congruence|reflexivity].
Qed.
Lemma parse_dumps_iff sub s l : bytes_ok s -> (parse_dumps sub s = Ok l <->
  exists a v q ws, dump_subtype sub a /\ v < 2 ^ 16 /\ q < 2 ^ 16 /\ s = be 2 v ++ be 2 q ++ concat ws /\ l <> [] /\
    Forall2 (dump_reads a) ws l /\ Forall (fun m => td_view m = v /\ td_seq m = q) l).
Proof.
  intros Hs. unfold parse_dumps. split.
  - destruct (dump_afi sub) as [a|] eqn:Ea; [|discriminate]. intros H. apply run_inv in H as (z & H). pstep H. pstep H.
    unfold peek in H. apply bind_inv in H as (y & s3 & H2 & H). inversion H2; subst y s3; clear H2.
    apply bind_inv in H as (x & s4 & H2 & H). apply lift_inv in H2 as [H2 ->].
    assert (Na : a <> ALinkState). { apply dump_subtype_iff in Ea as [[_ ->]|[_ ->]]; discriminate. }
    apply many_dumps_inv in H2 as (ws & E & F & Fv); auto.
    destruct x as [|m0 x]; [discriminate|]. apply ret_inv in H as [<- _]. exists a, a0, a1, ws. lits. rewrite E.
    split; [apply dump_subtype_iff; auto|]. split; auto. split; auto. split; auto. split; [discriminate|]. auto.
  - intros (a & v & q & ws & Hsub & Hv & Hq & -> & Hl & F & Fv). eapply (parse_dumps_make sub a v q ws l); eauto.
Qed.
Lemma parse_dumps_np sub s : np (parse_dumps sub s).
Proof.
  unfold parse_dumps. destruct (dump_afi sub) as [a|]; [|apply np_err]. apply np_run. do 2 (apply npp_bind; [apply npp_read_be|]; intros).
  intros t. unfold bind at 1, peek. apply np_bind.
  - apply npp_lift. apply many_p_np; [apply npp_dump_entry|apply read_dump_progress|lia].
  - intros l r _. destruct l; [apply npp_fail|apply npp_ret].
Qed.
Lemma encode_dump_entry_iff m b : encode_dump_entry m = Ok b <->
  exists x, encode_attributes Bits16 (at_inner (td_attrs m)) = Ok x /\ nlen x < 2 ^ 16 /\
    b = octets (net_addr (p_net (td_prefix m))) ++ be 1 (net_len (p_net (td_prefix m))) ++ be 1 (td_status m) ++ be 4 (td_time m) ++
        octets (td_peer m) ++ be 2 (td_asn m) ++ be 2 (nlen x) ++ x.
Proof.
  unfold encode_dump_entry, with_len. split.
  - intros H. apply rbind_inv in H as (y & H1 & H). apply rbind_inv in H1 as (x & H1 & H2). apply put_len_slice_inv in H2 as (L & ->).
    apply ok_inj in H. subst b. exists x. auto.
  - intros (x & H1 & H2 & ->). rewrite H1. cbn [rbind]. rewrite put_len_slice_ok by exact H2. reflexivity.
Qed.
Lemma dump_entry_reads a m b : dump_ok a m -> encode_dump_entry m = Ok b ->
  exists m', dump_reads a b m' /\ same_dump m m'.
Proof.
  intros [Hh Ha] H. apply encode_dump_entry_iff in H as (x & H1 & H2 & ->).
  destruct (attributes_roundtrip _ _ Ha) as (b & rs & B1 & _ & _ & A & B2 & B3).
  assert (b = x) as -> by (unfold dump_cfg in B1; cbn [ac_asn] in B1; congruence).
  set (m' := Dump (td_view m) (td_seq m) (td_prefix m) (td_status m) (td_time m) (td_peer m) (td_asn m)
    (check_mandatory A true (match a with AIpv4 => true | _ => false end))).
  exists m'. split.
  - exists x, A. pose proof Hh as (P1 & P2 & P3 & P4 & P5 & P6 & P7 & P8). split.
    + unfold dump_wire, m'. cbn [td_prefix td_status td_time td_peer td_asn].
      rewrite !be_1 by (auto; apply net_ok_small; auto). reflexivity.
    + split; [exact Hh|]. auto.
  - unfold same_dump, m'. cbn [td_view td_seq td_prefix td_status td_time td_peer td_asn td_attrs]. rewrite (proj1 (check_mandatory_same _ _ _)). auto 10.
Qed.
Lemma dump_fam i a : a <> ALinkState -> afi_of_ip i = a <-> Bool.eqb (is_v4 i) (afi_eqb a AIpv4) = true.
Proof. destruct i, a; cbn; intuition congruence. Qed.
(** What a batch needs. *)
Lemma encode_dumps_iff sub l b : encode_dumps sub l = Ok b <->
  exists a first rest bs, dump_subtype sub a /\ l = first :: rest /\
    Forall (fun m => td_view m = td_view first /\ td_seq m = td_seq first /\
              afi_of_ip (net_addr (p_net (td_prefix m))) = a /\ afi_of_ip (td_peer m) = a) l /\
    Forall2 (fun m x => encode_dump_entry m = Ok x) l bs /\ b = be 2 (td_view first) ++ be 2 (td_seq first) ++ concat bs.
Proof.
  unfold encode_dumps. split.
  - destruct l as [|first rest]; [discriminate|]. destruct (dump_afi sub) as [a|] eqn:Ea; [|discriminate]. intros H.
    assert (Na : a <> ALinkState). { apply dump_subtype_iff in Ea as [[_ ->]|[_ ->]]; discriminate. }
    apply rbind_inv in H as (bs & H1 & H). apply ok_inj in H. subst b. exists a, first, rest, bs.
    split; [apply dump_subtype_iff; auto|]. split; auto. apply rmap_ok in H1.
    split; [|split; auto].
    + revert H1. generalize (first :: rest) as l. intros l F. induction F as [|m x l bs Hm F IH]; constructor; auto.
      destruct ((td_view m =? td_view first) && (td_seq m =? td_seq first)) eqn:E1; [|discriminate].
      cbn [negb] in Hm. destruct (Bool.eqb (is_v4 (net_addr (p_net (td_prefix m)))) (afi_eqb a AIpv4)) eqn:E2; [|discriminate].
      destruct (Bool.eqb (is_v4 (td_peer m)) (afi_eqb a AIpv4)) eqn:E3; [|discriminate].
      apply (proj2 (dump_fam _ _ Na)) in E2. apply (proj2 (dump_fam _ _ Na)) in E3.
      apply andb_prop in E1 as [E1 E4]. apply N.eqb_eq in E1. apply N.eqb_eq in E4. auto.
    + revert H1. generalize (first :: rest) as l. intros l F. induction F as [|m x l bs Hm F IH]; constructor; auto.
      destruct (negb _) in Hm; [discriminate|]. destruct (negb _ || negb _) in Hm; [discriminate|auto].
  - intros (a & first & rest & bs & Hsub & -> & Fm & F & ->).
    assert (Na : a <> ALinkState) by (destruct Hsub as [[_ ->]|[_ ->]]; discriminate).
    apply dump_subtype_iff in Hsub as ->.
    rewrite (proj2 (rmap_ok _ (first :: rest) bs)); [reflexivity|].
    revert Fm F. generalize (first :: rest) as l. intros l Fm F. induction F as [|m x l bs Hm F IH]; constructor.
    + destruct (Forall_inv Fm) as (V1 & V2 & V3 & V4). rewrite V1, V2, !N.eqb_refl. cbn [andb negb].
      rewrite (proj1 (dump_fam _ _ Na) V3), (proj1 (dump_fam _ _ Na) V4). auto.
    + apply IH. inversion Fm; auto.
Qed.
Lemma np_encode_dump_entry m : np (encode_attributes Bits16 (at_inner (td_attrs m))) -> np (encode_dump_entry m).
Proof. intros H. unfold encode_dump_entry, with_len. apply np_rbind; [|intros; apply np_ok]. apply np_rbind; auto. intros; apply np_put_len. Qed.
Lemma dumps_roundtrip sub a l b : dump_subtype sub a -> Forall (dump_ok a) l -> Forall (fun m => td_view m < 2 ^ 16 /\ td_seq m < 2 ^ 16) l ->
  encode_dumps sub l = Ok b -> exists l', parse_dumps sub b = Ok l' /\ Forall2 same_dump l l'.
Proof.
  intros Hsub Fo Fv H. apply encode_dumps_iff in H as (a' & first & rest & bs & Hsub' & El & Fm & F & Eb).
  assert (a' = a) as -> by (apply dump_subtype_iff in Hsub; apply dump_subtype_iff in Hsub'; congruence).
  assert (G : exists l', Forall2 (dump_reads a) bs l' /\ Forall2 same_dump l l').
  { clear - Fo F. induction F as [|m x l bs Hm F IH]; [exists []; split; constructor|]. inversion Fo; subst.
    destruct (dump_entry_reads _ _ _ H1 Hm) as (m' & R & S). destruct (IH H2) as (l' & I1 & I2). exists (m' :: l'). split; constructor; auto. }
  destruct G as (l' & G1 & G2). exists l'. split; auto. subst b.
  assert (V : td_view first < 2 ^ 16 /\ td_seq first < 2 ^ 16) by (subst l; inversion Fv; auto).
  apply (parse_dumps_make sub a (td_view first) (td_seq first) bs l'); auto; try tauto.
  - intros ->. inversion G2. subst. discriminate.
  - clear - Fm G2. induction G2 as [|x y l l' (S1 & S2 & _) G2 IH]; constructor; inversion Fm as [|? ? (M1 & M2 & _) Fm']; subst; auto.
    split; congruence.
Qed.
