(** Proofs about [Net]. *)
From Coq Require Import ZifyBool ZifyNat ZifyN Lia.
From Verif Require Import Base BaseFacts Reader ReaderFacts Net NetSpec.
Ltac Zify.zify_post_hook ::= Z.div_mod_to_equations.

Lemma afi_of_code_code a : afi_of_code (afi_code a) = Some a.
Proof. destruct a; reflexivity. Qed.
Lemma afi_code_of n a : afi_of_code n = Some a -> afi_code a = n.
Proof.
  unfold afi_of_code. intros H.
  repeat match goal with
  | H : context [if ?x =? ?y then _ else _] |- _ => destruct (N.eqb_spec x y); [inv H; reflexivity|]
  end. discriminate.
Qed.
Lemma safi_of_code_code a : safi_of_code (safi_code a) = Some a.
Proof. destruct a; reflexivity. Qed.
Lemma safi_code_of n a : safi_of_code n = Some a -> safi_code a = n.
Proof.
  unfold safi_of_code. intros H.
  repeat match goal with
  | H : context [if ?x =? ?y then _ else _] |- _ => destruct (N.eqb_spec x y); [inv H; reflexivity|]
  end. discriminate.
Qed.
Lemma afi_eqb_eq a b : afi_eqb a b = true <-> a = b.
Proof. destruct a, b; simpl; split; congruence. Qed.
Lemma safi_eqb_eq a b : safi_eqb a b = true <-> a = b.
Proof. destruct a, b; simpl; split; congruence. Qed.
Lemma ip_eqb_eq a b : ip_eqb a b = true <-> a = b.
Proof. destruct a, b; simpl; split; intros H; try discriminate; try (apply N.eqb_eq in H); try (apply N.eqb_eq); congruence. Qed.
Lemma ipnet_eqb_eq a b : ipnet_eqb a b = true <-> a = b.
Proof.
  destruct a as [a l], b as [b m]; unfold ipnet_eqb; simpl.
  rewrite andb_true_iff, ip_eqb_eq, N.eqb_eq. split; [intros [-> ->]|intros H; inv H]; auto.
Qed.

Lemma read_afi_be a r : read_afi (be 2 (afi_code a) ++ r) = Ok (a, r).
Proof.
  unfold read_afi. rewrite (bind_ok _ _ _ (afi_code a) r).
  - rewrite afi_of_code_code. reflexivity.
  - apply read_u16_be. destruct a; reflexivity.
Qed.
Lemma read_safi_be a r : read_safi (be 1 (safi_code a) ++ r) = Ok (a, r).
Proof.
  unfold read_safi. rewrite (bind_ok _ _ _ (safi_code a) r).
  - rewrite safi_of_code_code. reflexivity.
  - apply read_u8_be. destruct a; reflexivity.
Qed.
Lemma read_afi_inv s a r : read_afi s = Ok (a, r) -> bytes_ok s ->
  s = be 2 (afi_code a) ++ r /\ bytes_ok r.
Proof.
  unfold read_afi; intros H Hs. apply bind_inv in H as (n & s' & H1 & H2).
  apply read_be_inv_ok in H1 as (-> & _ & Hr); auto. apply lift_inv in H2 as [H2 ->].
  destruct (afi_of_code n) eqn:E; inv H2. apply afi_code_of in E as ->. auto.
Qed.
Lemma read_safi_inv s a r : read_safi s = Ok (a, r) -> bytes_ok s ->
  s = be 1 (safi_code a) ++ r /\ bytes_ok r.
Proof.
  unfold read_safi; intros H Hs. apply bind_inv in H as (n & s' & H1 & H2).
  apply read_be_inv_ok in H1 as (-> & _ & Hr); auto. apply lift_inv in H2 as [H2 ->].
  destruct (safi_of_code n) eqn:E; inv H2. apply safi_code_of in E as ->. auto.
Qed.

Lemma np_of_opt {A} (o : option A) : np (of_opt o).
Proof. destruct o; discriminate. Qed.
Lemma npp_read_afi : npp read_afi.
Proof. apply npp_bind; auto with np. intros; apply npp_lift, np_of_opt. Qed.
Lemma npp_read_safi : npp read_safi.
Proof. apply npp_bind; auto with np. intros; apply npp_lift, np_of_opt. Qed.
Lemma consumes_read_afi : consumes read_afi.
Proof. apply consumes_bind; auto with consumes. Qed.
Lemma consumes_read_safi : consumes read_safi.
Proof. apply consumes_bind; auto with consumes. Qed.
Lemma npp_read_asn l : npp (read_asn l).
Proof. destruct l; simpl; auto with np. Qed.
Lemma consumes_read_asn l : consumes (read_asn l).
Proof. destruct l; simpl; auto with consumes. Qed.
Lemma npp_read_asns l n : npp (read_asns l n).
Proof. apply npp_bind; auto with np. intros; apply npp_repeat, npp_read_asn. Qed.
Lemma consumes_read_asns l n : consumes (read_asns l n).
Proof. apply consumes_bind; auto with consumes. intros; apply consumes_repeat, consumes_read_asn. Qed.
Lemma npp_read_address a : npp (read_address a).
Proof.
  intros s. destruct a; simpl; try discriminate.
  - unfold read_ipv4. pose proof (npp_read_be 4 s). destruct (read_u32 s) as [[? ?]| |]; congruence.
  - unfold read_ipv6. pose proof (npp_read_be 16 s). destruct (read_be 16 s) as [[? ?]| |]; congruence.
Qed.
Lemma consumes_read_address a : consumes (read_address a).
Proof.
  intros s x r H. destruct a; simpl in H.
  - unfold read_ipv4 in H. destruct (read_u32 s) as [[? ?]| |] eqn:E; inv H. eapply consumes_read_be; eauto.
  - unfold read_ipv6 in H. destruct (read_be 16 s) as [[? ?]| |] eqn:E; inv H. eapply consumes_read_be; eauto.
  - inv H. exists []; auto.
Qed.
#[export] Hint Resolve npp_read_afi npp_read_safi npp_read_asn npp_read_asns npp_read_address : np.
#[export] Hint Resolve consumes_read_afi consumes_read_safi consumes_read_asn consumes_read_asns
  consumes_read_address : consumes.

(** Range of an AS number on a given width. *)
Definition asn_fits (l : asn_len) (a : asn) : Prop :=
  match l with Bits16 => a < 65536 | Bits32 => a < 4294967296 end.

Lemma read_asn_be l a r : asn_fits l a -> read_asn l (encode_asn l a ++ r) = Ok (a, r).
Proof. destruct l; simpl asn_fits; intros; unfold read_asn, encode_asn; simpl asn_width.
  apply read_u16_be; auto. apply read_u32_be; auto. Qed.
Lemma read_asn_inv l s a r : read_asn l s = Ok (a, r) -> bytes_ok s ->
  s = encode_asn l a ++ r /\ asn_fits l a.
Proof.
  destruct l; simpl; intros H Hs; apply read_be_inv_ok in H as (-> & H & _); auto.
Qed.
Lemma encode_asn_length l a : length (encode_asn l a) = asn_width l.
Proof. apply be_length. Qed.
Lemma flat_map_encode_asn_length l xs : length (flat_map (encode_asn l) xs) = (length xs * asn_width l)%nat.
Proof. induction xs; simpl; auto. rewrite app_length, encode_asn_length, IHxs; lia. Qed.
Lemma read_asns_be l xs r : Forall (asn_fits l) xs ->
  read_asns l (nlen xs) (flat_map (encode_asn l) xs ++ r) = Ok (xs, r).
Proof.
  intros H. unfold read_asns. rewrite (bind_ok _ _ _ tt (flat_map (encode_asn l) xs ++ r)).
  - rewrite to_nat_nlen. apply repeat_p_app with (Q := asn_fits l); auto. intros; apply read_asn_be; auto.
  - apply has_n_ok. rewrite nlen_app. unfold nlen. rewrite flat_map_encode_asn_length. lia.
Qed.
Lemma read_asns_inv l n s xs r : read_asns l n s = Ok (xs, r) -> bytes_ok s ->
  s = flat_map (encode_asn l) xs ++ r /\ Forall (asn_fits l) xs /\ nlen xs = n.
Proof.
  unfold read_asns. intros H Hs. apply bind_inv in H as (u & s' & H1 & H2).
  apply has_n_inv in H1 as [-> H1].
  eapply repeat_p_inv with (enc := encode_asn l) (Q := asn_fits l) in H2; auto.
  - destruct H2 as (-> & H2 & H3). repeat split; auto. unfold nlen; lia.
  - apply read_asn_inv.
Qed.

Lemma read_address_octets i r : ip_ok i -> read_address (afi_of_ip i) (octets i ++ r) = Ok (i, r).
Proof.
  destruct i; simpl ip_ok; intros; simpl afi_of_ip; unfold read_address, octets, read_ipv4, read_ipv6.
  - rewrite read_u32_be; auto.
  - rewrite read_u128_be; auto.
Qed.
Lemma read_address_inv a s i r : read_address a s = Ok (i, r) -> bytes_ok s -> a <> ALinkState ->
  s = octets i ++ r /\ ip_ok i /\ afi_of_ip i = a.
Proof.
  intros H Hs Ha. destruct a; simpl in H; try congruence.
  - unfold read_ipv4 in H. destruct (read_u32 s) as [[? ?]| |] eqn:E; inv H.
    apply read_be_inv_ok in E as (-> & E & _); auto.
  - unfold read_ipv6 in H. destruct (read_be 16 s) as [[? ?]| |] eqn:E; inv H.
    apply read_be_inv_ok in E as (-> & E & _); auto.
Qed.
Lemma octets_length i : length (octets i) = match i with V4 _ => 4%nat | V6 _ => 16%nat end.
Proof. destruct i; apply be_length. Qed.

(** * Prefix codec *)
Lemma be_val_app a b : be_val (a ++ b) = be_val a * 256 ^ nlen b + be_val b.
Proof.
  induction b using rev_ind.
  - rewrite app_nil_r. unfold be_val; simpl. lia.
  - rewrite app_assoc, !be_val_snoc, IHb, nlen_app.
    replace (nlen [x]) with 1 by reflexivity. rewrite N.pow_add_r. lia.
Qed.
Lemma be_val_repeat0 k : be_val (repeat 0 k) = 0.
Proof.
  induction k; [reflexivity|]. exact IHk.
Qed.

(** The leading [k] octets of a [w]-octet integer. *)
Lemma firstn_be k w n : (k <= w)%nat -> firstn k (be w n) = be k (n / 256 ^ N.of_nat (w - k)).
Proof.
  intros H. revert n. induction w; intros.
  - assert (k = 0)%nat by lia. subst. reflexivity.
  - destruct (Nat.eq_dec k (S w)) as [->|Hne].
    + rewrite firstn_all2 by (rewrite be_length; lia).
      rewrite Nat.sub_diag. simpl N.of_nat. rewrite N.pow_0_r, N.div_1_r. reflexivity.
    + cbn [be]. rewrite firstn_app, be_length.
      replace (k - w)%nat with 0%nat by lia. cbn [firstn]. rewrite app_nil_r.
      rewrite IHw by lia. f_equal.
      replace (S w - k)%nat with (S (w - k)) by lia. rewrite pow256_S.
      rewrite N.div_div; [auto| lia | pose proof (pow256_pos (w-k)); lia].
Qed.

Lemma pow256_2 k : 256 ^ k = 2 ^ (8 * k).
Proof. rewrite N.pow_mul_r. reflexivity. Qed.

(** Zero-padding the leading octets clears the low bits. *)
Lemma pad_firstn k w n : (k <= w)%nat -> n < 256 ^ N.of_nat w ->
  be_val (firstn k (be w n) ++ repeat 0 (w - k)) = n - n mod 256 ^ N.of_nat (w - k).
Proof.
  intros H Hn. rewrite firstn_be by auto.
  rewrite be_val_app, be_val_repeat0. unfold nlen. rewrite repeat_length.
  rewrite be_val_be.
  assert (Hp := pow256_pos (w-k)).
  rewrite (N.mod_small (_ / _)).
  - assert (Hd : 256 ^ N.of_nat (w - k) <> 0) by lia.
    pose proof (N.div_mod n _ Hd) as Hdm.
    revert Hdm. generalize (256 ^ N.of_nat (w - k)) (n mod 256 ^ N.of_nat (w - k)) (n / 256 ^ N.of_nat (w - k)).
    intros. lia.
  - apply N.div_lt_upper_bound; [lia|].
    rewrite <- N.pow_add_r. replace (N.of_nat (w - k) + N.of_nat k) with (N.of_nat w) by lia. auto.
Qed.

Lemma read_opt_id {B} p (b : option N -> P B) r :
  id_ok (p_id p) ->
  bind (if has_id p then i <- read_u32 ;; ret (Some i) else ret None) b
    ((match p_id p with Some i => be 4 i | None => [] end) ++ r) = b (p_id p) r.
Proof.
  unfold has_id. destruct (p_id p); simpl; intros.
  - rewrite (bind_ok _ _ _ (Some n) r); auto. rewrite (bind_ok _ _ _ n r); auto. apply read_u32_be; auto.
  - reflexivity.
Qed.

(** Decoding an encoding yields the prefix with the bits that do not travel
    cleared. *)
Lemma read_encode_prefix p rest : prefix_ok p ->
  read_nlri_prefix (family p) (has_id p) (encode_prefix p ++ rest)
  = Ok (Pfx (wire_trunc (p_net p)) (p_id p), rest).
Proof.
  intros [[Hip Hlen] Hid]. unfold read_nlri_prefix, encode_prefix. rewrite <- !app_assoc.
  rewrite read_opt_id by auto. unfold family, wire_trunc.
  destruct p as [[a len] pid]. cbn [p_net net_addr net_len p_id] in *.
  destruct a as [n|n]; cbn [net_width octets ip_ok] in *.
  - rewrite (bind_ok _ _ _ len (firstn (N.to_nat (byte_len len)) (be 4 n) ++ rest)) by (apply read_u8_be; lia).
    cbv zeta. destruct (32 <? len) eqn:E; [lia|].
    assert (Hb : byte_len len <= 4) by (unfold byte_len; lia).
    destruct (4 <? byte_len len) eqn:E2; [lia|].
    erewrite bind_ok.
    2:{ apply read_n_bytes_app. unfold nlen. rewrite firstn_length, be_length. lia. }
    unfold ret. do 5 f_equal.
    rewrite pad_firstn; [|lia|exact Hip].
    unfold clear_low, wire_bits, byte_len in *. f_equal. f_equal.
    rewrite pow256_2. f_equal. lia.
  - rewrite (bind_ok _ _ _ len (firstn (N.to_nat (byte_len len)) (be 16 n) ++ rest)) by (apply read_u8_be; lia).
    cbv zeta. destruct (128 <? len) eqn:E; [lia|].
    assert (Hb : byte_len len <= 16) by (unfold byte_len; lia).
    destruct (16 <? byte_len len) eqn:E2; [lia|].
    erewrite bind_ok.
    2:{ apply read_n_bytes_app. unfold nlen. rewrite firstn_length, be_length. lia. }
    unfold ret. do 5 f_equal.
    rewrite pad_firstn; [|lia|exact Hip].
    unfold clear_low, wire_bits, byte_len in *. f_equal. f_equal.
    rewrite pow256_2. f_equal. lia.
Qed.

Lemma wire_exact_trunc x : wire_exact x -> wire_trunc x = x.
Proof.
  destruct x as [[n|n] len]; unfold wire_exact, wire_trunc, clear_low;
  cbn [net_addr net_len net_width ip_val]; intros ->; rewrite N.sub_0_r; auto.
Qed.

Lemma mod_pow2_0 n a b : a <= b -> n mod 2 ^ b = 0 -> n mod 2 ^ a = 0.
Proof.
  intros H E. apply N.mod_divide in E; [|apply N.pow_nonzero; lia].
  apply N.mod_divide; [apply N.pow_nonzero; lia|].
  destruct E as [z ->]. replace b with (b - a + a) by lia. rewrite N.pow_add_r.
  exists (z * 2 ^ (b - a)). lia.
Qed.

Lemma canonical_wire_exact x : canonical x -> wire_exact x.
Proof.
  unfold canonical, wire_exact. apply mod_pow2_0. unfold wire_bits. lia.
Qed.

Lemma bytes_ok_repeat0 k : bytes_ok (repeat 0 k).
Proof. induction k; simpl; constructor; auto. lia. Qed.

Lemma pad_inv w k l : (k <= w)%nat -> length l = k -> bytes_ok l ->
  let n := be_val (l ++ repeat 0 (w - k)) in
  n < 256 ^ N.of_nat w /\ firstn k (be w n) = l.
Proof.
  intros Hk Hl Hok n.
  assert (Hlen : length (l ++ repeat 0 (w - k)) = w) by (rewrite app_length, repeat_length; lia).
  assert (Hok2 : bytes_ok (l ++ repeat 0 (w - k))) by (apply bytes_ok_app; split; auto using bytes_ok_repeat0).
  split.
  - subst n. rewrite <- Hlen at 2. apply be_val_bound; auto.
  - subst n. rewrite <- Hlen at 1. rewrite be_be_val by auto. rewrite <- Hl. apply firstn_app_len.
Qed.

(** Whatever is accepted re-encodes to exactly the octets read. *)
Lemma read_nlri_prefix_inv a ap s p r :
  read_nlri_prefix a ap s = Ok (p, r) -> bytes_ok s -> a <> ALinkState ->
  s = encode_prefix p ++ r /\ prefix_ok p /\ family p = a /\ has_id p = ap.
Proof.
  unfold read_nlri_prefix. intros H Hs Ha.
  apply bind_inv in H as (pid & s1 & H1 & H).
  assert (Hid : s = (match pid with Some i => be 4 i | None => [] end) ++ s1 /\ id_ok pid /\ bytes_ok s1
    /\ (match pid with Some _ => true | None => false end) = ap).
  { destruct ap.
    - apply bind_inv in H1 as (i & s2 & H1 & H2). apply ret_inv in H2 as [<- <-].
      apply read_be_inv_ok in H1 as (-> & Hi & Hr); auto.
    - apply ret_inv in H1 as [<- <-]. simpl; auto. }
  destruct Hid as (-> & Hid & Hs1 & Hap). clear H1.
  apply bind_inv in H as (bits & s2 & H1 & H). apply read_be_inv_ok in H1 as (-> & Hb & Hs2); auto.
  change (256 ^ N.of_nat 1) with 256 in Hb.
  cbv zeta in H. destruct a; try congruence.
  - destruct (32 <? bits) eqn:E; [discriminate|].
    assert (Hbl : byte_len bits <= 4) by (unfold byte_len; lia).
    destruct (4 <? byte_len bits) eqn:E2; [discriminate|].
    apply bind_inv in H as (l & s3 & H1 & H). apply read_n_bytes_inv in H1 as [-> Hl].
    apply ret_inv in H as [<- <-]. apply bytes_ok_app in Hs2 as [Hl2 Hs3].
    destruct (pad_inv 4 (N.to_nat (byte_len bits)) l) as [Hn Hf]; auto; try (unfold nlen in Hl; lia).
    unfold encode_prefix, prefix_ok, net_ok, family, has_id.
    cbn [p_net p_id net_addr net_len ip_ok net_width octets].
    rewrite Hf. rewrite <- !app_assoc. repeat split; auto. lia.
  - destruct (128 <? bits) eqn:E; [discriminate|].
    assert (Hbl : byte_len bits <= 16) by (unfold byte_len; lia).
    destruct (16 <? byte_len bits) eqn:E2; [discriminate|].
    apply bind_inv in H as (l & s3 & H1 & H). apply read_n_bytes_inv in H1 as [-> Hl].
    apply ret_inv in H as [<- <-]. apply bytes_ok_app in Hs2 as [Hl2 Hs3].
    destruct (pad_inv 16 (N.to_nat (byte_len bits)) l) as [Hn Hf]; auto; try (unfold nlen in Hl; lia).
    unfold encode_prefix, prefix_ok, net_ok, family, has_id.
    cbn [p_net p_id net_addr net_len ip_ok net_width octets].
    rewrite Hf. rewrite <- !app_assoc. repeat split; auto. lia.
Qed.

Lemma read_nlri_prefix_progress a ap s p r :
  read_nlri_prefix a ap s = Ok (p, r) -> exists pre, s = pre ++ r /\ (0 < length pre)%nat.
Proof.
  unfold read_nlri_prefix. intros H.
  apply bind_inv in H as (pid & s1 & H1 & H).
  assert (C1 : exists pre, s = pre ++ s1).
  { destruct ap.
    - apply bind_inv in H1 as (i & s2 & H1 & H2). apply ret_inv in H2 as [_ <-].
      apply consumes_read_be in H1; auto.
    - apply ret_inv in H1 as [_ <-]. exists []; auto. }
  destruct C1 as [p1 ->].
  apply bind_inv in H as (bits & s2 & H2 & H). apply read_be_inv in H2 as (l & -> & Hl & _).
  assert (C2 : exists pre, s2 = pre ++ r).
  { cbv zeta in H. destruct (_ <? bits); [discriminate|]. destruct a.
    - destruct (4 <? byte_len bits); [discriminate|].
      apply bind_inv in H as (? & s3 & H3 & H). apply ret_inv in H as [_ <-].
      apply consumes_read_n_bytes in H3; auto.
    - destruct (16 <? byte_len bits); [discriminate|].
      apply bind_inv in H as (? & s3 & H3 & H). apply ret_inv in H as [_ <-].
      apply consumes_read_n_bytes in H3; auto.
    - apply ret_inv in H as [_ <-]. exists []; auto. }
  destruct C2 as [p2 ->]. exists (p1 ++ l ++ p2). rewrite !app_assoc. split; auto.
  rewrite !app_length. lia.
Qed.
Lemma consumes_read_nlri_prefix a ap : consumes (read_nlri_prefix a ap).
Proof. intros s p r H. apply read_nlri_prefix_progress in H as (pre & -> & _). eauto. Qed.
Lemma npp_read_nlri_prefix a ap : npp (read_nlri_prefix a ap).
Proof.
  unfold read_nlri_prefix. apply npp_bind.
  { destruct ap; auto with np. apply npp_bind; auto with np. }
  intros pid. apply npp_bind; auto with np. intros bits. cbv zeta.
  destruct (_ <? bits); auto with np. destruct a; auto with np.
  - destruct (4 <? byte_len bits); auto with np. apply npp_bind; auto with np.
  - destruct (16 <? byte_len bits); auto with np. apply npp_bind; auto with np.
Qed.
#[export] Hint Resolve npp_read_nlri_prefix : np.
#[export] Hint Resolve consumes_read_nlri_prefix : consumes.

(** Over-long lengths are refused. *)
Lemma read_nlri_prefix_too_long a ap pid bits r :
  (match a with AIpv4 => 32 | AIpv6 => 128 | ALinkState => 0 end) < bits -> bits < 256 -> pid < 2 ^ 32 ->
  read_nlri_prefix a ap ((if ap then be 4 pid else []) ++ be 1 bits ++ r) = Err EParse.
Proof.
  intros H Hb Hp. unfold read_nlri_prefix. destruct ap.
  - erewrite bind_ok.
    2:{ erewrite bind_ok; [reflexivity|]. apply read_u32_be; auto. }
    erewrite bind_ok; [|apply read_u8_be; auto]. cbv zeta.
    destruct a; destruct (_ <? bits) eqn:E; auto; lia.
  - cbn [app]. erewrite bind_ok; [|reflexivity].
    erewrite bind_ok; [|apply read_u8_be; auto]. cbv zeta.
    destruct a; destruct (_ <? bits) eqn:E; auto; lia.
Qed.

(** * NLRI lists *)
Lemma encode_prefix_nonempty p : (0 < length (encode_prefix p))%nat.
Proof. unfold encode_prefix. rewrite !app_length, (be_length 1). lia. Qed.

Lemma nlri_loop_np fuel ap a i h s : (length s <= fuel)%nat -> np (nlri_loop fuel ap a i h s).
Proof.
  revert i h s. induction fuel; intros i h s Hf; destruct s as [|b s]; cbn [nlri_loop];
    try discriminate; try (simpl in Hf; lia).
  set (i' := i || _). set (h' := h || _).
  pose proof (npp_read_nlri_prefix a i' (b :: s)) as Hn.
  destruct (read_nlri_prefix a i' (b :: s)) as [[p s']|e|] eqn:E; try congruence.
  - apply np_rbind; [|intros; discriminate]. apply IHfuel.
    apply read_nlri_prefix_progress in E as (pre & E & Hp).
    apply (f_equal (@length N)) in E. rewrite app_length in E. simpl in *; lia.
  - destruct h'; [|discriminate]. apply np_rbind; [apply npp_read_nlri_prefix|].
    intros [p s'] E2. apply np_rbind; [|intros; discriminate]. apply IHfuel.
    apply read_nlri_prefix_progress in E2 as (pre & E2 & Hp).
    apply (f_equal (@length N)) in E2. rewrite app_length in E2. simpl in *; lia.
Qed.
Lemma parse_nlri_list_np s ap a : np (parse_nlri_list s ap a).
Proof. apply nlri_loop_np; lia. Qed.

Lemma nlri_loop_inv fuel ap a i h s l :
  nlri_loop fuel ap a i h s = Ok l -> bytes_ok s -> a <> ALinkState ->
  s = encode_nlri_prefixes l /\ Forall prefix_ok l /\ Forall (fun p => family p = a) l.
Proof.
  revert i h s l. induction fuel; intros i h s l H Hs Ha; destruct s as [|b s]; cbn [nlri_loop] in H;
    try discriminate; try (inv H; simpl; auto; fail).
  revert H. set (i' := i || _). set (h' := h || _). intros H.
  destruct (read_nlri_prefix a i' (b :: s)) as [[p s']|e|] eqn:E; try congruence.
  - apply rbind_inv in H as (l' & H1 & H). inv H.
    apply read_nlri_prefix_inv in E as (E & Hp & Hfam & _); auto.
    rewrite E in Hs |- *. apply bytes_ok_app in Hs as [_ Hs].
    apply IHfuel in H1 as (-> & H1 & H2); auto.
  - destruct h'; [|discriminate].
    apply rbind_inv in H as ([p s'] & E2 & H). apply rbind_inv in H as (l' & H1 & H). inv H.
    apply read_nlri_prefix_inv in E2 as (E2 & Hp & Hfam & _); auto.
    rewrite E2 in Hs |- *. apply bytes_ok_app in Hs as [_ Hs].
    apply IHfuel in H1 as (-> & H1 & H2); auto.
Qed.

Definition sem_prefix (p : prefix) : prefix := Pfx (wire_trunc (p_net p)) (p_id p).

Lemma nlri_loop_enc fuel ap a l :
  Forall prefix_ok l -> Forall (fun p => family p = a) l -> Forall (fun p => has_id p = ap) l ->
  (ap = false -> Forall (fun p => net_len (p_net p) <> 0) (removelast l)) ->
  (length (encode_nlri_prefixes l) <= fuel)%nat ->
  nlri_loop fuel ap a ap false (encode_nlri_prefixes l) = Ok (map sem_prefix l).
Proof.
  revert fuel. induction l as [|p l IH]; intros fuel Hok Hfam Hid Hdef Hf.
  - destruct fuel; reflexivity.
  - inv Hok. inv Hfam. inv Hid.
    pose proof (read_encode_prefix p (encode_nlri_prefixes l) H1) as R.
    unfold encode_nlri_prefixes in *. cbn [flat_map] in *.
    pose proof (encode_prefix_nonempty p) as Hne. rewrite app_length in Hf.
    destruct fuel as [|f]; [lia|].
    assert (Hdef' : has_id p = false -> Forall (fun p => net_len (p_net p) <> 0) (removelast l)).
    { intros Hp. specialize (Hdef Hp). destruct l as [|q l]; [constructor|].
      cbn [removelast] in Hdef |- *. inv Hdef; auto. }
    assert (Hrec : nlri_loop f (has_id p) (family p) (has_id p) false (flat_map encode_prefix l) = Ok (map sem_prefix l)).
    { apply IH; auto. lia. }
    destruct (encode_prefix p ++ flat_map encode_prefix l) as [|b s] eqn:E.
    { apply app_eq_nil in E as [E _]. rewrite E in Hne; simpl in Hne; lia. }
    cbn [nlri_loop]. destruct (has_id p) eqn:Hp; cbn [negb andb orb].
    + rewrite R. cbn [rbind]. rewrite Hrec. reflexivity.
    + destruct (b =? 0) eqn:Hb0; cbn [negb andb orb].
      * assert (Hlen0 : net_len (p_net p) = 0).
        { unfold encode_prefix in E. unfold has_id in Hp. destruct (p_id p); [discriminate|].
          cbn [app] in E. destruct H1 as [[Hip Hl] _]. 
          assert (net_len (p_net p) < 256) by (destruct (net_addr (p_net p)); cbn [net_width] in Hl; lia).
          rewrite be_1 in E by auto. cbn [app] in E. injection E as E1 _. lia. }
        specialize (Hdef eq_refl). destruct l as [|q l].
        2:{ cbn [removelast] in Hdef. inv Hdef. contradiction. }
        (* last element: a lone zero octet; the Add-Path attempt is too short *)
        cbn [flat_map] in *. rewrite app_nil_r in *.
        assert (Es : s = []).
        { unfold encode_prefix in E. unfold has_id in Hp. destruct (p_id p); [discriminate|].
          rewrite Hlen0 in E. cbn in E. inv E. reflexivity. }
        subst s.
        assert (Er : read_nlri_prefix (family p) true [b] = Err ETrunc).
        { unfold read_nlri_prefix. apply bind_err. apply bind_err. apply read_be_short. simpl; lia. }
        rewrite Er. rewrite R. cbn [rbind]. destruct f; reflexivity.
      * rewrite R. cbn [rbind]. rewrite Hrec. reflexivity.
Qed.

Lemma parse_encode_nlri ap a l :
  Forall prefix_ok l -> Forall (fun p => family p = a) l -> Forall (fun p => has_id p = ap) l ->
  (ap = false -> Forall (fun p => net_len (p_net p) <> 0) (removelast l)) ->
  parse_nlri_list (encode_nlri_prefixes l) ap a = Ok (map sem_prefix l).
Proof. intros. apply nlri_loop_enc; auto. Qed.

Lemma sem_prefix_exact p : wire_exact (p_net p) -> sem_prefix p = p.
Proof. intros; unfold sem_prefix. rewrite wire_exact_trunc by auto. destruct p; auto. Qed.

Lemma map_sem_exact l : Forall (fun p => wire_exact (p_net p)) l -> map sem_prefix l = l.
Proof. induction 1; simpl; auto. rewrite IHForall, sem_prefix_exact; auto. Qed.
