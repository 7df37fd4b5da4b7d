(** Proofs about the community codecs. *)
From Coq Require Import ZifyBool ZifyNat ZifyN Lia.
From Verif Require Import Base BaseFacts Reader ReaderFacts Net NetFacts Tac Community CommunitySpec.
Ltac Zify.zify_post_hook ::= Z.div_mod_to_equations.

Lemma many_p_count {A} (p : P A) k fuel s l :
  (forall s a r, p s = Ok (a, r) -> length s = (k + length r)%nat) ->
  many_p fuel p s = Ok l -> length s = (k * length l)%nat.
Proof.
  intros Hp. revert s l. induction fuel; intros s l H; destruct s as [|b s]; cbn [many_p] in H; inv H.
  - simpl; lia.
  - simpl; lia.
  - apply rbind_inv in H1 as ([a s'] & H1 & H). apply rbind_inv in H as (l' & H2 & H). inv H.
    apply Hp in H1. apply IHfuel in H2. rewrite H1, H2. simpl length. lia.
Qed.

(** * Plain *)
Lemma community_value_of v : v < 2 ^ 32 -> encode_community (community_of_u32 v) = be 4 v.
Proof.
  intros Hv. unfold community_of_u32.
  destruct (N.eqb_spec v NO_EXPORT); [subst; reflexivity|].
  destruct (N.eqb_spec v NO_ADVERTISE); [subst; reflexivity|].
  destruct (N.eqb_spec v NO_EXPORT_SUBCONFED); [subst; reflexivity|].
  cbn [encode_community]. rewrite !be_mod_small by reflexivity. symmetry. apply (be_split 2 2).
Qed.
Lemma community_of_value c : community_ok c -> community_of_u32 (community_value c) = c.
Proof.
  destruct c as [| | |a v]; try reflexivity.
  intros (Ha & Hv & Hn). unfold community_of_u32. cbn [community_value].
  cbn [In] in Hn.
  destruct (N.eqb_spec (a * 65536 + v) NO_EXPORT); [exfalso; apply Hn; auto|].
  destruct (N.eqb_spec (a * 65536 + v) NO_ADVERTISE); [exfalso; apply Hn; auto|].
  destruct (N.eqb_spec (a * 65536 + v) NO_EXPORT_SUBCONFED); [exfalso; apply Hn; auto|].
  f_equal; lia.
Qed.
Lemma community_value_bound c : community_ok c -> community_value c < 2 ^ 32.
Proof. destruct c; simpl; intros; try reflexivity. lia. Qed.
Lemma encode_community_value c : community_ok c -> encode_community c = be 4 (community_value c).
Proof.
  intros H. rewrite <- (community_of_value c H) at 1. apply community_value_of, community_value_bound, H.
Qed.
Lemma read_community_ok c r : community_ok c -> read_community (encode_community c ++ r) = Ok (c, r).
Proof.
  intros H. rewrite encode_community_value by auto. unfold read_community.
  pose proof (community_value_bound c H). rstep. rewrite community_of_value; auto.
Qed.
Lemma community_of_u32_ok v : v < 2 ^ 32 -> community_ok (community_of_u32 v).
Proof.
  intros. unfold community_of_u32.
  destruct (N.eqb_spec v NO_EXPORT); [exact I|].
  destruct (N.eqb_spec v NO_ADVERTISE); [exact I|].
  destruct (N.eqb_spec v NO_EXPORT_SUBCONFED); [exact I|].
  cbn [community_ok]. split; [lia|]. split; [lia|].
  replace ((v / 65536) mod 65536 * 65536 + v mod 65536) with v by lia.
  intros [?|[?|[?|[]]]]; subst; unfold NO_EXPORT, NO_ADVERTISE, NO_EXPORT_SUBCONFED in *; congruence.
Qed.
Lemma read_community_inv s c r : read_community s = Ok (c, r) -> bytes_ok s ->
  s = encode_community c ++ r /\ community_ok c.
Proof.
  intros H Hs. unfold read_community in H. pstep H. apply ret_inv in H as [<- <-]. lits.
  rewrite community_value_of by auto. split; auto. apply community_of_u32_ok; auto.
Qed.
Lemma encode_community_length c : length (encode_community c) = 4%nat.
Proof. destruct c; cbn [encode_community]; rewrite ?app_length, !be_length; reflexivity. Qed.
Lemma regular_roundtrip l : Forall community_ok l ->
  parse_regular_communities (encode_regular_communities l) = Ok l.
Proof.
  intros. unfold parse_regular_communities, encode_regular_communities.
  apply many_p_app with (Q := community_ok); auto.
  - intros; apply read_community_ok; auto.
  - intros. rewrite encode_community_length. lia.
Qed.
Lemma regular_reencode s l : bytes_ok s -> parse_regular_communities s = Ok l ->
  encode_regular_communities l = s /\ Forall community_ok l.
Proof.
  intros Hs H. unfold parse_regular_communities in H.
  destruct (many_p_inv read_community encode_community community_ok read_community_inv _ _ _ H Hs) as [E H2].
  split; [symmetry; exact E|exact H2].
Qed.
Lemma npp_read_community : npp read_community.
Proof. apply npp_bind; auto with np. Qed.
Lemma parse_regular_np s : np (parse_regular_communities s).
Proof.
  apply many_p_np; auto. apply npp_read_community.
  intros s0 a r H. unfold read_community in H. apply bind_inv in H as (v & s' & H1 & H2).
  apply ret_inv in H2 as [_ ->]. apply read_be_len in H1. lia.
Qed.

(** * Large *)
Lemma read_large_ok c r : large_ok c -> read_large (encode_large c ++ r) = Ok (c, r).
Proof.
  destruct c as [a b c]. intros (Ha & Hb & Hc). cbn [lc_admin lc_d0 lc_d1] in *.
  unfold read_large, encode_large. cbn [lc_admin lc_d0 lc_d1].
  rstep. rstep. rstep. reflexivity.
Qed.
Lemma read_large_inv s c r : read_large s = Ok (c, r) -> bytes_ok s ->
  s = encode_large c ++ r /\ large_ok c.
Proof.
  intros H Hs. unfold read_large in H. pstep H. pstep H. pstep H. apply ret_inv in H as [<- <-]. lits.
  split; [|repeat split; auto]. unfold encode_large. cbn [lc_admin lc_d0 lc_d1]. rewrite <- !app_assoc. reflexivity.
Qed.
Lemma read_large_len s c r : read_large s = Ok (c, r) -> length s = (12 + length r)%nat.
Proof.
  unfold read_large. intros H.
  apply bind_inv in H as (? & ? & H1 & H). apply bind_inv in H as (? & ? & H2 & H).
  apply bind_inv in H as (? & ? & H3 & H). apply ret_inv in H as [_ ->].
  apply read_be_len in H1, H2, H3. lia.
Qed.
Lemma encode_large_length c : length (encode_large c) = 12%nat.
Proof. unfold encode_large. rewrite !app_length, !be_length. reflexivity. Qed.
Lemma flat_map_const_length {A} (f : A -> bytes) k l :
  (forall a, In a l -> length (f a) = k) -> length (flat_map f l) = (k * length l)%nat.
Proof.
  induction l; intros H; cbn [flat_map length]; [lia|].
  rewrite app_length, H, IHl; [lia| |left; auto]. intros; apply H; right; auto.
Qed.
Lemma large_roundtrip l : Forall large_ok l ->
  parse_large_communities (encode_large_communities l) = Ok l.
Proof.
  intros. unfold parse_large_communities, encode_large_communities.
  rewrite (many_p_app read_large encode_large large_ok); auto.
  - cbn [rbind]. unfold nlen. rewrite (flat_map_const_length _ 12); [|intros; apply encode_large_length].
    destruct (N.eqb_spec (N.of_nat (length l)) (N.of_nat (12 * length l) / 12)); auto. lia.
  - intros; apply read_large_ok; auto.
  - intros. rewrite encode_large_length. lia.
Qed.
Lemma large_reencode s l : bytes_ok s -> parse_large_communities s = Ok l ->
  encode_large_communities l = s /\ Forall large_ok l.
Proof.
  intros Hs H. unfold parse_large_communities in H. apply rbind_inv in H as (l' & H1 & H).
  destruct (nlen l' =? nlen s / 12); inv H.
  destruct (many_p_inv read_large encode_large large_ok read_large_inv _ _ _ H1 Hs) as [E H2].
  split; [symmetry; exact E|exact H2].
Qed.
Lemma parse_count_np {A} (p : P A) k s :
  npp p -> (0 < k)%nat -> (forall s a r, p s = Ok (a, r) -> length s = (k + length r)%nat) ->
  np (l <~ many_p (length s) p s ;; if nlen l =? nlen s / N.of_nat k then Ok l else Panic).
Proof.
  intros Hp Hk Hl. apply np_rbind.
  - apply many_p_np; auto. intros s0 a r H. apply Hl in H. lia.
  - intros l H. apply many_p_count with (k := k) in H; auto.
    unfold nlen. rewrite H. destruct (N.eqb_spec (N.of_nat (length l)) (N.of_nat (k * length l) / N.of_nat k)); auto with np.
    exfalso. apply n. rewrite Nat2N.inj_mul, N.mul_comm, N.div_mul by lia. reflexivity.
Qed.
Lemma parse_large_np s : np (parse_large_communities s).
Proof.
  apply (parse_count_np read_large 12). 2: lia. 2: apply read_large_len.
  repeat (apply npp_bind; auto with np; intros).
Qed.

(** * IPv6 extended *)
Lemma ect_of_code t : ect_ok t -> ect_of_u8 (ect_code t) = t.
Proof.
  destruct t; try reflexivity. intros [_ H]. cbn [ect_code]. unfold ect_of_u8. cbn [In] in H.
  repeat match goal with |- context [?a =? ?b] => destruct (N.eqb_spec a b); [subst; exfalso; apply H; tauto|] end.
  reflexivity.
Qed.
Lemma ect_code_of n : ect_code (ect_of_u8 n) = n.
Proof.
  unfold ect_of_u8.
  repeat match goal with |- context [?a =? ?b] => destruct (N.eqb_spec a b); [subst; reflexivity|] end.
  reflexivity.
Qed.
Lemma ect_of_u8_ok n : n < 256 -> ect_ok (ect_of_u8 n).
Proof.
  intros Hn. unfold ect_of_u8.
  repeat match goal with |- context [?a =? ?b] => destruct (N.eqb_spec a b); [exact I|] end.
  cbn [ect_ok In]. split; auto. intuition congruence.
Qed.
Lemma ect_code_bound t : ect_ok t -> ect_code t < 256.
Proof. destruct t; simpl; intros; try reflexivity. tauto. Qed.
Lemma read_ipv6_ext_ok x r : ipv6_ext_ok x -> read_ipv6_ext (encode_ipv6_ext x ++ r) = Ok (x, r).
Proof.
  destruct x as [t st g l0 l1]. unfold ipv6_ext_ok. cbn [ie_type ie_subtype ie_admin ie_l0 ie_l1].
  intros (Ht & Hst & Hg & H0 & H1).
  unfold read_ipv6_ext, encode_ipv6_ext. cbn [ie_type ie_subtype ie_admin ie_l0 ie_l1].
  pose proof (ect_code_bound t Ht). unfold read_ipv6.
  do 5 rstep. rewrite ect_of_code by auto. reflexivity.
Qed.
Lemma read_ipv6_ext_inv s x r : read_ipv6_ext s = Ok (x, r) -> bytes_ok s ->
  s = encode_ipv6_ext x ++ r /\ ipv6_ext_ok x.
Proof.
  intros H Hs. unfold read_ipv6_ext, read_ipv6 in H. do 5 pstep H. apply ret_inv in H as [<- <-]. lits.
  unfold encode_ipv6_ext, ipv6_ext_ok. cbn [ie_type ie_subtype ie_admin ie_l0 ie_l1].
  rewrite ect_code_of. split; [rewrite <- !app_assoc; reflexivity|].
  repeat split; auto. apply ect_of_u8_ok; auto.
Qed.
Lemma read_ipv6_ext_len s x r : read_ipv6_ext s = Ok (x, r) -> length s = (20 + length r)%nat.
Proof.
  unfold read_ipv6_ext, read_ipv6. intros H.
  do 5 (let E := fresh "E" in apply bind_inv in H as (? & ? & E & H); apply read_be_len in E).
  apply ret_inv in H as [_ ->]. lia.
Qed.
Lemma encode_ipv6_ext_length c : length (encode_ipv6_ext c) = 20%nat.
Proof. unfold encode_ipv6_ext. rewrite !app_length, !be_length. reflexivity. Qed.
Lemma ipv6_ext_roundtrip l : Forall ipv6_ext_ok l ->
  parse_ipv6_extended_communities (encode_ipv6_extended_communities l) = Ok l.
Proof.
  intros. unfold parse_ipv6_extended_communities, encode_ipv6_extended_communities.
  rewrite (many_p_app read_ipv6_ext encode_ipv6_ext ipv6_ext_ok); auto.
  - cbn [rbind]. unfold nlen. rewrite (flat_map_const_length _ 20); [|intros; apply encode_ipv6_ext_length].
    destruct (N.eqb_spec (N.of_nat (length l)) (N.of_nat (20 * length l) / 20)); auto. lia.
  - intros; apply read_ipv6_ext_ok; auto.
  - intros. rewrite encode_ipv6_ext_length. lia.
Qed.
Lemma ipv6_ext_reencode s l : bytes_ok s -> parse_ipv6_extended_communities s = Ok l ->
  encode_ipv6_extended_communities l = s /\ Forall ipv6_ext_ok l.
Proof.
  intros Hs H. unfold parse_ipv6_extended_communities in H. apply rbind_inv in H as (l' & H1 & H).
  destruct (nlen l' =? nlen s / 20); inv H.
  destruct (many_p_inv read_ipv6_ext encode_ipv6_ext ipv6_ext_ok read_ipv6_ext_inv _ _ _ H1 Hs) as [E H2].
  split; [symmetry; exact E|exact H2].
Qed.
Lemma parse_ipv6_ext_np s : np (parse_ipv6_extended_communities s).
Proof.
  apply (parse_count_np read_ipv6_ext 20). 2: lia. 2: apply read_ipv6_ext_len.
  unfold read_ipv6_ext, read_ipv6. repeat (apply npp_bind; auto with np; intros).
Qed.

(** * Extended *)
Ltac eqbs H := cbn [In] in H;
  repeat match goal with |- context [?a =? ?b] =>
    destruct (N.eqb_spec a b); [subst; exfalso; apply H; tauto|] end.
Lemma read_ext_ok x r : ext_ok x -> read_ext (encode_ext x ++ r) = Ok (x, r).
Proof.
  destruct x as [t st a l|t st a l|t st a l|t st v|a b|a te sa|st a l|a d|t a b|b];
    cbn [ext_ok]; unfold encode_ext, read_ext; cbn [ext_type].
  - intros (Hst & Ha & [Hl Hlo] & Hn).
    destruct t; cbn [ect_code]; rstep; cbn [ect_of_u8 N.eqb Pos.eqb]; rstep; eqbs Hn;
      unfold read_two; rstep; rstep; reflexivity.
  - intros (Hst & Ha & [Hl Hlo]). destruct t; cbn [ect_code]; rstep; cbn [ect_of_u8 N.eqb Pos.eqb];
      rstep; rstep; rstep; reflexivity.
  - intros (Hst & Ha & [Hl Hlo]). destruct t; cbn [ect_code]; rstep; cbn [ect_of_u8 N.eqb Pos.eqb];
      rstep; rstep; rstep; reflexivity.
  - intros (Hst & [Hl Hlo]). destruct t; cbn [ect_code]; rstep; cbn [ect_of_u8 N.eqb Pos.eqb];
      rstep; rstep; reflexivity.
  - intros (Ha & Hb). cbn [ect_code]. rstep. cbn [ect_of_u8 N.eqb Pos.eqb]. rstep. cbn [N.eqb Pos.eqb]. rstep. rstep. reflexivity.
  - intros Ha. cbn [ect_code]. rstep. cbn [ect_of_u8 N.eqb Pos.eqb]. rstep. cbn [N.eqb Pos.eqb].
    rstep. destruct te, sa; cbn [N.lor]; rstep; reflexivity.
  - intros (-> & Ha & [Hl Hlo]). cbn [ect_code]. rstep. cbn [ect_of_u8 N.eqb Pos.eqb]. rstep. cbn [N.eqb Pos.eqb].
    unfold read_two. rstep. rstep. reflexivity.
  - intros (Ha & Hd). cbn [ect_code]. rstep. cbn [ect_of_u8 N.eqb Pos.eqb]. rstep. cbn [N.eqb Pos.eqb].
    rstep. rstep. rstep. rstep.
    change 0x3F with (N.ones 6). rewrite N.land_ones, N.mod_small by exact Hd. reflexivity.
  - intros (Ha & Hb). destruct t; cbn [ect_code]; rstep; cbn [ect_of_u8 N.eqb Pos.eqb]; rstep;
    cbn [N.eqb Pos.eqb]; rstep; rstep; reflexivity.
  - intros ([Hl Hlo] & Hn). destruct b as [|t b]; [discriminate|]. cbn [hd] in Hn. cbn [app].
    rstep. unfold ect_of_u8. eqbs Hn. cbn [length] in Hl. rstep. reflexivity.
Qed.

Lemma be_2_eq n : n < 65536 -> exists a b, be 2 n = [a; b].
Proof. intros; cbn [be app]; eauto. Qed.
Lemma be_4_eq n : exists a b c d, be 4 n = [a; b; c; d].
Proof. intros; cbn [be app]; eauto. Qed.
Lemma clear_reserved_other t st l :
  ~ (t = 0x40 /\ (st = 7 \/ st = 9)) -> clear_reserved (t :: st :: l) = t :: st :: l.
Proof.
  intros H. unfold clear_reserved.
  destruct l as [|x0 [|x1 [|x2 [|x3 [|x4 [|x5 [|]]]]]]]; auto.
  destruct (N.eqb_spec t 0x40), (N.eqb_spec st 7), (N.eqb_spec st 9); subst; cbn [andb]; auto; exfalso; apply H; auto.
Qed.
Lemma be4_testbits n : n < 2 ^ 32 ->
  be 4 (N.lor (if N.testbit n 0 then 1 else 0) (if N.testbit n 1 then 2 else 0))
  = [0; 0; 0; (n mod 256) mod 4].
Proof.
  intros. rewrite N.bit0_odd.
  assert (E : N.testbit n 1 = N.odd (n / 2)).
  { rewrite <- N.bit0_odd, <- N.div2_div, N.div2_spec, N.shiftr_spec by lia. reflexivity. }
  rewrite E.
  assert (M : (n mod 256) mod 4 = N.lor (if N.odd n then 1 else 0) (if N.odd (n / 2) then 2 else 0)).
  { assert (O : forall m, N.odd m = (m mod 2 =? 1)).
    { intros m. pose proof (N.bit0_mod m) as B. rewrite N.bit0_odd in B. rewrite <- B. destruct (N.odd m); reflexivity. }
    rewrite !O. destruct (N.eqb_spec (n mod 2) 1), (N.eqb_spec ((n / 2) mod 2) 1); cbn [N.lor Pos.lor]; lia. }
  rewrite M. destruct (N.odd n), (N.odd (n / 2)); reflexivity.
Qed.
Lemma read_ext_inv s x r : read_ext s = Ok (x, r) -> bytes_ok s ->
  exists c, s = c ++ r /\ length c = 8%nat /\ encode_ext x = clear_reserved c /\ ext_ok x.
Proof.
  intros H Hs. unfold read_ext in H. pstep H. lits.
  remember (ect_of_u8 a) as t eqn:Et.
  assert (Ec : a = ect_code t) by (subst; rewrite ect_code_of; auto).
  assert (Hoct : forall k l, bytes_ok l -> nlen l = N.of_nat k -> octets_of k l)
    by (intros; split; auto; unfold nlen in *; lia).
  destruct t; cbn [ect_code] in Ec; subst a.
  - pstep H. destruct (N.eqb_spec a 4).
    + subst. do 2 pstep H. apply ret_inv in H as [<- <-]. lits.
      exists (be 1 0 ++ be 1 4 ++ be 2 a ++ be 4 a0). rewrite <- !app_assoc. split; auto.
      rewrite !app_length, !be_length. split; auto. split; [|split; auto].
      cbn [encode_ext ext_type ect_code]. symmetry. apply clear_reserved_other. lia.
    + unfold read_two in H. do 2 pstep H. apply ret_inv in H as [<- <-]. lits.
      exists (be 1 0 ++ be 1 a ++ be 2 a0 ++ a1). rewrite <- !app_assoc. split; auto.
      rewrite !app_length, !be_length. split; [unfold nlen in *; lia|]. split.
      * cbn [encode_ext ext_type ect_code]. rewrite (be_1 a) by auto. symmetry. apply clear_reserved_other. lia.
      * cbn [ext_ok]. repeat split; auto. unfold nlen in *; lia. cbn [In]. lia.
  - do 3 pstep H. apply ret_inv in H as [<- <-]. lits.
    exists (be 1 1 ++ be 1 a ++ be 4 a0 ++ a1). rewrite <- !app_assoc. split; auto.
    rewrite !app_length, !be_length. split; [unfold nlen in *; lia|]. split.
    + cbn [encode_ext ext_type ect_code]. rewrite (be_1 a) by auto. symmetry. apply clear_reserved_other. lia.
    + cbn [ext_ok]. repeat split; auto. unfold nlen in *; lia.
  - do 3 pstep H. apply ret_inv in H as [<- <-]. lits.
    exists (be 1 2 ++ be 1 a ++ be 4 a0 ++ a1). rewrite <- !app_assoc. split; auto.
    rewrite !app_length, !be_length. split; [unfold nlen in *; lia|]. split.
    + cbn [encode_ext ext_type ect_code]. rewrite (be_1 a) by auto. symmetry. apply clear_reserved_other. lia.
    + cbn [ext_ok]. repeat split; auto. unfold nlen in *; lia.
  - do 2 pstep H. apply ret_inv in H as [<- <-]. lits.
    exists (be 1 3 ++ be 1 a ++ a0). rewrite <- !app_assoc. split; auto.
    rewrite !app_length, !be_length. split; [unfold nlen in *; lia|]. split.
    + cbn [encode_ext ext_type ect_code]. rewrite (be_1 a) by auto. symmetry. apply clear_reserved_other. lia.
    + cbn [ext_ok]. repeat split; auto. unfold nlen in *; lia.
  - pstep H. lits. destruct (N.eqb_spec a 4); [|destruct (N.eqb_spec a 6); [|destruct (N.eqb_spec a 7);
      [|destruct (N.eqb_spec a 8); [|destruct (N.eqb_spec a 9)]]]].
    + subst. do 2 pstep H. apply ret_inv in H as [<- <-]. lits.
      exists (be 1 64 ++ be 1 4 ++ be 2 a ++ be 4 a0). rewrite <- !app_assoc. split; auto.
      rewrite !app_length, !be_length. split; auto. split; [|split; auto].
      cbn [encode_ext ext_type ect_code]. symmetry. apply clear_reserved_other. lia.
    + subst. do 2 pstep H. apply ret_inv in H as [<- <-]. lits.
      exists (be 1 64 ++ be 1 6 ++ be 2 a ++ be 4 a0). rewrite <- !app_assoc. split; auto.
      rewrite !app_length, !be_length. split; auto. split; [|split; auto].
      cbn [encode_ext ext_type ect_code]. symmetry. apply clear_reserved_other. lia.
    + subst. do 2 pstep H. apply ret_inv in H as [<- <-]. lits.
      exists (be 1 64 ++ be 1 7 ++ be 2 a ++ be 4 a0). rewrite <- !app_assoc. split; auto.
      rewrite !app_length, !be_length. split; auto. split; [|auto].
      cbn [encode_ext ext_type ect_code]. rewrite be4_testbits by auto.
      change (be 1 64) with [64]. change (be 1 7) with [7]. cbn [be app].
      unfold clear_reserved. cbn [N.eqb Pos.eqb andb]. reflexivity.
    + subst. unfold read_two in H. do 2 pstep H. apply ret_inv in H as [<- <-]. lits.
      exists (be 1 64 ++ be 1 8 ++ be 2 a ++ a0). rewrite <- !app_assoc. split; auto.
      rewrite !app_length, !be_length. split; [unfold nlen in *; lia|]. split.
      * cbn [encode_ext ext_type ect_code]. symmetry. apply clear_reserved_other. lia.
      * cbn [ext_ok]. repeat split; auto. unfold nlen in *; lia.
    + subst. do 4 pstep H. apply ret_inv in H as [<- <-]. lits.
      exists (be 1 64 ++ be 1 9 ++ be 2 a ++ be 1 a0 ++ be 1 a1 ++ be 2 a2). rewrite <- !app_assoc. split; auto.
      rewrite !app_length, !be_length. split; auto.
      change 0x3F with (N.ones 6). rewrite N.land_ones. change (2 ^ 6) with 64.
      split; [|split; auto; lia].
      cbn [encode_ext ext_type ect_code].
      rewrite (be_1 a0), (be_1 (a0 mod 64)) by lia. cbn [be app]. unfold clear_reserved.
      cbn [N.eqb Pos.eqb andb]. reflexivity.
    + unfold read_two in H. do 2 pstep H. apply ret_inv in H as [<- <-]. lits.
      exists (be 1 64 ++ be 1 a ++ be 2 a0 ++ a1). rewrite <- !app_assoc. split; auto.
      rewrite !app_length, !be_length. split; [unfold nlen in *; lia|]. split.
      * cbn [encode_ext ext_type ect_code]. rewrite (be_1 a) by auto. symmetry. apply clear_reserved_other. lia.
      * cbn [ext_ok]. repeat split; auto. unfold nlen in *; lia. cbn [In]. lia.
  - do 3 pstep H. apply ret_inv in H as [<- <-]. lits.
    exists (be 1 65 ++ be 1 a ++ be 4 a0 ++ a1). rewrite <- !app_assoc. split; auto.
    rewrite !app_length, !be_length. split; [unfold nlen in *; lia|]. split.
    + cbn [encode_ext ext_type ect_code]. rewrite (be_1 a) by auto. symmetry. apply clear_reserved_other. lia.
    + cbn [ext_ok]. repeat split; auto. unfold nlen in *; lia.
  - do 3 pstep H. apply ret_inv in H as [<- <-]. lits.
    exists (be 1 66 ++ be 1 a ++ be 4 a0 ++ a1). rewrite <- !app_assoc. split; auto.
    rewrite !app_length, !be_length. split; [unfold nlen in *; lia|]. split.
    + cbn [encode_ext ext_type ect_code]. rewrite (be_1 a) by auto. symmetry. apply clear_reserved_other. lia.
    + cbn [ext_ok]. repeat split; auto. unfold nlen in *; lia.
  - do 2 pstep H. apply ret_inv in H as [<- <-]. lits.
    exists (be 1 67 ++ be 1 a ++ a0). rewrite <- !app_assoc. split; auto.
    rewrite !app_length, !be_length. split; [unfold nlen in *; lia|]. split.
    + cbn [encode_ext ext_type ect_code]. rewrite (be_1 a) by auto. symmetry. apply clear_reserved_other. lia.
    + cbn [ext_ok]. repeat split; auto. unfold nlen in *; lia.
  - pstep H. apply ret_inv in H as [<- <-]. lits.
    pose proof (ect_of_u8_ok n Hb) as Hn. rewrite <- Et in Hn.
    exists (n :: a). rewrite be_1 by auto. split; auto.
    cbn [length]. split; [unfold nlen in *; lia|]. split.
    + cbn [encode_ext]. destruct a as [|st a]; [reflexivity|]. symmetry. apply clear_reserved_other.
      destruct Hn as [_ Hn]. cbn [In] in Hn. lia.
    + cbn [ext_ok hd]. split; [split; [cbn [length]; unfold nlen in *; lia|constructor; auto]|].
      apply Hn.
Qed.

Lemma encode_ext_length x : ext_ok x -> length (encode_ext x) = 8%nat.
Proof.
  destruct x; cbn [ext_ok encode_ext]; unfold octets_of; intros;
    rewrite ?app_length, ?be_length; intuition lia.
Qed.
Lemma ext_roundtrip l : Forall ext_ok l ->
  parse_extended_communities (encode_extended_communities l) = Ok l.
Proof.
  intros H. unfold parse_extended_communities, encode_extended_communities.
  rewrite (many_p_app read_ext encode_ext ext_ok); auto.
  - cbn [rbind]. unfold nlen. rewrite (flat_map_const_length _ 8).
    destruct (N.eqb_spec (N.of_nat (length l)) (N.of_nat (8 * length l) / 8)); auto. lia.
    rewrite Forall_forall in H. intros; apply encode_ext_length; auto.
  - intros; apply read_ext_ok; auto.
  - intros. rewrite encode_ext_length; auto. lia.
Qed.
Lemma read_ext_len s x r : read_ext s = Ok (x, r) -> length s = (8 + length r)%nat.
Proof.
  unfold read_ext. intros H. apply bind_inv in H as (t & s1 & H1 & H). apply read_be_len in H1.
  assert (R2 : forall k s x r, read_two k s = Ok (x, r) -> length s = (6 + length r)%nat).
  { unfold read_two. intros k s0 x0 r0 E. apply bind_inv in E as (? & ? & E1 & E).
    apply bind_inv in E as (? & ? & E2 & E). apply ret_inv in E as [_ ->].
    apply read_be_len in E1. apply read_n_bytes_len in E2. unfold nlen in *; lia. }
  assert (Goal6 : length s1 = (7 + length r)%nat); [|lia].
  clear H1 s.
  destruct (ect_of_u8 t);
  repeat match goal with
  | H : (if ?c then _ else _) _ = _ |- _ => destruct c
  | H : read_two _ _ = _ |- _ => apply R2 in H
  | H : ret _ _ = _ |- _ => apply ret_inv in H as [_ H]
  | H : bind _ _ _ = _ |- _ => apply bind_inv in H as (? & ? & ? & H)
  | H : read_be _ _ = _ |- _ => apply read_be_len in H
  | H : read_n_bytes _ _ = _ |- _ => apply read_n_bytes_len in H; unfold nlen in H
  end; subst; lia.
Qed.
Lemma npp_read_ext : npp read_ext.
Proof.
  assert (R2 : forall k, npp (read_two k)) by (intros; unfold read_two; repeat (apply npp_bind; auto with np; intros)).
  apply npp_bind; auto with np. intros t.
  destruct (ect_of_u8 t);
  repeat match goal with
  | |- npp (if ?c then _ else _) => destruct c
  | |- npp (bind _ _) => apply npp_bind; auto with np; intros
  end; auto with np.
Qed.
Lemma parse_ext_np s : np (parse_extended_communities s).
Proof. apply (parse_count_np read_ext 8). apply npp_read_ext. lia. apply read_ext_len. Qed.

Lemma ext_reencode s l : bytes_ok s -> parse_extended_communities s = Ok l ->
  exists cs, s = concat cs /\ Forall (fun c => length c = 8%nat) cs /\
    encode_extended_communities l = concat (map clear_reserved cs) /\ Forall ext_ok l.
Proof.
  intros Hs H. unfold parse_extended_communities in H. apply rbind_inv in H as (l' & H1 & H).
  destruct (nlen l' =? nlen s / 8); inv H.
  remember (length s) as fuel eqn:E. clear E. revert s l Hs H1.
  induction fuel; intros s l Hs H; destruct s as [|b s]; cbn [many_p] in H; inv H.
  - exists []. repeat split; constructor.
  - exists []. repeat split; constructor.
  - apply rbind_inv in H1 as ([x s'] & H1 & H). apply rbind_inv in H as (l' & H2 & H). inv H.
    apply read_ext_inv in H1 as (c & Ec & Hc & He & Hx); auto. rewrite Ec in Hs |- *.
    apply bytes_ok_app in Hs as [_ Hs]. apply IHfuel in H2 as (cs & -> & Hcs & Hee & Hl); auto.
    exists (c :: cs). cbn [concat map]. repeat split; auto.
    unfold encode_extended_communities in *. cbn [flat_map]. rewrite He, Hee. reflexivity.
Qed.

(** When a list of fixed-size elements parses. *)
Lemma many_p_total {A} (p : P A) k : (0 < k)%nat ->
  (forall s, (k <= length s)%nat -> exists a r, p s = Ok (a, r) /\ length s = (k + length r)%nat) ->
  forall n fuel s, length s = (k * n)%nat -> (length s <= fuel)%nat -> exists l, many_p fuel p s = Ok l.
Proof.
  intros Hk Hp. induction n; intros fuel s Hs Hf.
  - destruct s; [|simpl in Hs; lia]. exists []. destruct fuel; reflexivity.
  - destruct s as [|b s]; [simpl in Hs; lia|]. destruct fuel; [simpl in Hf; lia|].
    cbn [many_p]. destruct (Hp (b :: s)) as (a & r & E & El); [lia|]. rewrite E. cbn [rbind].
    destruct (IHn fuel r) as [l El']; [lia|lia|]. rewrite El'. cbn [rbind]. eauto.
Qed.
Lemma many_p_mod {A} (p : P A) k s : (0 < k)%nat ->
  (forall s a r, p s = Ok (a, r) -> length s = (k + length r)%nat) ->
  (forall s, (k <= length s)%nat -> exists a r, p s = Ok (a, r)) ->
  (exists l, many_p (length s) p s = Ok l) <-> (length s mod k = 0)%nat.
Proof.
  intros Hk Hl Ht. split.
  - intros [l H]. apply many_p_count with (k := k) in H; auto. rewrite H, Nat.mul_comm.
    apply Nat.mod_mul. lia.
  - intros H. apply (many_p_total p k Hk) with (n := (length s / k)%nat); auto.
    + intros s0 H0. destruct (Ht s0 H0) as (a & r & E). exists a, r. split; eauto.
    + apply Nat.div_exact in H; lia.
Qed.
Lemma read_be_total k s : (k <= length s)%nat -> exists a r, read_be k s = Ok (a, r) /\ length s = (k + length r)%nat.
Proof.
  intros H. exists (be_val (firstn k s)), (skipn k s).
  rewrite <- (firstn_skipn k s) at 1. rewrite read_be_bytes by (rewrite firstn_length; lia).
  split; auto. rewrite skipn_length. lia.
Qed.
Lemma read_n_bytes_total k s : k <= nlen s -> exists a r, read_n_bytes k s = Ok (a, r) /\ nlen s = k + nlen r.
Proof.
  intros H. exists (firstn (N.to_nat k) s), (skipn (N.to_nat k) s).
  rewrite <- (firstn_skipn (N.to_nat k) s) at 1.
  rewrite read_n_bytes_app by (unfold nlen in *; rewrite firstn_length; lia).
  split; auto. unfold nlen in *. rewrite skipn_length. lia.
Qed.
Ltac total_step :=
  match goal with
  | |- context [bind (read_be ?k) ?f ?s] =>
      let a := fresh "a" in let r := fresh "r" in let E := fresh "E" in let L := fresh "L" in
      destruct (read_be_total k s ltac:(unfold nlen in *; lia)) as (a & r & E & L); rewrite (bind_ok _ _ _ _ _ E)
  | |- context [bind (read_n_bytes ?k) ?f ?s] =>
      let a := fresh "a" in let r := fresh "r" in let E := fresh "E" in let L := fresh "L" in
      destruct (read_n_bytes_total k s ltac:(unfold nlen in *; lia)) as (a & r & E & L); rewrite (bind_ok _ _ _ _ _ E)
  end.
Lemma count_ok_iff {A} (p : P A) k s : (0 < k)%nat ->
  (forall s a r, p s = Ok (a, r) -> length s = (k + length r)%nat) ->
  (exists l, (l <~ many_p (length s) p s ;; if nlen l =? nlen s / N.of_nat k then Ok l else Panic) = Ok l)
  <-> (exists l, many_p (length s) p s = Ok l).
Proof.
  intros Hk Hl. split; intros [l H].
  - apply rbind_inv in H as (l' & H & _). eauto.
  - exists l. rewrite H. cbn [rbind]. apply many_p_count with (k := k) in H; auto.
    unfold nlen. rewrite H, Nat2N.inj_mul, N.mul_comm, N.div_mul, N.eqb_refl by lia. reflexivity.
Qed.
Lemma community_lengths s :
  ((exists l, parse_regular_communities s = Ok l) <-> (length s mod 4 = 0)%nat) /\
  ((exists l, parse_large_communities s = Ok l) <-> (length s mod 12 = 0)%nat) /\
  ((exists l, parse_extended_communities s = Ok l) <-> (length s mod 8 = 0)%nat) /\
  ((exists l, parse_ipv6_extended_communities s = Ok l) <-> (length s mod 20 = 0)%nat).
Proof.
  split; [|split; [|split]].
  - apply many_p_mod; [lia| |].
    + intros s0 a r H. unfold read_community in H. apply bind_inv in H as (v & s' & H1 & H2).
      apply ret_inv in H2 as [_ ->]. apply read_be_len in H1. lia.
    + intros s0 H. unfold read_community. total_step. repeat eexists.
  - etransitivity; [apply (count_ok_iff read_large 12); [lia|apply read_large_len]|].
    apply many_p_mod; [lia|apply read_large_len|].
    intros s0 H. unfold read_large. repeat total_step. repeat eexists.
  - etransitivity; [apply (count_ok_iff read_ext 8); [lia|apply read_ext_len]|].
    apply many_p_mod; [lia|apply read_ext_len|].
    intros s0 H. unfold read_ext, read_two. total_step.
    destruct (ect_of_u8 a); repeat total_step; try (repeat eexists; fail);
    repeat match goal with |- context [if ?c then _ else _] => destruct c end;
    repeat total_step; repeat eexists.
  - etransitivity; [apply (count_ok_iff read_ipv6_ext 20); [lia|apply read_ipv6_ext_len]|].
    apply many_p_mod; [lia|apply read_ipv6_ext_len|].
    intros s0 H. unfold read_ipv6_ext, read_ipv6. repeat total_step. repeat eexists.
Qed.
