(** Proofs about the checksum and the names of cache files. *)
From Coq Require Import List NArith String Lia Bool.
From Verif Require Import Base Text FilterFacts PsvFacts Render RenderTellFacts Cache CacheSpec.
Import ListNotations.
Local Open Scope list_scope.
Local Open Scope N_scope.

(** ** The shift register *)
Definition feed (c : N) (b : bool) : N := turn (N.lxor c (N.b2n b)).
Definition wbits (c : N) : list bool := map (fun i => N.testbit c (N.of_nat i)) (seq 0 32).

Lemma land1 : forall c, (N.land c 1 =? 1) = N.testbit c 0.
Proof.
  intros c. change 1 with (N.ones 1) at 1. rewrite N.land_ones. change (2 ^ 1) with 2.
  rewrite <- N.bit0_mod. destruct (N.testbit c 0); reflexivity.
Qed.

Lemma turn_alt : forall c, turn c = N.lxor (N.shiftr c 1) (if N.testbit c 0 then polynomial else 0).
Proof.
  intros c. unfold turn. rewrite land1. destruct (N.testbit c 0); [reflexivity |]. rewrite N.lxor_0_r. reflexivity.
Qed.

Lemma turn_lxor : forall a b, turn (N.lxor a b) = N.lxor (turn a) (turn b).
Proof.
  intros a b. rewrite !turn_alt, N.shiftr_lxor, N.lxor_spec. apply N.bits_inj. intros i. rewrite !N.lxor_spec.
  destruct (N.testbit a 0), (N.testbit b 0); cbn [xorb]; rewrite ?N.bits_0;
    repeat match goal with |- context [N.testbit ?x ?y] => destruct (N.testbit x y) end; reflexivity.
Qed.

Lemma turn_0 : turn 0 = 0.
Proof. reflexivity. Qed.

Lemma turn_double : forall a, turn (2 * a) = a.
Proof.
  intros a. rewrite turn_alt, N.testbit_even_0, N.lxor_0_r, N.shiftr_div_pow2. change (2 ^ 1) with 2.
  rewrite N.mul_comm. apply N.div_mul. lia.
Qed.

Lemma turns_lxor : forall n a b, turns n (N.lxor a b) = N.lxor (turns n a) (turns n b).
Proof.
  induction n as [| n IH]; intros a b; cbn [turns]; [reflexivity |]. rewrite turn_lxor. apply IH.
Qed.

Lemma turns_shift : forall n a, turns n (N.shiftl a (N.of_nat n)) = a.
Proof.
  induction n as [| n IH]; intros a; cbn [turns]; [apply N.shiftl_0_r |].
  rewrite Nnat.Nat2N.inj_succ, N.shiftl_mul_pow2, N.pow_succ_r'.
  replace (a * (2 * 2 ^ N.of_nat n)) with (2 * (a * 2 ^ N.of_nat n)) by lia.
  rewrite turn_double, <- N.shiftl_mul_pow2. apply IH.
Qed.

(** The bits of a number, low bit first, and feeding them. *)
Fixpoint lows (n : nat) (b : N) : list bool :=
  match n with O => [] | S n' => N.testbit b 0 :: lows n' (N.shiftr b 1) end.

Lemma split0 : forall b, b = N.lxor (N.b2n (N.testbit b 0)) (2 * N.shiftr b 1).
Proof.
  intros b. rewrite N.bit0_odd, N.shiftr_div_pow2. change (2 ^ 1) with 2. rewrite <- N.div2_div.
  destruct b as [| [p | p |]]; reflexivity.
Qed.

Lemma feed_lows : forall n b c, b < 2 ^ N.of_nat n -> fold_left feed (lows n b) c = turns n (N.lxor c b).
Proof.
  induction n as [| n IH]; intros b c H; cbn [lows fold_left turns].
  - change (2 ^ N.of_nat 0) with 1 in H. assert (b = 0) as -> by lia. rewrite N.lxor_0_r. reflexivity.
  - rewrite IH.
    + f_equal. unfold feed. rewrite <- (turn_double (N.shiftr b 1)) at 1. rewrite <- turn_lxor. f_equal.
      rewrite N.lxor_assoc. f_equal. symmetry. apply split0.
    + rewrite Nnat.Nat2N.inj_succ, N.pow_succ_r' in H. rewrite N.shiftr_div_pow2. change (2 ^ 1) with 2.
      apply N.div_lt_upper_bound; lia.
Qed.

Lemma octet_lows : forall b, octet_bits b = lows 8 b.
Proof.
  intros b. unfold octet_bits. cbn [seq map lows]. rewrite !N.shiftr_shiftr, !N.shiftr_spec' . reflexivity.
Qed.

Lemma table_entry : forall i, i < 256 -> nth (N.to_nat i) table 0 = turns 8 i.
Proof.
  intros i H. unfold table.
  rewrite nth_indep with (d' := turns 8 (N.of_nat 0)) by (rewrite map_length, seq_length; lia).
  rewrite (map_nth (fun i => turns 8 (N.of_nat i))), seq_nth by lia. rewrite Nat.add_0_l, Nnat.N2Nat.id. reflexivity.
Qed.

Lemma step_feed : forall b c, b < 256 -> octet_step c b = fold_left feed (octet_bits b) c.
Proof.
  intros b c H. rewrite octet_lows, feed_lows by exact H. unfold octet_step. set (x := N.lxor c b).
  change 255 with (N.ones 8). rewrite N.land_ones. change (2 ^ 8) with 256.
  rewrite table_entry by (apply N.mod_lt; lia).
  assert (E : x = N.lxor (N.shiftl (N.shiftr x 8) (N.of_nat 8)) (x mod 256)).
  { change 256 with (2 ^ 8). rewrite <- N.land_ones. change (N.of_nat 8) with 8. rewrite <- N.ldiff_ones_r.
    apply N.bits_inj. intros i. rewrite N.lxor_spec, N.ldiff_spec, N.land_spec.
    destruct (N.testbit x i), (N.testbit (N.ones 8) i); reflexivity. }
  rewrite E at 2. rewrite turns_lxor, turns_shift. f_equal. unfold x. rewrite N.shiftr_lxor.
  rewrite (N.shiftr_div_pow2 b). change (2 ^ 8) with 256. rewrite (N.div_small b) by exact H. rewrite N.lxor_0_r.
  reflexivity.
Qed.

Lemma octets_feed : forall s c, octets s -> fold_left octet_step s c = fold_left feed (message_bits s) c.
Proof.
  unfold octets, message_bits. induction s as [| b s IH]; intros c H; [reflexivity |].
  inversion H as [| ? ? Hb Hs]; subst. cbn [fold_left flat_map]. rewrite fold_left_app, <- step_feed by exact Hb.
  apply IH, Hs.
Qed.

(** ** Words *)
Lemma lxor_lt : forall k a b, a < 2 ^ k -> b < 2 ^ k -> N.lxor a b < 2 ^ k.
Proof.
  intros k a b Ha Hb. assert (Hm : forall x, x < 2 ^ k -> forall i, k <= i -> N.testbit x i = false).
  { intros x Hx i Hi. destruct (N.eq_dec x 0) as [-> | n]; [apply N.bits_0 |]. apply N.bits_above_log2.
    apply N.log2_lt_pow2 in Hx; lia. }
  destruct (N.eq_dec (N.lxor a b) 0) as [-> | n]; [assert (2 ^ k <> 0) by (apply N.pow_nonzero; lia); lia |].
  apply N.log2_lt_pow2; [lia |]. destruct (N.lt_ge_cases (N.log2 (N.lxor a b)) k) as [L | L]; [exact L |].
  pose proof (N.bit_log2 _ n) as B. rewrite N.lxor_spec, (Hm a Ha _ L), (Hm b Hb _ L) in B. discriminate B.
Qed.

Definition word (c : N) : Prop := c < 2 ^ 32.

Lemma turn_word : forall c, word c -> word (turn c).
Proof.
  unfold word. intros c H. rewrite turn_alt. apply lxor_lt.
  - rewrite N.shiftr_div_pow2. change (2 ^ 1) with 2. apply N.div_lt_upper_bound; lia.
  - destruct (N.testbit c 0); [reflexivity | lia].
Qed.

Lemma b2n_word : forall b, word (N.b2n b).
Proof. intros []; reflexivity. Qed.

Lemma feed_word : forall c b, word c -> word (feed c b).
Proof. intros c b H. apply turn_word, lxor_lt; [exact H | apply b2n_word]. Qed.

Lemma feeds_word : forall m c, word c -> word (fold_left feed m c).
Proof. induction m as [| b m IH]; intros c H; [exact H |]. cbn [fold_left]. apply IH, feed_word, H. Qed.

Lemma word_above : forall c i, word c -> 32 <= i -> N.testbit c i = false.
Proof.
  intros c i H Hi. destruct (N.eq_dec c 0) as [-> | n]; [apply N.bits_0 |]. apply N.bits_above_log2.
  apply N.log2_lt_pow2 in H; lia.
Qed.

(** A turn loses nothing. *)
Lemma turn_zero : forall c, word c -> turn c = 0 -> c = 0.
Proof.
  intros c H E. rewrite turn_alt in E. pose proof (f_equal (fun x => N.testbit x 31) E) as B.
  cbv beta in B. rewrite N.lxor_spec, N.shiftr_spec', word_above, xorb_false_l, N.bits_0 in B by (exact H || lia).
  destruct (N.testbit c 0) eqn:E0; [discriminate B |]. rewrite N.lxor_0_r in E. rewrite (split0 c), E0, E. reflexivity.
Qed.

Lemma turns_zero : forall n c, word c -> turns n c = 0 -> c = 0.
Proof.
  induction n as [| n IH]; intros c H E; [exact E |]. cbn [turns] in E. apply turn_zero; [exact H |].
  apply IH; [apply turn_word, H | exact E].
Qed.

(** ** The register divides *)
Lemma add_front_map : forall {A} (f g : A -> bool) l, add_front (map f l) (map g l) = map (fun x => xorb (f x) (g x)) l.
Proof. induction l as [| x l IH]; [reflexivity |]. cbn [map add_front]. rewrite IH. reflexivity. Qed.

Lemma add_front_two : forall a t l, List.length a = List.length t -> (List.length t <= List.length l)%nat ->
  add_front a (add_front t l) = add_front (add_front a t) l.
Proof.
  induction a as [| x a IH]; intros [| y t] [| z l] E L; cbn [List.length] in *; try lia; try reflexivity.
  cbn [add_front]. rewrite IH by lia. f_equal. destruct x, y, z; reflexivity.
Qed.

Lemma add_front_pad : forall t l, (List.length t < List.length l)%nat -> add_front (t ++ [false]) l = add_front t l.
Proof.
  induction t as [| y t IH]; intros [| z l] L; cbn [List.length app add_front] in *; try lia.
  - destruct z, l; reflexivity.
  - rewrite IH by lia. reflexivity.
Qed.

Lemma add_front_zeros : forall a, add_front a (repeat false (List.length a)) = a.
Proof.
  induction a as [| x a IH]; [reflexivity |]. cbn [List.length repeat add_front]. rewrite IH, xorb_false_r. reflexivity.
Qed.

Lemma add_front_length : forall a l, List.length (add_front a l) = List.length l.
Proof. induction a as [| x a IH]; intros [| y l]; cbn [add_front List.length]; rewrite ?IH; reflexivity. Qed.

Lemma wbits_length : forall c, List.length (wbits c) = 32%nat.
Proof. intros c. unfold wbits. rewrite map_length, seq_length. reflexivity. Qed.

Lemma generator_bits : generator = wbits polynomial.
Proof. reflexivity. Qed.

Definition upper (c : N) : list bool := map (fun i => N.testbit c (N.of_nat i)) (seq 1 31).

Lemma wbits_cons : forall c, wbits c = N.testbit c 0 :: upper c.
Proof. reflexivity. Qed.

Lemma wbits_shift : forall c, word c -> wbits (N.shiftr c 1) = upper c ++ [false].
Proof.
  intros c H. unfold wbits, upper. rewrite <- (word_above c 32 H) by lia.
  change [N.testbit c 32] with (map (fun i => N.testbit c (N.of_nat i)) [32%nat]). rewrite <- map_app.
  change (seq 1 31 ++ [32%nat]) with (seq 1 32). rewrite <- (seq_shift 32 0), map_map. apply map_ext. intros i.
  rewrite N.shiftr_spec'. f_equal. lia.
Qed.

Lemma wbits_lxor : forall a b, wbits (N.lxor a b) = add_front (wbits a) (wbits b).
Proof. intros a b. unfold wbits. rewrite add_front_map. apply map_ext. intros i. apply N.lxor_spec. Qed.

Lemma upper_lxor_bit : forall c b, upper (N.lxor c (N.b2n b)) = upper c.
Proof.
  intros c b. unfold upper. apply map_ext_in. intros i Hi. apply in_seq in Hi. rewrite N.lxor_spec.
  replace (N.testbit (N.b2n b) (N.of_nat i)) with false; [apply xorb_false_r |]. symmetry.
  replace (N.of_nat i) with (N.succ (N.of_nat (i - 1))) by lia. rewrite N.testbit_succ_r_div2 by lia.
  destruct b; apply N.bits_0.
Qed.

Lemma upper_length : forall c, List.length (upper c) = 31%nat.
Proof. intros c. unfold upper. rewrite map_length, seq_length. reflexivity. Qed.

Lemma add_front_comm : forall a b, List.length a = List.length b -> add_front a b = add_front b a.
Proof.
  induction a as [| x a IH]; intros [| y b] E; cbn [List.length] in *; try discriminate E; [reflexivity |].
  cbn [add_front]. rewrite xorb_comm, IH by lia. reflexivity.
Qed.

Lemma register_divides : forall m c, word c ->
  remainder (List.length m) (add_front (wbits c) (m ++ repeat false 32)) = wbits (fold_left feed m c).
Proof.
  induction m as [| b m IH]; intros c H; cbn [List.length fold_left app].
  - cbn [remainder]. rewrite <- (wbits_length c). apply add_front_zeros.
  - rewrite <- IH by (apply feed_word, H). rewrite wbits_cons. cbn [add_front remainder].
    assert (Hl : (31 < List.length (m ++ repeat false 32))%nat) by (rewrite app_length, repeat_length; lia).
    assert (Ht : N.testbit (N.lxor c (N.b2n b)) 0 = xorb (N.testbit c 0) b)
      by (rewrite N.lxor_spec; f_equal; destruct b; reflexivity).
    assert (Hw : word (N.lxor c (N.b2n b))) by (apply lxor_lt; [exact H | apply b2n_word]).
    unfold feed. rewrite turn_alt, Ht. destruct (xorb (N.testbit c 0) b).
    + rewrite wbits_lxor, wbits_shift, upper_lxor_bit by exact Hw. rewrite <- generator_bits. f_equal.
      rewrite (add_front_comm (upper c ++ [false]) generator) by (rewrite app_length, upper_length; reflexivity).
      rewrite <- add_front_two.
      * f_equal. symmetry. apply add_front_pad. rewrite upper_length. exact Hl.
      * rewrite app_length, upper_length. reflexivity.
      * rewrite app_length, upper_length. cbn [List.length]. lia.
    + rewrite N.lxor_0_r, wbits_shift, upper_lxor_bit by exact Hw. f_equal. symmetry. apply add_front_pad.
      rewrite upper_length. exact Hl.
Qed.

(** ** Numbers and bits *)
Lemma number_bits : forall n c, c < 2 ^ N.of_nat n -> number (lows n c) = c.
Proof.
  induction n as [| n IH]; intros c H; cbn [lows number].
  - change (2 ^ N.of_nat 0) with 1 in H. lia.
  - rewrite IH.
    + rewrite N.shiftr_div_pow2, N.bit0_mod. change (2 ^ 1) with 2. rewrite (N.div_mod c 2) at 3 by lia. lia.
    + rewrite Nnat.Nat2N.inj_succ, N.pow_succ_r' in H. rewrite N.shiftr_div_pow2. change (2 ^ 1) with 2.
      apply N.div_lt_upper_bound; lia.
Qed.

Lemma lows_map : forall n c k, lows n (N.shiftr c (N.of_nat k)) = map (fun i => N.testbit c (N.of_nat i)) (seq k n).
Proof.
  induction n as [| n IH]; intros c k; [reflexivity |]. cbn [lows seq map]. rewrite N.shiftr_spec', N.add_0_l. f_equal.
  rewrite <- IH, N.shiftr_shiftr. f_equal. f_equal. lia.
Qed.

Lemma wbits_lows : forall c, wbits c = lows 32 c.
Proof. intros c. unfold wbits. rewrite <- lows_map. change (N.of_nat 0) with 0. rewrite N.shiftr_0_r. reflexivity. Qed.

Lemma number_wbits : forall c, word c -> number (wbits c) = c.
Proof. intros c H. rewrite wbits_lows. apply number_bits. exact H. Qed.

Lemma negb_bits : forall l, number (map negb l) + number l = 2 ^ N.of_nat (List.length l) - 1.
Proof.
  induction l as [| b l IH]; [reflexivity |]. cbn [map number List.length]. rewrite Nnat.Nat2N.inj_succ, N.pow_succ_r'.
  assert (2 ^ N.of_nat (List.length l) <> 0) by (apply N.pow_nonzero; lia). destruct b; cbn [negb N.b2n]; lia.
Qed.

Lemma number_not : forall c, word c -> number (map negb (wbits c)) = not32 c.
Proof.
  intros c H. pose proof (negb_bits (wbits c)) as E. rewrite wbits_length, number_wbits in E by exact H.
  change (2 ^ N.of_nat 32 - 1) with 4294967295 in E. unfold not32. lia.
Qed.

Lemma not32_word : word (not32 0).
Proof. reflexivity. Qed.

Lemma not32_inj : forall a b, word a -> word b -> not32 a = not32 b -> a = b.
Proof. unfold word, not32. change (2 ^ 32) with 4294967296. intros; lia. Qed.

Lemma crc_checksum : forall s, octets s -> crc_word s = number (checksum (message_bits s)).
Proof.
  intros s H. unfold crc_word, checksum. rewrite octets_feed by exact H.
  change (repeat true 32) with (wbits (not32 0)). rewrite register_divides by exact not32_word.
  symmetry. apply number_not, feeds_word, not32_word.
Qed.

Lemma crc_lt : forall s, crc_word s < 4294967296.
Proof. intros s. unfold crc_word, not32. lia. Qed.

(** ** Differences *)
Fixpoint xors (a b : list bool) : list bool :=
  match a, b with x :: a', y :: b' => xorb x y :: xors a' b' | _, _ => [] end.

Lemma feed_lxor : forall c d x y, feed (N.lxor c d) (xorb x y) = N.lxor (feed c x) (feed d y).
Proof.
  intros c d x y. unfold feed. rewrite <- turn_lxor. f_equal.
  replace (N.b2n (xorb x y)) with (N.lxor (N.b2n x) (N.b2n y)) by (destruct x, y; reflexivity).
  apply N.bits_inj. intros i. rewrite !N.lxor_spec.
  repeat match goal with |- context [N.testbit ?x ?y] => destruct (N.testbit x y) end; reflexivity.
Qed.

Lemma feeds_lxor : forall m n c d, List.length m = List.length n ->
  fold_left feed (xors m n) (N.lxor c d) = N.lxor (fold_left feed m c) (fold_left feed n d).
Proof.
  induction m as [| x m IH]; intros [| y n] c d E; try discriminate E; [reflexivity |].
  cbn [xors fold_left]. rewrite feed_lxor. apply IH. cbn [List.length] in E. lia.
Qed.

Lemma feeds_diff : forall m n c, List.length m = List.length n ->
  N.lxor (fold_left feed m c) (fold_left feed n c) = fold_left feed (xors m n) 0.
Proof. intros m n c E. rewrite <- feeds_lxor by exact E. rewrite N.lxor_nilpotent. reflexivity. Qed.

Lemma xors_app : forall a b c d, List.length a = List.length b -> xors (a ++ c) (b ++ d) = xors a b ++ xors c d.
Proof.
  induction a as [| x a IH]; intros [| y b] c d E; try discriminate E; [reflexivity |].
  cbn [xors app]. rewrite IH by (cbn [List.length] in E; lia). reflexivity.
Qed.

Lemma xors_same : forall a, xors a a = repeat false (List.length a).
Proof. induction a as [| x a IH]; [reflexivity |]. cbn [xors List.length repeat]. rewrite xorb_nilpotent, IH. reflexivity. Qed.

Lemma feeds_zeros : forall n c, fold_left feed (repeat false n) c = turns n c.
Proof.
  induction n as [| n IH]; intros c; [reflexivity |]. cbn [repeat fold_left turns]. rewrite IH. unfold feed.
  cbn [N.b2n]. rewrite N.lxor_0_r. reflexivity.
Qed.

Lemma turns_of_0 : forall n, turns n 0 = 0.
Proof. induction n as [| n IH]; [reflexivity |]. cbn [turns]. rewrite turn_0. exact IH. Qed.

Lemma lows_number : forall l, lows (List.length l) (number l) = l.
Proof.
  induction l as [| b l IH]; [reflexivity |]. cbn [List.length lows number].
  assert (E : N.shiftr (N.b2n b + 2 * number l) 1 = number l).
  { rewrite N.shiftr_div_pow2. change (2 ^ 1) with 2. rewrite N.mul_comm, N.div_add by lia.
    destruct b; reflexivity. }
  rewrite E, IH. f_equal. rewrite N.bit0_odd, N.odd_add_mul_2. destruct b; reflexivity.
Qed.

Lemma number_lt : forall l, number l < 2 ^ N.of_nat (List.length l).
Proof.
  intros l. pose proof (negb_bits l). assert (2 ^ N.of_nat (List.length l) <> 0) by (apply N.pow_nonzero; lia). lia.
Qed.

Lemma window_zero : forall w, (List.length w <= 32)%nat -> fold_left feed w 0 = 0 -> w = repeat false (List.length w).
Proof.
  intros w L E. rewrite <- (lows_number w), feed_lows, N.lxor_0_l in E by apply number_lt.
  apply turns_zero in E.
  - rewrite <- (lows_number w) at 1. rewrite E. clear. induction (List.length w) as [| n IH]; [reflexivity |].
    cbn [lows repeat]. rewrite N.shiftr_0_l, IH. reflexivity.
  - unfold word. eapply N.lt_le_trans; [apply number_lt |]. apply N.pow_le_mono_r; lia.
Qed.

Lemma xors_zero : forall a b, List.length a = List.length b -> xors a b = repeat false (List.length a) -> a = b.
Proof.
  induction a as [| x a IH]; intros [| y b] E Z; try discriminate E; [reflexivity |].
  cbn [xors List.length repeat] in Z. injection Z as Zh Zt. cbn [List.length] in E. rewrite (IH b) by (lia || exact Zt).
  destruct x, y; cbn in Zh; congruence.
Qed.

Lemma xors_length : forall a b, List.length a = List.length b -> List.length (xors a b) = List.length a.
Proof.
  induction a as [| x a IH]; intros [| y b] E; try discriminate E; [reflexivity |].
  cbn [xors List.length]. rewrite IH; cbn [List.length] in E; lia.
Qed.

Lemma burst : forall p a b q c, List.length a = List.length b -> (List.length a <= 32)%nat ->
  fold_left feed (p ++ a ++ q) c = fold_left feed (p ++ b ++ q) c -> a = b.
Proof.
  intros p a b q c E L H.
  assert (D : fold_left feed (xors (p ++ a ++ q) (p ++ b ++ q)) 0 = 0).
  { rewrite <- (feeds_diff _ _ c) by (rewrite !app_length; lia). rewrite H. apply N.lxor_nilpotent. }
  rewrite !xors_app, !xors_same, !fold_left_app, !feeds_zeros, turns_of_0 in D by (reflexivity || exact E).
  apply turns_zero in D; [| apply feeds_word; reflexivity]. apply window_zero in D.
  - rewrite xors_length in D by exact E. apply xors_zero; assumption.
  - rewrite xors_length by exact E. exact L.
Qed.

Lemma crc_feeds : forall s t, octets s -> octets t -> crc_word s = crc_word t ->
  fold_left feed (message_bits s) (not32 0) = fold_left feed (message_bits t) (not32 0).
Proof.
  intros s t Hs Ht E. unfold crc_word in E. rewrite !octets_feed in E by assumption.
  apply not32_inj in E; [exact E | |]; apply feeds_word, not32_word.
Qed.

Lemma crc_burst : forall s t p a b q, octets s -> octets t ->
  message_bits s = p ++ a ++ q -> message_bits t = p ++ b ++ q ->
  List.length a = List.length b -> (List.length a <= 32)%nat -> a <> b -> crc_word s <> crc_word t.
Proof.
  intros s t p a b q Hs Ht Es Et E L Nab H. apply crc_feeds in H; [| assumption ..]. rewrite Es, Et in H.
  apply burst in H; auto.
Qed.

Lemma message_app : forall a b, message_bits (a ++ b) = message_bits a ++ message_bits b.
Proof. intros a b. unfold message_bits. apply flat_map_app. Qed.

Lemma message_length : forall s, List.length (message_bits s) = (8 * List.length s)%nat.
Proof.
  induction s as [| b s IH]; [reflexivity |]. change (b :: s) with ([b] ++ s). rewrite message_app, !app_length, IH.
  change (List.length (message_bits [b])) with 8%nat. cbn [List.length]. lia.
Qed.

Lemma octet_bits_inj : forall a b, a < 256 -> b < 256 -> octet_bits a = octet_bits b -> a = b.
Proof.
  intros a b Ha Hb E. rewrite !octet_lows in E. rewrite <- (number_bits 8 a Ha), <- (number_bits 8 b Hb), E. reflexivity.
Qed.

Lemma same_length_app : forall {A} (a b c d : list A), List.length a = List.length b -> a ++ c = b ++ d -> a = b /\ c = d.
Proof.
  intros A. induction a as [| x a IH]; intros [| y b] c d E H; try discriminate E; [split; [reflexivity | exact H] |].
  injection H as -> H. apply IH in H as [-> ->]; [split; reflexivity |]. cbn [List.length] in E. lia.
Qed.

Lemma message_inj : forall s t, octets s -> octets t -> message_bits s = message_bits t -> s = t.
Proof.
  induction s as [| a s IH]; intros [| b t] Hs Ht E.
  - reflexivity.
  - apply (f_equal (@List.length bool)) in E. rewrite !message_length in E. cbn [List.length] in E. lia.
  - apply (f_equal (@List.length bool)) in E. rewrite !message_length in E. cbn [List.length] in E. lia.
  - inversion Hs; inversion Ht; subst. unfold message_bits in E. cbn [flat_map] in E.
    apply same_length_app in E as [E1 E2]; [| reflexivity]. apply octet_bits_inj in E1; [| assumption ..].
    rewrite E1, (IH t); auto.
Qed.

(** Equal checksums of texts of the same length stay equal inside any text. *)
Lemma crc_inside : forall p q u v, octets p -> octets q -> octets u -> octets v ->
  List.length u = List.length v -> crc_word u = crc_word v -> crc_word (p ++ u ++ q) = crc_word (p ++ v ++ q).
Proof.
  intros p q u v Hp Hq Hu Hv L E. apply crc_feeds in E; [| assumption ..]. unfold crc_word. f_equal.
  rewrite !octets_feed by (unfold octets in *; rewrite ?Forall_app; auto). rewrite !message_app, !fold_left_app. f_equal.
  set (c := fold_left feed (message_bits p) (not32 0)).
  assert (Lb : List.length (message_bits u) = List.length (message_bits v)) by (rewrite !message_length; lia).
  assert (D : forall d, N.lxor (fold_left feed (message_bits u) d) (fold_left feed (message_bits v) d) = 0).
  { intros d. rewrite feeds_diff, <- (feeds_diff _ _ (not32 0)) by exact Lb. rewrite E. apply N.lxor_nilpotent. }
  apply N.lxor_eq, D.
Qed.

(** ** Digits *)
Lemma be4 : forall n, be 4 n = [n / 256 / 256 / 256 mod 256; n / 256 / 256 mod 256; n / 256 mod 256; n mod 256].
Proof. reflexivity. Qed.

Lemma hex8_inj : forall a b, a < 4294967296 -> b < 4294967296 -> hex8 a = hex8 b -> a = b.
Proof.
  intros a b Ha Hb E. unfold hex8 in E. rewrite !be4 in E. cbn [flat_map] in E.
  repeat match goal with H : low_octet _ ++ _ = low_octet _ ++ _ |- _ =>
    apply same_length_app in H as [?E H]; [| reflexivity] end.
  repeat match goal with H : low_octet _ = low_octet _ |- _ =>
    apply low_tells in H; [| apply N.mod_lt; lia | apply N.mod_lt; lia] end.
  rewrite !N.div_div in * by lia. change (256 * 256) with 65536 in *. change (65536 * 256) with 16777216 in *.
  change (256 * 65536) with 16777216 in *.
  assert (R : forall n, n < 4294967296 -> n = n / 16777216 mod 256 * 16777216 + n / 65536 mod 256 * 65536 + n / 256 mod 256 * 256 + n mod 256).
  { clear. intros n H. 
    assert (n / 16777216 < 256) by (apply N.div_lt_upper_bound; lia). rewrite (N.mod_small (n / 16777216)) by assumption.
    pose proof (N.div_mod n 256 ltac:(lia)). pose proof (N.div_mod (n / 256) 256 ltac:(lia)) as A.
    pose proof (N.div_mod (n / 65536) 256 ltac:(lia)) as B. rewrite N.div_div in A, B by lia.
    change (256 * 256) with 65536 in *. change (65536 * 256) with 16777216 in *. lia. }
  rewrite (R a Ha), (R b Hb). congruence.
Qed.

Lemma low_digit_hex : forall d, d < 16 -> low_hex (low_digit d).
Proof. unfold low_hex, low_digit. intros d H. destruct (N.ltb_spec d 10); lia. Qed.

Lemma hex8_digits : forall n, List.length (hex8 n) = 8%nat /\ Forall low_hex (hex8 n).
Proof.
  intros n. split; [reflexivity |]. unfold hex8. rewrite be4. cbn [flat_map]. unfold low_octet. cbn [app].
  assert (M : forall x, low_hex (low_digit (x mod 256 / 16)) /\ low_hex (low_digit (x mod 256 mod 16))).
  { intros x. split; apply low_digit_hex; [| apply N.mod_lt; lia]. apply N.div_lt_upper_bound; [lia |].
    apply N.mod_lt. lia. }
  repeat first [apply Forall_cons | apply Forall_nil]; apply M.
Qed.

Lemma hex8_no : forall n c, ~ low_hex c -> ~ In c (hex8 n).
Proof. intros n c H I. destruct (hex8_digits n) as [_ F]. rewrite Forall_forall in F. exact (H (F c I)). Qed.

Lemma dot_hex : ~ low_hex 46.
Proof. unfold low_hex. lia. Qed.
Lemma slash_hex : ~ low_hex 47.
Proof. unfold low_hex. lia. Qed.

(** ** Parts of names *)
Lemma split_app : forall c a b, split_on c (a ++ c :: b) = split_on c a ++ split_on c b.
Proof.
  intros c. induction a as [| x a IH]; intros b; cbn [app split_on].
  - rewrite N.eqb_refl. reflexivity.
  - destruct (x =? c); rewrite IH; [reflexivity |].
    destruct (split_on c a) eqn:E; [| reflexivity]. exfalso. clear - E. destruct a as [| y a]; cbn [split_on] in E; [discriminate |].
    destruct (y =? c); [discriminate |]. destruct (split_on c a); discriminate.
Qed.

Lemma split_some_part : forall c s, split_on c s <> [].
Proof.
  intros c [| x s]; cbn [split_on]; [discriminate |]. destruct (x =? c); [discriminate |]. destruct (split_on c s); discriminate.
Qed.

Lemma join_split : forall c s, join [c] (split_on c s) = s.
Proof.
  intros c. induction s as [| x s IH]; [reflexivity |]. cbn [split_on]. destruct (N.eqb_spec x c) as [-> | _].
  - pose proof (split_some_part c s) as P. destruct (split_on c s) as [| h t]; [congruence |].
    change (join [c] ([] :: h :: t)) with ([] ++ [c] ++ join [c] (h :: t)). rewrite IH. reflexivity.
  - pose proof (split_some_part c s) as P. destruct (split_on c s) as [| h t]; [congruence |].
    rewrite <- IH. destruct t; reflexivity.
Qed.

Lemma join_snoc : forall c l x, l <> [] -> join [c] (l ++ [x]) = join [c] l ++ [c] ++ x.
Proof.
  intros c. induction l as [| y l IH]; intros x H; [congruence |]. destruct l as [| z l]; [reflexivity |].
  change (join [c] ((y :: z :: l) ++ [x])) with (y ++ [c] ++ join [c] ((z :: l) ++ [x])).
  rewrite IH by discriminate. change (join [c] (y :: z :: l)) with (y ++ [c] ++ join [c] (z :: l)).
  rewrite <- !app_assoc. reflexivity.
Qed.

Lemma last_part : forall (c : N) (s : bytes), ~ In c s \/ exists a b, s = a ++ c :: b /\ ~ In c b.
Proof.
  intros c. induction s as [| x s [H | (a & b & -> & H)]].
  - left. intros [].
  - destruct (N.eq_dec x c) as [-> | n].
    + right. exists [], s. split; [reflexivity | exact H].
    + left. intros [e | I]; auto.
  - right. exists (x :: a), b. split; [reflexivity | exact H].
Qed.

Lemma break_last : forall (c : N) (a b a' b' : bytes), ~ In c b -> ~ In c b' -> a ++ c :: b = a' ++ c :: b' -> a = a' /\ b = b'.
Proof.
  intros c a b a' b' H H' E. apply (f_equal (@rev N)) in E. rewrite !rev_app_distr in E. cbn [rev] in E.
  rewrite <- !app_assoc in E. cbn [app] in E. apply break in E as [E1 E2]; try (rewrite <- in_rev; assumption).
  split; [rewrite <- (rev_involutive a), E2 | rewrite <- (rev_involutive b), E1]; apply rev_involutive.
Qed.

Lemma suffix_plain : forall f x, no_dot f -> add_suffix f x = f ++ [46] ++ x.
Proof. intros f x H. unfold add_suffix. rewrite split_plain by exact H. reflexivity. Qed.

Lemma suffix_parts : forall (l : list bytes) (e f x : bytes), l <> [] ->
  (if (1 <? List.length (l ++ [e]))%nat then join [46] (removelast (l ++ [e]) ++ [x ++ [46] ++ last (l ++ [e]) []])
   else f ++ [46] ++ x) = join [46] l ++ [46] ++ x ++ [46] ++ e.
Proof.
  intros l e f x P. rewrite app_length, removelast_last, last_last. destruct l as [| y l]; [congruence |].
  assert (L : (1 <? List.length (y :: l) + List.length [e])%nat = true) by (apply Nat.ltb_lt; cbn [List.length]; lia).
  rewrite L. apply join_snoc. discriminate.
Qed.

Lemma suffix_dotted : forall a e x, no_dot e -> add_suffix (a ++ [46] ++ e) x = a ++ [46] ++ x ++ [46] ++ e.
Proof.
  intros a e x H. unfold add_suffix. change (a ++ [46] ++ e) with (a ++ 46 :: e).
  rewrite split_app, (split_plain 46 e) by exact H.
  refine (eq_trans (suffix_parts _ _ _ _ (split_some_part 46 a)) _). rewrite join_split. reflexivity.
Qed.

Lemma name_plain : forall p, no_slash p -> file_name p = p.
Proof. intros p H. unfold file_name. rewrite split_plain by exact H. reflexivity. Qed.

Lemma name_after : forall d f, no_slash f -> file_name (d ++ [47] ++ f) = f.
Proof. intros d f H. unfold file_name. cbn [app]. rewrite split_app, (split_plain 47 f) by exact H. apply last_last. Qed.

Lemma name_no_slash : forall p, no_slash (file_name p).
Proof.
  intros p. destruct (last_part 47 p) as [H | (a & b & -> & H)].
  - rewrite name_plain; exact H.
  - change (a ++ 47 :: b) with (a ++ [47] ++ b). rewrite name_after; exact H.
Qed.

Lemma suffix_no : forall c f x, c <> 46 -> ~ In c f -> ~ In c x -> ~ In c (add_suffix f x).
Proof.
  intros c f x Hc Hf Hx. destruct (last_part 46 f) as [H | (a & b & -> & H)].
  - rewrite suffix_plain by exact H. apply no_app; [exact Hf |]. apply no_app; [| exact Hx]. intros [e | []]. congruence.
  - change (a ++ 46 :: b) with (a ++ [46] ++ b) in *. rewrite suffix_dotted by exact H.
    assert (~ In c a) by (intros I; apply Hf, in_or_app; auto).
    assert (~ In c b) by (intros I; apply Hf; apply in_or_app; right; right; exact I).
    assert (~ In c [46]) by (intros [e | []]; congruence).
    repeat apply no_app; assumption.
Qed.

Lemma suffix_inj : forall f g x y, no_dot x -> no_dot y -> add_suffix f x = add_suffix g y -> f = g /\ x = y.
Proof.
  unfold no_dot. intros f g x y Hx Hy E.
  destruct (last_part 46 f) as [H | (a & b & -> & H)], (last_part 46 g) as [H' | (a' & b' & -> & H')];
    repeat match goal with |- context [?a ++ 46 :: ?b] => change (a ++ 46 :: b) with (a ++ [46] ++ b) end;
    repeat match type of E with context [?a ++ 46 :: ?b] => change (a ++ 46 :: b) with (a ++ [46] ++ b) in E end;
    rewrite ?(suffix_plain f), ?(suffix_plain g), ?suffix_dotted in E by assumption; cbn [app] in *.
  - apply break_last in E; assumption.
  - change (a' ++ 46 :: y ++ 46 :: b') with (a' ++ (46 :: y) ++ 46 :: b') in E. rewrite app_assoc in E.
    apply break_last in E as [E1 E2]; [| assumption ..]. exfalso. apply H. rewrite E1. apply in_or_app. right. left. reflexivity.
  - change (a ++ 46 :: x ++ 46 :: b) with (a ++ (46 :: x) ++ 46 :: b) in E. rewrite app_assoc in E.
    apply break_last in E as [E1 E2]; [| assumption ..]. exfalso. apply H'. rewrite <- E1. apply in_or_app. right. left. reflexivity.
  - change (a ++ 46 :: x ++ 46 :: b) with (a ++ (46 :: x) ++ 46 :: b) in E.
    change (a' ++ 46 :: y ++ 46 :: b') with (a' ++ (46 :: y) ++ 46 :: b') in E. rewrite !app_assoc in E.
    apply break_last in E as [E1 ->]; [| assumption ..]. apply break_last in E1 as [-> ->]; [| assumption ..]. auto.
Qed.

Lemma crc32_iff : forall p q, crc32 p = crc32 q <-> crc_word p = crc_word q.
Proof.
  intros p q. split; [| unfold crc32; congruence]. intros E. apply hex8_inj in E; [exact E | apply crc_lt ..].
Qed.

Lemma cache_iff : forall p q, cache_name p = cache_name q <-> file_name p = file_name q /\ crc_word p = crc_word q.
Proof.
  intros p q. rewrite <- crc32_iff. unfold cache_name. split.
  - intros E. apply app_inv_head in E. apply suffix_inj in E; [exact E | |]; apply hex8_no, dot_hex.
  - intros [-> ->]. reflexivity.
Qed.

Lemma cache_no_slash : forall p, no_slash (cache_name p).
Proof.
  intros p. unfold no_slash, cache_name. apply no_app; [nolit |]. apply suffix_no; [discriminate | apply name_no_slash |].
  apply hex8_no, slash_hex.
Qed.

Lemma be_val_hex : forall n, n < 4294967296 -> be_val (be 4 n) = n.
Proof.
  intros n H. rewrite be4. unfold be_val. cbn [fold_left]. rewrite !N.div_div by lia.
  change (256 * 256) with 65536. change (65536 * 256) with 16777216.
  assert (n / 16777216 < 256) by (apply N.div_lt_upper_bound; lia). rewrite (N.mod_small (n / 16777216)) by assumption.
  pose proof (N.div_mod n 256 ltac:(lia)). pose proof (N.div_mod (n / 256) 256 ltac:(lia)) as A.
  pose proof (N.div_mod (n / 65536) 256 ltac:(lia)) as B. rewrite N.div_div in A, B by lia.
  change (256 * 256) with 65536 in *. change (65536 * 256) with 16777216 in *. lia.
Qed.

(** The name has one dot more than the text after the last slash. *)
Definition dots (s : bytes) : nat := count_occ N.eq_dec s 46.

Lemma suffix_dots : forall f x, no_dot x -> dots (add_suffix f x) = S (dots f).
Proof.
  intros f x Hx. assert (X : dots x = O) by (apply count_occ_not_In; exact Hx).
  destruct (last_part 46 f) as [H | (a & b & -> & H)].
  - rewrite suffix_plain by exact H. unfold dots in *. rewrite !count_occ_app, X. cbn. lia.
  - change (a ++ 46 :: b) with (a ++ [46] ++ b). rewrite suffix_dotted by exact H. unfold dots in *.
    rewrite !count_occ_app, X. cbn. lia.
Qed.

Lemma not_dashed : forall f x y, no_dot x -> no_dot y -> add_suffix f x <> y ++ [45] ++ f.
Proof.
  intros f x y Hx Hy E. apply (f_equal dots) in E. rewrite suffix_dots in E by exact Hx.
  assert (Y : dots y = O) by (apply count_occ_not_In; exact Hy).
  unfold dots in *. rewrite !count_occ_app, Y in E. cbn in E. lia.
Qed.
