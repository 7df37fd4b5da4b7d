(** Timestamps as binary64 floats: whole seconds are exact. *)
From Coq Require Import ZArith NArith Lia Floats.SpecFloat.
From Verif Require Import Base Elem.
Local Open Scope Z_scope.

Lemma digits_size p : digits2_pos p = Pos.size p.
Proof. induction p; cbn; congruence. Qed.
Lemma size_bounds p : 2 ^ (Zpos (Pos.size p) - 1) <= Zpos p < 2 ^ Zpos (Pos.size p).
Proof.
  split.
  - pose proof (Pos.size_le p) as H. apply Pos2Z.pos_le_pos in H. rewrite Pos2Z.inj_pow in H.
    assert (E : 2 ^ Zpos (Pos.size p) = 2 * 2 ^ (Zpos (Pos.size p) - 1)).
    { rewrite <- Z.pow_succ_r by lia. f_equal. lia. }
    rewrite E in H. change (Zpos p~0) with (2 * Zpos p) in H. lia.
  - pose proof (Pos.size_gt p) as H. apply Pos2Z.pos_lt_pos in H. rewrite Pos2Z.inj_pow in H. exact H.
Qed.
Lemma size_le p q : (p <= q)%positive -> (Pos.size p <= Pos.size q)%positive.
Proof.
  intros H. pose proof (size_bounds p) as [A _]. pose proof (size_bounds q) as [_ B].
  assert (C : 2 ^ (Zpos (Pos.size p) - 1) < 2 ^ Zpos (Pos.size q)) by lia. apply Z.pow_lt_mono_r_iff in C; lia.
Qed.
Lemma size_shift d p : Pos.size (shift_pos d p) = (Pos.size p + d)%positive.
Proof.
  unfold shift_pos. induction d using Pos.peano_ind.
  - cbn. lia.
  - rewrite Pos.iter_succ. cbn [Pos.size]. rewrite IHd. lia.
Qed.
Lemma shift_val d p : Zpos (shift_pos d p) = Zpos p * 2 ^ Zpos d.
Proof.
  unfold shift_pos. induction d using Pos.peano_ind.
  - cbn. lia.
  - rewrite Pos.iter_succ. rewrite Pos2Z.inj_succ, Z.pow_succ_r by lia. change (Zpos (Pos.iter xO p d)~0) with (2 * Zpos (Pos.iter xO p d)). lia.
Qed.
(** The float of a positive number of at most 53 bits: mantissa of 53 bits. *)
Definition norm53 (p : positive) : positive :=
  match (53 - Zpos (Pos.size p))%Z with Zpos d => shift_pos d p | _ => p end.
Lemma round_exact m e : Zpos (Pos.size m) = 53 -> -1074 <= e <= 971 ->
  binary_round_aux 53 1024 false (Zpos m) e loc_Exact = S754_finite false m e.
Proof.
  intros D E. unfold binary_round_aux, shr_fexp. cbn [shr_record_of_loc]. unfold Zdigits2. rewrite digits_size, D.
  assert (F : fexp 53 1024 (53 + e) - e = 0) by (unfold fexp, emin; lia). rewrite F. cbn [shr shr_m loc_of_shr_record round_nearest_even].
  unfold Zdigits2. rewrite digits_size, D, F. cbn [shr shr_m]. change (1024 - 53) with 971. destruct (Z.leb_spec e 971); [reflexivity|lia].
Qed.
Lemma f64_pos p : (Pos.size p <= 53)%positive -> f64_of_N (Npos p) = S754_finite false (norm53 p) (Zpos (Pos.size p) - 53).
Proof.
  intros H. unfold f64_of_N, binary_normalize, binary_round, shl_align. cbn [Z.of_N]. rewrite digits_size.
  assert (F : fexp 53 1024 (Zpos (Pos.size p) + 0) = Zpos (Pos.size p) - 53) by (unfold fexp, emin; lia). rewrite F. unfold norm53.
  destruct (Zpos (Pos.size p) - 53 - 0) as [|d|d] eqn:E.
  - replace (53 - Zpos (Pos.size p)) with 0 by lia. replace (Zpos (Pos.size p) - 53) with 0 by lia. apply round_exact; lia.
  - lia.
  - replace (53 - Zpos (Pos.size p)) with (Zpos d) by lia. apply round_exact; [|lia]. rewrite size_shift. lia.
Qed.
Lemma norm53_val p : (Pos.size p <= 53)%positive -> Zpos (norm53 p) = Zpos p * 2 ^ (53 - Zpos (Pos.size p)).
Proof. intros H. unfold norm53. destruct (53 - Zpos (Pos.size p)) as [|d|d] eqn:E; [cbn; lia|apply shift_val|lia]. Qed.
Lemma size_bound (n : N) p : n = Npos p -> (n < 2 ^ 53)%N -> (Pos.size p <= 53)%positive.
Proof.
  intros -> H. pose proof (size_bounds p) as [A _]. assert (C : 2 ^ (Zpos (Pos.size p) - 1) < 2 ^ 53) by lia.
  apply Z.pow_lt_mono_r_iff in C; lia.
Qed.
Lemma f64_compare n m : (n < 2 ^ 53)%N -> (m < 2 ^ 53)%N -> SFcompare (f64_of_N n) (f64_of_N m) = Some (n ?= m)%N.
Proof.
  intros Hn Hm. destruct n as [|p], m as [|q].
  - reflexivity.
  - rewrite (f64_pos q) by (eapply size_bound; eauto). reflexivity.
  - rewrite (f64_pos p) by (eapply size_bound; eauto). reflexivity.
  - assert (Sp := size_bound _ p eq_refl Hn). assert (Sq := size_bound _ q eq_refl Hm). rewrite !f64_pos by assumption. cbn [SFcompare].
    destruct (Z.compare_spec (Zpos (Pos.size p) - 53) (Zpos (Pos.size q) - 53)) as [E|E|E].
    + f_equal. assert (G : Pos.size p = Pos.size q) by lia. pose proof (norm53_val p Sp) as A. pose proof (norm53_val q Sq) as B. rewrite G in A.
      assert (0 < 2 ^ (53 - Zpos (Pos.size q))) by (apply Z.pow_pos_nonneg; lia).
      change (Pos.compare_cont Eq (norm53 p) (norm53 q)) with (norm53 p ?= norm53 q)%positive. cbn [N.compare].
      rewrite !Pos2Z.inj_compare, A, B. symmetry. apply Zmult_compare_compat_r. lia.
    + f_equal. symmetry. apply N.compare_lt_iff. destruct (N.ltb_spec (Npos p) (Npos q)); auto.
      assert (Q : (Pos.size q <= Pos.size p)%positive) by (apply size_le; lia). lia.
    + f_equal. symmetry. apply N.compare_gt_iff. destruct (N.ltb_spec (Npos q) (Npos p)); auto.
      assert (Q : (Pos.size p <= Pos.size q)%positive) by (apply size_le; lia). lia.
Qed.
Lemma f64_inj n m : (n < 2 ^ 53)%N -> (m < 2 ^ 53)%N -> f64_of_N n = f64_of_N m -> n = m.
Proof.
  intros Hn Hm E. pose proof (f64_compare n m Hn Hm) as C. pose proof (f64_compare m m Hm Hm) as D. rewrite E, D in C.
  assert (F : (n ?= m)%N = (m ?= m)%N) by congruence. rewrite N.compare_refl in F. apply N.compare_eq_iff in F. exact F.
Qed.
