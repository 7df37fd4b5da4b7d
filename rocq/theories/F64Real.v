(** Binary64 timestamps as real numbers, by way of Flocq: rounding of seconds and
    microseconds. *)
From Coq Require Import ZArith NArith Reals Lia Lra Floats.SpecFloat.
From Flocq Require Import Core.Zaux Core.Raux Core.Defs Core.Generic_fmt Core.Ulp Core.Round_NE Core.FLT Core.Float_prop IEEE754.BinarySingleNaN Calc.Round.
From Verif Require Import Base Elem Bmp.
Local Open Scope R_scope.

Local Instance Hprec : FLX.Prec_gt_0 53 := eq_refl.
Local Instance Hmax : Prec_lt_emax 53 1024 := eq_refl.
Local Instance Hexp : Valid_exp (SpecFloat.fexp 53 1024) := fexp_correct 53 1024 Hprec.
Local Instance Hmono : Monotone_exp (SpecFloat.fexp 53 1024) := fexp_monotone 53 1024.
Notation bf := (binary_float 53 1024).
Notation rnd := (round radix2 (SpecFloat.fexp 53 1024) ZnearestE).

(** The finite float [x] is the number [r]. *)
Definition is_real (x : f64) (r : R) : Prop := exists b : bf, B2SF b = x /\ is_finite b = true /\ B2R b = r.

Lemma round_aux_equiv sx mx ex lx : SpecFloat.binary_round_aux 53 1024 sx mx ex lx = BinarySingleNaN.binary_round_aux 53 1024 mode_NE sx mx ex lx.
Proof.
  unfold SpecFloat.binary_round_aux, BinarySingleNaN.binary_round_aux. set (m := shr_fexp _ _ _ _ _). destruct m as [a b]. cbn [fst snd].
  assert (E : forall m l, round_nearest_even m l = choice_mode mode_NE sx m l).
  { intros m l. destruct l as [|[| |]]; cbn; unfold cond_incr; try reflexivity. destruct (Z.even m); reflexivity. }
  rewrite E. reflexivity.
Qed.
Lemma normalize_equiv m e z : SpecFloat.binary_normalize 53 1024 m e z = B2SF (BinarySingleNaN.binary_normalize 53 1024 Hprec Hmax mode_NE m e z).
Proof.
  destruct m as [|p|p]; [reflexivity| |]; cbn -[SpecFloat.binary_round]; rewrite B2SF_SF2B; unfold SpecFloat.binary_round, BinarySingleNaN.binary_round, shl_align_fexp; destruct (shl_align _ _ _); apply round_aux_equiv.
Qed.
Lemma add_equiv (x y : bf) : SFadd 53 1024 (B2SF x) (B2SF y) = B2SF (Bplus mode_NE x y).
Proof. destruct x as [sx|sx| |sx mx ex Bx], y as [sy|sy| |sy my ey By]; try (cbn; try destruct (Bool.eqb _ _); reflexivity). apply normalize_equiv. Qed.
Lemma sub_equiv (x y : bf) : SFsub 53 1024 (B2SF x) (B2SF y) = B2SF (Bminus mode_NE x y).
Proof.
  destruct x as [sx|sx| |sx mx ex Bx], y as [sy|sy| |sy my ey By]; try (cbn; try destruct (Bool.eqb _ _); reflexivity).
  cbn -[SpecFloat.binary_normalize]. unfold Zminus. rewrite <- cond_Zopp_negb. apply normalize_equiv.
Qed.
Lemma mul_equiv (x y : bf) : SFmul 53 1024 (B2SF x) (B2SF y) = B2SF (Bmult mode_NE x y).
Proof. destruct x as [sx|sx| |sx mx ex Bx], y as [sy|sy| |sy my ey By]; try reflexivity. cbn -[SpecFloat.binary_round_aux]. rewrite B2SF_SF2B. apply round_aux_equiv. Qed.
Lemma div_equiv (x y : bf) : SFdiv 53 1024 (B2SF x) (B2SF y) = B2SF (Bdiv mode_NE x y).
Proof.
  destruct x as [sx|sx| |sx mx ex Bx], y as [sy|sy| |sy my ey By]; try (cbn; try destruct (Bool.eqb _ _); reflexivity).
  cbn -[SpecFloat.binary_round_aux SFdiv_core_binary]. rewrite B2SF_SF2B. set (m := SFdiv_core_binary _ _ _ _ _ _). destruct m as [[a b] c]. apply round_aux_equiv.
Qed.

Lemma big_bound r k : Rabs r <= bpow radix2 k -> (k < 1024)%Z -> (-1074 <= k)%Z -> Rlt_bool (Rabs (rnd r)) (bpow radix2 1024) = true.
Proof.
  intros H K K'. apply Rlt_bool_true. apply Rle_lt_trans with (bpow radix2 k); [|apply bpow_lt; lia].
  apply abs_round_le_generic; auto with typeclass_instances. apply generic_format_bpow. unfold SpecFloat.fexp, emin. lia.
Qed.
Lemma real_add x y a b : is_real x a -> is_real y b -> Rabs (a + b) <= bpow radix2 100 -> is_real (SFadd 53 1024 x y) (rnd (a + b)).
Proof.
  intros (p & <- & Fp & <-) (q & <- & Fq & <-) B. rewrite add_equiv. exists (Bplus mode_NE p q). split; auto. pose proof (Bplus_correct 53 1024 Hprec Hmax mode_NE p q Fp Fq) as C.
  change (round_mode mode_NE) with ZnearestE in C. rewrite (big_bound _ 100) in C by (auto; lia). tauto.
Qed.
Lemma real_sub x y a b : is_real x a -> is_real y b -> Rabs (a - b) <= bpow radix2 100 -> is_real (SFsub 53 1024 x y) (rnd (a - b)).
Proof.
  intros (p & <- & Fp & <-) (q & <- & Fq & <-) B. rewrite sub_equiv. exists (Bminus mode_NE p q). split; auto. pose proof (Bminus_correct 53 1024 Hprec Hmax mode_NE p q Fp Fq) as C.
  change (round_mode mode_NE) with ZnearestE in C. rewrite (big_bound _ 100) in C by (auto; lia). tauto.
Qed.
Lemma real_mul x y a b : is_real x a -> is_real y b -> Rabs (a * b) <= bpow radix2 100 -> is_real (SFmul 53 1024 x y) (rnd (a * b)).
Proof.
  intros (p & <- & Fp & <-) (q & <- & Fq & <-) B. rewrite mul_equiv. exists (Bmult mode_NE p q). split; auto. pose proof (Bmult_correct 53 1024 Hprec Hmax mode_NE p q) as C.
  change (round_mode mode_NE) with ZnearestE in C. rewrite (big_bound _ 100) in C by (auto; lia). rewrite Fp, Fq in C. cbn in C. tauto.
Qed.
Lemma real_div x y a b : is_real x a -> is_real y b -> b <> 0 -> Rabs (a / b) <= bpow radix2 100 -> is_real (SFdiv 53 1024 x y) (rnd (a / b)).
Proof.
  intros (p & <- & Fp & <-) (q & <- & Fq & <-) Z B. rewrite div_equiv. exists (Bdiv mode_NE p q). split; auto. pose proof (Bdiv_correct 53 1024 Hprec Hmax mode_NE p q Z) as C.
  change (round_mode mode_NE) with ZnearestE in C. rewrite (big_bound _ 100) in C by (auto; lia). rewrite Fp in C. tauto.
Qed.
Lemma int_format z : (Z.abs z <= 2 ^ 53)%Z -> generic_format radix2 (SpecFloat.fexp 53 1024) (IZR z).
Proof.
  intros H. change (SpecFloat.fexp 53 1024) with (FLT_exp (-1074) 53). destruct (Z.eq_dec (Z.abs z) (2 ^ 53)) as [E|E].
  - assert (G : generic_format radix2 (FLT_exp (-1074) 53) (bpow radix2 53)) by (apply generic_format_bpow; unfold FLT_exp; lia).
    assert (D : (z = 2 ^ 53 \/ z = - 2 ^ 53)%Z) by lia. destruct D as [-> | ->]; [exact G|]. rewrite opp_IZR. apply generic_format_opp. exact G.
  - apply generic_format_FLT. exists (Float radix2 z 0); cbn; try lia. unfold F2R. cbn. ring.
Qed.
Lemma real_N n : (n < 2 ^ 53)%N -> is_real (f64_of_N n) (IZR (Z.of_N n)).
Proof.
  intros H. unfold f64_of_N. rewrite normalize_equiv. eexists. split; [reflexivity|]. pose proof (binary_normalize_correct 53 1024 Hprec Hmax mode_NE (Z.of_N n) 0 false) as C. cbv zeta in C.
  change (round_mode mode_NE) with ZnearestE in C. assert (E : F2R (Float radix2 (Z.of_N n) 0) = IZR (Z.of_N n)) by (unfold F2R; cbn; ring). rewrite E in C.
  assert (G : rnd (IZR (Z.of_N n)) = IZR (Z.of_N n)) by (apply round_generic; [auto with typeclass_instances|apply int_format; lia]). rewrite G in C.
  rewrite Rlt_bool_true in C; [tauto|]. rewrite <- abs_IZR. change (bpow radix2 1024) with (IZR (2 ^ 1024)). apply IZR_lt. apply Z.lt_trans with (2 ^ 53)%Z; [lia|]. apply Z.pow_lt_mono_r; lia.
Qed.
Lemma real_trunc x r : is_real x r -> 0 <= r -> f64_trunc x = Zfloor r.
Proof.
  intros (b & <- & F & <-) P. destruct b as [s|s| |s m e B]; try discriminate F; [cbn; symmetry; apply (Zfloor_IZR 0)|]. destruct s; cbn [B2SF f64_trunc B2R cond_Zopp] in *.
  - exfalso. assert (N : F2R (Float radix2 (Zneg m) e) < 0) by (apply F2R_lt_0; reflexivity). change (- Z.pos m)%Z with (Z.neg m) in P. lra.
  - destruct (Z.leb_spec 0 e) as [E|E].
    + unfold F2R. cbn [Fnum Fexp]. rewrite <- IZR_Zpower by lia. rewrite <- mult_IZR. symmetry. apply Zfloor_IZR.
    + unfold F2R. cbn [Fnum Fexp]. rewrite <- (Zfloor_div (Zpos m) (2 ^ (- e))) by (apply Z.pow_nonzero; lia). f_equal. unfold Rdiv. f_equal.
      rewrite <- (Z.opp_involutive e) at 2. rewrite bpow_opp. rewrite <- IZR_Zpower by lia. reflexivity.
Qed.
Lemma real_u32 x r n : is_real x r -> IZR (Z.of_N n) <= r < IZR (Z.of_N n) + 1 -> (n < 2 ^ 32)%N -> f64_to_u32 x = n.
Proof.
  intros X [L U] B. unfold f64_to_u32. assert (P : 0 <= IZR (Z.of_N n)) by (apply IZR_le; lia). rewrite (real_trunc x r) by (auto; lra).
  rewrite (Zfloor_imp (Z.of_N n)) by (rewrite plus_IZR; lra). rewrite N2Z.id. lia.
Qed.
Lemma real_compare x y a b : is_real x a -> is_real y b -> SFcompare x y = Some (Rcompare a b).
Proof. intros (p & <- & Fp & <-) (q & <- & Fq & <-). apply (Bcompare_correct 53 1024 p q Fp Fq). Qed.

(** The error of rounding. *)
Lemma rnd_err r k : Rabs r <= bpow radix2 k -> (-900 <= k)%Z -> Rabs (rnd r - r) <= / 2 * bpow radix2 (k - 52).
Proof.
  intros H K. eapply Rle_trans; [apply error_le_half_ulp; auto with typeclass_instances|]. apply Rmult_le_compat_l; [lra|].
  apply Rle_trans with (ulp radix2 (SpecFloat.fexp 53 1024) (bpow radix2 k)).
  - apply ulp_le; auto with typeclass_instances. rewrite (Rabs_pos_eq (bpow radix2 k)) by apply bpow_ge_0. exact H.
  - rewrite ulp_bpow. apply bpow_le. unfold SpecFloat.fexp, emin. lia.
Qed.
Lemma rnd_ge z r : (Z.abs z <= 2 ^ 53)%Z -> IZR z <= r -> IZR z <= rnd r.
Proof. intros Z H. apply round_ge_generic; auto with typeclass_instances. apply int_format. exact Z. Qed.

(** The time of [s] seconds and [us] microseconds. *)
Lemma time_real s us : (s < 2 ^ 32)%N -> (us < 1000000)%N -> exists t, is_real (bmp_time s us) t /\ IZR (Z.of_N s) <= t /\
  Rabs (t - (IZR (Z.of_N s) + IZR (Z.of_N us) / 1000000)) <= / 2 * (/ 4503599627370496 + / 1048576).
Proof.
  intros S U. set (zs := Z.of_N s). set (zu := Z.of_N us). assert (Ps : 0 <= IZR zs <= 4294967295) by (split; apply IZR_le; lia). assert (Pu : 0 <= IZR zu <= 999999) by (split; apply IZR_le; lia).
  assert (B0 : bpow radix2 0 = 1) by reflexivity. assert (B32 : bpow radix2 32 = 4294967296) by (cbn; lra). assert (B100 : bpow radix2 33 <= bpow radix2 100) by (apply bpow_le; lia). assert (B33 : bpow radix2 33 = 8589934592) by (cbn; lra).
  assert (D : 0 <= IZR zu / 1000000 <= 999999 / 1000000) by (unfold Rdiv; split; [apply Rmult_le_pos; lra|apply Rmult_le_compat_r; lra]).
  assert (Q : is_real (f64_div (f64_of_N us) (f64_of_N 1000000)) (rnd (IZR zu / 1000000))).
  { apply real_div; [apply real_N; lia|apply (real_N 1000000); lia|lra|]. rewrite Rabs_pos_eq by lra. lra. }
  assert (QE : Rabs (rnd (IZR zu / 1000000) - IZR zu / 1000000) <= / 2 * bpow radix2 (0 - 52)) by (apply rnd_err; [rewrite Rabs_pos_eq; lra|lia]).
  assert (Q0 : 0 <= rnd (IZR zu / 1000000)) by (apply (rnd_ge 0); [lia|lra]).
  set (q := rnd (IZR zu / 1000000)) in *. change (bpow radix2 (0 - 52)) with (/ 4503599627370496) in QE.
  assert (Q1 : q <= 1) by (apply Rabs_le_inv in QE; lra).
  exists (rnd (IZR zs + q)). split; [apply real_add; [apply real_N; lia|exact Q|rewrite Rabs_pos_eq; lra]|]. split; [apply rnd_ge; [lia|lra]|].
  assert (TE : Rabs (rnd (IZR zs + q) - (IZR zs + q)) <= / 2 * bpow radix2 (32 - 52)) by (apply rnd_err; [rewrite Rabs_pos_eq; lra|lia]).
  change (bpow radix2 (32 - 52)) with (/ 1048576) in TE. replace (rnd (IZR zs + q) - (IZR zs + IZR zu / 1000000)) with ((rnd (IZR zs + q) - (IZR zs + q)) + (q - IZR zu / 1000000)) by ring.
  eapply Rle_trans; [apply Rabs_triang|]. lra.
Qed.
(** Converting back gives the seconds and the microseconds or one less. *)
Lemma convert_time s us : (s < 2 ^ 32)%N -> (us < 1000000)%N ->
  convert_timestamp (bmp_time s us) = (s, us) \/ (0 < us)%N /\ convert_timestamp (bmp_time s us) = (s, us - 1)%N.
Proof.
  intros S U. destruct (time_real s us S U) as (t & T & G & E). set (zs := Z.of_N s) in *. set (zu := Z.of_N us) in *. assert (Ps : 0 <= IZR zs <= 4294967295) by (split; apply IZR_le; lia). assert (Pu : 0 <= IZR zu <= 999999) by (split; apply IZR_le; lia).
  apply Rabs_le_inv in E. assert (D : 0 <= IZR zu / 1000000 <= 999999 / 1000000) by (unfold Rdiv; split; [apply Rmult_le_pos; lra|apply Rmult_le_compat_r; lra]).
  assert (B100 : bpow radix2 33 <= bpow radix2 100) by (apply bpow_le; lia). assert (B33 : bpow radix2 33 = 8589934592) by (cbn; lra).
  assert (E1 : f64_to_u32 (bmp_time s us) = s) by (apply (real_u32 _ t); auto; fold zs; lra).
  unfold convert_timestamp. rewrite E1.
  assert (X : is_real (SFsub 53 1024 (bmp_time s us) (f64_of_N s)) (rnd (t - IZR zs))) by (apply real_sub; [exact T|apply real_N; lia|rewrite Rabs_pos_eq; lra]).
  assert (XE : Rabs (rnd (t - IZR zs) - (t - IZR zs)) <= / 2 * bpow radix2 (0 - 52)) by (apply rnd_err; [change (bpow radix2 0) with 1; rewrite Rabs_pos_eq; lra|lia]).
  assert (X0 : 0 <= rnd (t - IZR zs)) by (apply (rnd_ge 0); [lia|lra]). set (d := rnd (t - IZR zs)) in *. change (bpow radix2 (0 - 52)) with (/ 4503599627370496) in XE. apply Rabs_le_inv in XE.
  assert (Y : is_real (SFmul 53 1024 (SFsub 53 1024 (bmp_time s us) (f64_of_N s)) (f64_of_N 1000000)) (rnd (d * 1000000))) by (apply real_mul; [exact X|apply (real_N 1000000); lia|rewrite Rabs_pos_eq; lra]).
  assert (YE : Rabs (rnd (d * 1000000) - (d * 1000000)) <= / 2 * bpow radix2 (20 - 52)) by (apply rnd_err; [change (bpow radix2 20) with 1048576; rewrite Rabs_pos_eq; lra|lia]).
  assert (Y0 : 0 <= rnd (d * 1000000)) by (apply (rnd_ge 0); [lia|lra]). set (p := rnd (d * 1000000)) in *. change (bpow radix2 (20 - 52)) with (/ 4294967296) in YE. apply Rabs_le_inv in YE.
  assert (P : IZR zu - 1 <= p < IZR zu + 1) by lra.
  destruct (Rle_or_lt (IZR zu) p) as [C|C].
  - left. f_equal. apply (real_u32 _ p); [exact Y|fold zu; lra|lia].
  - right. assert (0 < zu)%Z by (apply lt_IZR; lra). split; [lia|]. f_equal. apply (real_u32 _ p); [exact Y| |lia]. replace (Z.of_N (us - 1)) with (zu - 1)%Z by lia. rewrite minus_IZR. lra.
Qed.
(** Whole seconds convert back exactly. *)
(** Different times are different floats, in the same order. *)
Lemma time_order s us s' us' : (s < 2 ^ 32)%N -> (us < 1000000)%N -> (s' < 2 ^ 32)%N -> (us' < 1000000)%N ->
  SFcompare (bmp_time s us) (bmp_time s' us') = Some (s * 1000000 + us ?= s' * 1000000 + us')%N.
Proof.
  intros S U S' U'. destruct (time_real s us S U) as (t & T & G & E). destruct (time_real s' us' S' U') as (t' & T' & G' & E').
  rewrite (real_compare _ _ t t') by auto. f_equal. apply Rabs_le_inv in E, E'.
  assert (K : forall a b, (a * 1000000 + b)%Z = (a * 1000000 + b)%Z) by reflexivity.
  destruct (N.compare_spec (s * 1000000 + us) (s' * 1000000 + us')) as [C|C|C].
  - assert (s = s' /\ us = us') as [-> ->] by (split; lia). assert (t = t') as -> by (destruct T as (b & B1 & _ & <-); destruct T' as (b' & B1' & _ & <-); rewrite <- B1' in B1; apply B2SF_inj in B1; congruence).
    apply Rcompare_Eq. reflexivity.
  - apply Rcompare_Lt. assert (L : (Z.of_N s * 1000000 + Z.of_N us + 1 <= Z.of_N s' * 1000000 + Z.of_N us')%Z) by lia. apply IZR_le in L. rewrite !plus_IZR, !mult_IZR in L. lra.
  - apply Rcompare_Gt. assert (L : (Z.of_N s' * 1000000 + Z.of_N us' + 1 <= Z.of_N s * 1000000 + Z.of_N us)%Z) by lia. apply IZR_le in L. rewrite !plus_IZR, !mult_IZR in L. lra.
Qed.
Lemma convert_seconds s : (s < 2 ^ 32)%N -> convert_timestamp (f64_of_N s) = (s, 0%N).
Proof.
  intros S. assert (Ps : 0 <= IZR (Z.of_N s) <= 4294967295) by (split; apply IZR_le; lia). assert (T : is_real (f64_of_N s) (IZR (Z.of_N s))) by (apply real_N; lia).
  assert (B : 0 <= bpow radix2 100) by apply bpow_ge_0.
  assert (E1 : f64_to_u32 (f64_of_N s) = s) by (apply (real_u32 _ (IZR (Z.of_N s))); auto; lra). unfold convert_timestamp. rewrite E1. f_equal.
  assert (X : is_real (SFsub 53 1024 (f64_of_N s) (f64_of_N s)) (rnd (IZR (Z.of_N s) - IZR (Z.of_N s)))) by (apply real_sub; auto; rewrite Rminus_diag_eq, Rabs_R0 by reflexivity; lra).
  rewrite Rminus_diag_eq, round_0 in X by (reflexivity || auto with typeclass_instances).
  assert (Y : is_real (SFmul 53 1024 (SFsub 53 1024 (f64_of_N s) (f64_of_N s)) (f64_of_N 1000000)) (rnd (0 * 1000000))) by (apply real_mul; [exact X|apply (real_N 1000000); lia|rewrite Rmult_0_l, Rabs_R0; lra]).
  rewrite Rmult_0_l, round_0 in Y by auto with typeclass_instances. apply (real_u32 _ 0); [exact Y|cbn; lra|lia].
Qed.
Lemma real_unique x a b : is_real x a -> is_real x b -> a = b.
Proof. intros (p & B1 & _ & <-) (q & B2 & _ & <-). rewrite <- B2 in B1. apply B2SF_inj in B1. congruence. Qed.
(** A time whose real number is within half a microsecond of a number of microseconds. *)
Definition near (x : f64) (n : N) : Prop := exists t, is_real x t /\ Rabs (t - IZR (Z.of_N n) / 1000000) <= / 2 * (/ 4503599627370496 + / 1048576).
Lemma near_time s us : (s < 2 ^ 32)%N -> (us < 1000000)%N -> near (bmp_time s us) (s * 1000000 + us).
Proof.
  intros S U. destruct (time_real s us S U) as (t & T & _ & E). exists t. split; auto. rewrite N2Z.inj_add, N2Z.inj_mul, plus_IZR, mult_IZR. cbn [Z.of_N].
  replace ((IZR (Z.of_N s) * 1000000 + IZR (Z.of_N us)) / 1000000) with (IZR (Z.of_N s) + IZR (Z.of_N us) / 1000000) by field. exact E.
Qed.
Lemma near_seconds s : (s < 2 ^ 32)%N -> near (f64_of_N s) (s * 1000000).
Proof.
  intros S. exists (IZR (Z.of_N s)). split; [apply real_N; lia|]. rewrite N2Z.inj_mul, mult_IZR. cbn [Z.of_N].
  replace (IZR (Z.of_N s) - IZR (Z.of_N s) * 1000000 / 1000000) with 0 by field. rewrite Rabs_R0. lra.
Qed.
Lemma near_lt x y n m : near x n -> near y m -> (n < m)%N -> SFcompare x y = Some Lt.
Proof.
  intros (t & T & E) (t' & T' & E') L. rewrite (real_compare _ _ t t') by auto. f_equal. apply Rcompare_Lt. apply Rabs_le_inv in E, E'.
  assert (K : (Z.of_N n + 1 <= Z.of_N m)%Z) by lia. apply IZR_le in K. rewrite plus_IZR in K. lra.
Qed.
Lemma near_gt x y n m : near x n -> near y m -> (m < n)%N -> SFcompare x y = Some Gt.
Proof.
  intros (t & T & E) (t' & T' & E') L. rewrite (real_compare _ _ t t') by auto. f_equal. apply Rcompare_Gt. apply Rabs_le_inv in E, E'.
  assert (K : (Z.of_N m + 1 <= Z.of_N n)%Z) by lia. apply IZR_le in K. rewrite plus_IZR in K. lra.
Qed.
Lemma whole_time s : (s < 2 ^ 32)%N -> SFcompare (bmp_time s 0) (f64_of_N s) = Some Eq.
Proof.
  intros S. assert (B : bpow radix2 33 <= bpow radix2 100) by (apply bpow_le; lia). assert (B33 : bpow radix2 33 = 8589934592) by (cbn; lra).
  assert (Ps : 0 <= IZR (Z.of_N s) <= 4294967295) by (split; apply IZR_le; lia).
  assert (T : is_real (f64_of_N s) (IZR (Z.of_N s))) by (apply real_N; lia).
  assert (Q : is_real (f64_div (f64_of_N 0) (f64_of_N 1000000)) (rnd (0 / 1000000))).
  { apply real_div; [apply (real_N 0); lia|apply (real_N 1000000); lia|lra|]. unfold Rdiv. rewrite Rmult_0_l, Rabs_R0. lra. }
  replace (0 / 1000000) with 0 in Q by lra. rewrite round_0 in Q by auto with typeclass_instances.
  assert (A : is_real (bmp_time s 0) (rnd (IZR (Z.of_N s) + 0))) by (apply real_add; auto; rewrite Rplus_0_r, Rabs_pos_eq; lra).
  rewrite Rplus_0_r, round_generic in A by (auto with typeclass_instances; apply int_format; lia).
  rewrite (real_compare _ _ _ _ A T). f_equal. apply Rcompare_Eq. reflexivity.
Qed.
