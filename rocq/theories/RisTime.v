(** Times of RIS Live messages as real numbers. *)
From Coq Require Import ZArith NArith Reals Lia Lra Floats.SpecFloat.
From Flocq Require Import Core.Zaux Core.Raux Core.Defs Core.Generic_fmt Core.Ulp Core.Round_NE Core.FLT Core.Float_prop IEEE754.BinarySingleNaN Calc.Round.
From Verif Require Import Base Elem Bmp F64Real RisLive RisLiveSpec.
Local Open Scope R_scope.

Lemma real_same x y r : is_real x r -> is_real y r -> r <> 0 -> x = y.
Proof.
  intros (p & <- & Fp & Rp) (q & <- & Fq & Rq) Z. f_equal. apply B2R_inj; [| |congruence].
  - destruct p; try discriminate; cbn in *; solve [auto|congruence].
  - destruct q; try discriminate; cbn in *; solve [auto|congruence].
Qed.
Lemma real_abs x r : is_real x r -> is_real (SFabs x) (Rabs r).
Proof. intros (p & <- & Fp & <-). exists (Babs p). split; [destruct p; reflexivity|]. split; [rewrite is_finite_Babs; exact Fp|apply B2R_Babs]. Qed.
Lemma real_round x r : is_real x r -> 0 <= r -> f64_round x = Zfloor (r + / 2).
Proof.
  intros (b & <- & F & <-) P. destruct b as [s|s| |s m e B]; try discriminate F; [cbn [B2SF f64_round B2R]; symmetry; apply Zfloor_imp; cbn; lra|]. destruct s; cbn [B2SF f64_round B2R cond_Zopp] in *.
  - exfalso. assert (N : F2R (Float radix2 (Zneg m) e) < 0) by (apply F2R_lt_0; reflexivity). change (- Z.pos m)%Z with (Z.neg m) in P. lra.
  - destruct (Z.leb_spec 0 e) as [E|E].
    + unfold F2R. cbn [Fnum Fexp]. rewrite <- IZR_Zpower by lia. rewrite <- mult_IZR. symmetry. apply Zfloor_imp. change (Zpower radix2 e) with (2 ^ e)%Z. rewrite plus_IZR. lra.
    + unfold F2R. cbn [Fnum Fexp]. rewrite <- (Zfloor_div (2 * Zpos m + 2 ^ (- e)) (2 ^ (1 - e))) by (apply Z.pow_nonzero; lia). f_equal.
      assert (Q : (0 < 2 ^ (- e))%Z) by (apply Z.pow_pos_nonneg; lia). replace (2 ^ (1 - e))%Z with (2 * 2 ^ (- e))%Z by (rewrite <- Z.pow_succ_r by lia; f_equal; lia).
      assert (BE : bpow radix2 e = / IZR (2 ^ (- e))) by (change (2 ^ (- e))%Z with (Zpower radix2 (- e)); rewrite IZR_Zpower by lia; rewrite <- bpow_opp; f_equal; lia). rewrite BE. apply IZR_lt in Q.
      rewrite plus_IZR, !mult_IZR. field. lra.
Qed.
Lemma real_fract x r n : is_real x r -> (n < 2 ^ 53)%N -> IZR (Z.of_N n) <= r < IZR (Z.of_N n) + 1 ->
  exists d, is_real (f64_fract x) d /\ 0 <= d /\ Rabs (d - (r - IZR (Z.of_N n))) <= / 2 * / 4503599627370496.
Proof.
  intros X B L. assert (P : 0 <= IZR (Z.of_N n)) by (apply IZR_le; lia). pose proof X as (b & <- & F & R).
  assert (Z0 : is_real (S754_zero false) 0) by (exists (B754_zero false); auto).
  assert (NR : r = IZR (Z.of_N n) -> exists d, is_real (S754_zero false) d /\ 0 <= d /\ Rabs (d - (r - IZR (Z.of_N n))) <= / 2 * / 4503599627370496).
  { intros ->. exists 0. split; [exact Z0|]. split; [lra|]. replace (0 - (IZR (Z.of_N n) - IZR (Z.of_N n))) with 0 by ring. rewrite Rabs_R0. lra. }
  destruct b as [s|s| |s m e V]; try discriminate F; cbn [B2SF f64_fract].
  - apply NR. cbn in R. subst r. destruct L as [L _]. lra.
  - destruct s; cbn [B2R cond_Zopp] in R.
    { exfalso. assert (K : F2R (Float radix2 (Zneg m) e) < 0) by (apply F2R_lt_0; reflexivity). change (- Z.pos m)%Z with (Z.neg m) in R. lra. }
    assert (T : f64_trunc (S754_finite false m e) = Zfloor r) by (apply (real_trunc _ r X); lra). rewrite (Zfloor_imp (Z.of_N n)) in T by (rewrite plus_IZR; lra). cbn [f64_trunc] in T.
    destruct (Z.leb_spec 0 e) as [E|E].
    + apply NR. rewrite <- T, <- R. unfold F2R. cbn [Fnum Fexp]. rewrite <- IZR_Zpower by lia. rewrite <- mult_IZR. reflexivity.
    + cbn [SpecFloat.cond_Zopp]. rewrite T. fold (f64_of_N n). assert (B100 : 1 <= bpow radix2 100) by (apply (bpow_le radix2 0 100); lia).
      exists (rnd (r - IZR (Z.of_N n))). split; [apply real_sub; [exact X|apply real_N; lia|rewrite Rabs_pos_eq; lra]|]. split; [apply (rnd_ge 0); [lia|lra]|].
      change (/ 4503599627370496) with (bpow radix2 (0 - 52)). apply rnd_err; [change (bpow radix2 0) with 1; rewrite Rabs_pos_eq; lra|lia].
Qed.

Lemma micros_real s us : (s < 2 ^ 32)%N -> (us < 1000000)%N ->
  is_real (micros (s * 1000000 + us)) (rnd (IZR (Z.of_N s) + IZR (Z.of_N us) / 1000000)).
Proof.
  intros S U. unfold micros. assert (X : IZR (Z.of_N (s * 1000000 + us)) / 1000000 = IZR (Z.of_N s) + IZR (Z.of_N us) / 1000000) by (rewrite N2Z.inj_add, N2Z.inj_mul, plus_IZR, mult_IZR; cbn [Z.of_N]; field).
  rewrite <- X. apply real_div; [apply real_N; lia|apply (real_N 1000000); lia|lra|]. rewrite X.
  assert (Ps : 0 <= IZR (Z.of_N s) <= 4294967295) by (split; apply IZR_le; lia). assert (Pu : 0 <= IZR (Z.of_N us) <= 999999) by (split; apply IZR_le; lia).
  assert (D : 0 <= IZR (Z.of_N us) / 1000000 <= 999999 / 1000000) by (unfold Rdiv; split; [apply Rmult_le_pos; lra|apply Rmult_le_compat_r; lra]).
  assert (B100 : bpow radix2 33 <= bpow radix2 100) by (apply bpow_le; lia). assert (B33 : bpow radix2 33 = 8589934592) by (cbn; lra). rewrite Rabs_pos_eq by lra. lra.
Qed.
Lemma header_parts s us : (s < 2 ^ 32)%N -> (us < 1000000)%N -> f64_to_u32 (micros (s * 1000000 + us)) = s /\ get_micro_seconds (micros (s * 1000000 + us)) = us.
Proof.
  intros S U. pose proof (micros_real s us S U) as X. set (zs := Z.of_N s) in *. set (zu := Z.of_N us) in *.
  assert (Ps : 0 <= IZR zs <= 4294967295) by (split; apply IZR_le; lia). assert (Pu : 0 <= IZR zu <= 999999) by (split; apply IZR_le; lia).
  assert (D : 0 <= IZR zu / 1000000 <= 999999 / 1000000) by (unfold Rdiv; split; [apply Rmult_le_pos; lra|apply Rmult_le_compat_r; lra]).
  assert (B32 : bpow radix2 32 = 4294967296) by (cbn; lra).
  assert (E : Rabs (rnd (IZR zs + IZR zu / 1000000) - (IZR zs + IZR zu / 1000000)) <= / 2 * bpow radix2 (32 - 52)) by (apply rnd_err; [rewrite Rabs_pos_eq; lra|lia]).
  assert (G : IZR zs <= rnd (IZR zs + IZR zu / 1000000)) by (apply rnd_ge; [lia|lra]).
  set (t := rnd (IZR zs + IZR zu / 1000000)) in *. change (bpow radix2 (32 - 52)) with (/ 1048576) in E. apply Rabs_le_inv in E.
  assert (L : IZR zs <= t < IZR zs + 1) by lra. split; [apply (real_u32 _ t); auto|].
  unfold get_micro_seconds. destruct (real_fract _ t s X) as (d & Y & D0 & DE); [lia|exact L|]. fold zs in DE. apply Rabs_le_inv in DE.
  assert (B100 : bpow radix2 33 <= bpow radix2 100) by (apply bpow_le; lia). assert (B33 : bpow radix2 33 = 8589934592) by (cbn; lra).
  assert (M : is_real (SFmul 53 1024 (SFabs (f64_fract (micros (s * 1000000 + us)))) (f64_of_N 1000000)) (rnd (d * 1000000))).
  { rewrite <- (Rabs_pos_eq d D0). apply real_mul; [apply real_abs, Y|apply (real_N 1000000); lia|]. rewrite (Rabs_pos_eq d D0), Rabs_pos_eq by lra. lra. }
  assert (ME : Rabs (rnd (d * 1000000) - (d * 1000000)) <= / 2 * bpow radix2 (20 - 52)) by (apply rnd_err; [change (bpow radix2 20) with 1048576; rewrite Rabs_pos_eq; lra|lia]).
  assert (M0 : 0 <= rnd (d * 1000000)) by (apply (rnd_ge 0); [lia|lra]). set (p := rnd (d * 1000000)) in *. change (bpow radix2 (20 - 52)) with (/ 4294967296) in ME. apply Rabs_le_inv in ME.
  rewrite (real_round _ p M M0). rewrite (Zfloor_imp zu) by (rewrite plus_IZR; lra). unfold zu. rewrite N2Z.id. lia.
Qed.
(** Numbers of the same magnitude whose rounding cannot differ. *)
Lemma rnd_between k v w : (-1000 <= k < 900)%Z -> bpow radix2 k <= v < bpow radix2 (k + 1) -> bpow radix2 k <= w < bpow radix2 (k + 1) ->
  ZnearestE (v * bpow radix2 (52 - k)) = ZnearestE (w * bpow radix2 (52 - k)) -> rnd v = rnd w.
Proof.
  intros K V W E. assert (M : forall x, bpow radix2 k <= x < bpow radix2 (k + 1) -> cexp radix2 (SpecFloat.fexp 53 1024) x = (k - 52)%Z).
  { intros x X. unfold cexp. rewrite (mag_unique radix2 x (k + 1)).
    - unfold SpecFloat.fexp, emin. lia.
    - replace (k + 1 - 1)%Z with k by lia. assert (0 < bpow radix2 k) by apply bpow_gt_0. rewrite Rabs_pos_eq by lra. exact X. }
  unfold round, scaled_mantissa. rewrite (M v V), (M w W). replace (- (k - 52))%Z with (52 - k)%Z by lia. rewrite E. reflexivity.
Qed.
Lemma time_once s us : (2 ^ 20 <= s < 2 ^ 32)%N -> (us < 1000000)%N -> bmp_time s us = micros (s * 1000000 + us).
Proof.
  intros [S0 S] U. pose proof (micros_real s us S U) as X. set (zs := Z.of_N s) in *. set (zu := Z.of_N us) in *.
  assert (Ps : 1048576 <= IZR zs <= 4294967295) by (split; apply IZR_le; lia). assert (Pu : 0 <= IZR zu <= 999999) by (split; apply IZR_le; lia).
  assert (D : 0 <= IZR zu / 1000000 <= 999999 / 1000000) by (unfold Rdiv; split; [apply Rmult_le_pos; lra|apply Rmult_le_compat_r; lra]).
  assert (B0 : bpow radix2 0 = 1) by reflexivity. assert (B100 : bpow radix2 33 <= bpow radix2 100) by (apply bpow_le; lia). assert (B33 : bpow radix2 33 = 8589934592) by (cbn; lra).
  assert (Q : is_real (f64_div (f64_of_N us) (f64_of_N 1000000)) (rnd (IZR zu / 1000000))).
  { apply real_div; [apply real_N; lia|apply (real_N 1000000); lia|lra|]. rewrite Rabs_pos_eq by lra. lra. }
  assert (QE : Rabs (rnd (IZR zu / 1000000) - IZR zu / 1000000) <= / 2 * bpow radix2 (0 - 52)) by (apply rnd_err; [rewrite Rabs_pos_eq; lra|lia]).
  assert (Q0 : 0 <= rnd (IZR zu / 1000000)) by (apply (rnd_ge 0); [lia|lra]).
  set (q := rnd (IZR zu / 1000000)) in *. change (bpow radix2 (0 - 52)) with (/ 4503599627370496) in QE. apply Rabs_le_inv in QE.
  assert (A : is_real (bmp_time s us) (rnd (IZR zs + q))) by (apply real_add; [apply real_N; lia|exact Q|rewrite Rabs_pos_eq; lra]).
  assert (R : rnd (IZR zs + q) = rnd (IZR zs + IZR zu / 1000000)).
  { set (k := Z.log2 zs). assert (K : (20 <= k < 32)%Z).
    { split; [apply Z.log2_le_pow2; lia|apply Z.log2_lt_pow2; lia]. }
    pose proof (Z.log2_spec zs ltac:(lia)) as [K1 K2]. fold k in K1, K2. assert (K2' : (zs + 1 <= 2 ^ (k + 1))%Z) by (rewrite Z.add_1_r with (n := k); lia). apply IZR_le in K1, K2'. rewrite plus_IZR in K2'.
    change (2 ^ k)%Z with (Zpower radix2 k) in K1. change (2 ^ (k + 1))%Z with (Zpower radix2 (k + 1)) in K2'. rewrite IZR_Zpower in K1, K2' by lia.
    apply (rnd_between k); [lia|lra|lra|]. set (h := (2 ^ (52 - k))%Z). assert (H : bpow radix2 (52 - k) = IZR h) by (unfold h; rewrite <- IZR_Zpower by lia; reflexivity). rewrite H.
    assert (HB : (1048576 <= h <= 4294967296)%Z). { unfold h. split; [apply (Z.pow_le_mono_r 2 20); lia|apply (Z.pow_le_mono_r 2 _ 32); lia]. }
    assert (HD : exists g, h = (128 * g)%Z). { exists (2 ^ (45 - k))%Z. unfold h. change 128%Z with (2 ^ 7)%Z. rewrite <- Z.pow_add_r by lia. f_equal. lia. }
    set (a := (IZR zs + IZR zu / 1000000) * IZR h). set (z := ZnearestE a).
    assert (N : Rabs (IZR z - a) <= / 2) by (rewrite Rabs_minus_sym; apply Znearest_half).
    assert (AE : a = IZR ((zs * 1000000 + zu) * h) / 1000000) by (unfold a; rewrite !mult_IZR, plus_IZR, mult_IZR; field).
    assert (ZB : (- 500000 <= z * 1000000 - (zs * 1000000 + zu) * h <= 500000)%Z).
    { apply Rabs_le_inv in N. rewrite AE in N. split; apply le_IZR; rewrite minus_IZR, mult_IZR with (m := h), mult_IZR with (n := z); rewrite mult_IZR with (m := h) in N; lra. }
    destruct HD as (g & HG). assert (ZS : (- 499968 <= z * 1000000 - (zs * 1000000 + zu) * h <= 499968)%Z).
    { rewrite HG in *. replace (z * 1000000 - (zs * 1000000 + zu) * (128 * g))%Z with (64 * (z * 15625 - 2 * ((zs * 1000000 + zu) * g)))%Z in * by ring. set (y := ((zs * 1000000 + zu) * g)%Z) in *. clearbody y. lia. }
    assert (ZA : Rabs (a - IZR z) <= 499968 / 1000000).
    { destruct ZS as [ZS1 ZS2]. apply IZR_le in ZS1, ZS2. rewrite minus_IZR, mult_IZR with (n := z) in ZS1, ZS2. apply Rabs_le. rewrite AE. lra. }
    assert (HR : 1048576 <= IZR h <= 4294967296) by (split; apply IZR_le; lia).
    assert (DQ : Rabs ((q - IZR zu / 1000000) * IZR h) <= / 2 * / 4503599627370496 * 4294967296).
    { rewrite Rabs_mult. rewrite (Rabs_pos_eq (IZR h)) by lra. apply Rmult_le_compat; try lra; [apply Rabs_pos|apply Rabs_le; lra]. }
    transitivity z; [|reflexivity]. apply Znearest_imp. replace ((IZR zs + q) * IZR h - IZR z) with ((a - IZR z) + (q - IZR zu / 1000000) * IZR h) by (unfold a; ring).
    eapply Rle_lt_trans; [apply Rabs_triang|]. lra. }
  rewrite R in A. apply (real_same _ _ _ A X). assert (G : IZR zs <= rnd (IZR zs + IZR zu / 1000000)) by (apply rnd_ge; [lia|lra]). lra.
Qed.
(** Whatever the time: the second is kept, and the rest to two microseconds. *)
Lemma header_near x r : is_real x r -> 0 <= r < 4294967296 -> exists s us t, f64_to_u32 x = s /\ get_micro_seconds x = us /\ (s < 2 ^ 32)%N /\ (us < 1000000)%N /\
  is_real (bmp_time s us) t /\ Zfloor t = Zfloor r /\ Rabs (t - r) <= 2 / 1000000.
Proof.
  intros X R. pose proof (Zfloor_lb r) as F1. pose proof (Zfloor_ub r) as F2. assert (F0 : (0 <= Zfloor r)%Z) by (apply Zfloor_lub; lra).
  assert (F3 : (Zfloor r < 4294967296)%Z) by (apply lt_IZR; lra). set (s := Z.to_N (Zfloor r)). assert (SZ : Z.of_N s = Zfloor r) by (unfold s; lia). assert (S : (s < 2 ^ 32)%N) by lia.
  assert (L : IZR (Z.of_N s) <= r < IZR (Z.of_N s) + 1) by (rewrite SZ; lra). set (zs := Z.of_N s) in *.
  exists s, (get_micro_seconds x). assert (G : exists us, get_micro_seconds x = us /\ (us < 1000000)%N /\ Rabs (IZR (Z.of_N us) - (r - IZR zs) * 1000000) <= 1 + / 1000000).
  { unfold get_micro_seconds. destruct (real_fract _ r s X) as (d & Y & D0 & DE); [lia|exact L|]. fold zs in DE. apply Rabs_le_inv in DE.
    assert (B100 : bpow radix2 33 <= bpow radix2 100) by (apply bpow_le; lia). assert (B33 : bpow radix2 33 = 8589934592) by (cbn; lra).
    assert (M : is_real (SFmul 53 1024 (SFabs (f64_fract x)) (f64_of_N 1000000)) (rnd (d * 1000000))).
    { rewrite <- (Rabs_pos_eq d D0). apply real_mul; [apply real_abs, Y|apply (real_N 1000000); lia|]. rewrite (Rabs_pos_eq d D0), Rabs_pos_eq by lra. lra. }
    assert (ME : Rabs (rnd (d * 1000000) - (d * 1000000)) <= / 2 * bpow radix2 (20 - 52)) by (apply rnd_err; [change (bpow radix2 20) with 1048576; rewrite Rabs_pos_eq; lra|lia]).
    assert (M0 : 0 <= rnd (d * 1000000)) by (apply (rnd_ge 0); [lia|lra]). set (p := rnd (d * 1000000)) in *. change (bpow radix2 (20 - 52)) with (/ 4294967296) in ME. apply Rabs_le_inv in ME.
    rewrite (real_round _ p M M0). pose proof (Zfloor_lb (p + / 2)) as P1. pose proof (Zfloor_ub (p + / 2)) as P2. set (z := Zfloor (p + / 2)) in *.
    assert (Z0 : (0 <= z)%Z) by (apply Zfloor_lub; lra). assert (Z1 : (z <= 1000000)%Z) by (apply Z.lt_succ_r, lt_IZR; rewrite succ_IZR; lra).
    eexists. split; [reflexivity|]. split; [lia|]. destruct (Z.eq_dec z 1000000) as [E|E].
    - rewrite E. change (Z.of_N (N.min (N.min (Z.to_N 1000000) (2 ^ 32 - 1)) 999999)) with 999999%Z. rewrite E in *. apply Rabs_le. lra.
    - replace (Z.of_N (N.min (N.min (Z.to_N z) (2 ^ 32 - 1)) 999999)) with z by lia. apply Rabs_le. lra. }
  destruct G as (us & -> & U & UE). apply Rabs_le_inv in UE. destruct (time_real s us S U) as (t & T & T0 & TE). exists t. fold zs in T0, TE.
  assert (Pu : 0 <= IZR (Z.of_N us) <= 999999) by (split; apply IZR_le; lia).
  split; [apply (real_u32 _ r); auto|]. split; [reflexivity|]. split; [exact S|]. split; [exact U|]. split; [exact T|]. apply Rabs_le_inv in TE.
  split; [apply Zfloor_imp; rewrite plus_IZR, <- SZ; lra|apply Rabs_le; lra].
Qed.
