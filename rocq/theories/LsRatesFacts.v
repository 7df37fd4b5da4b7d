(** Proofs about [LsRates]. *)
From Coq Require Import ZArith NArith Reals Lia Lra ZifyBool ZifyNat ZifyN Floats.SpecFloat.
From Flocq Require Import Core.Zaux Core.Raux Core.Defs Core.Generic_fmt Core.Ulp Core.Round_NE Core.FLT Core.Float_prop IEEE754.BinarySingleNaN Calc.Round Relative.
From Verif Require Import Base BaseFacts Reader ReaderFacts NetFacts Utf8 TableDumpSpec TableDumpFacts Tlv TlvSpec TlvFacts LinkState LinkStateSpec LinkStateFacts LsRates LsRatesSpec.
Local Open Scope R_scope.

(** * Binary32 by way of Flocq *)
Local Instance Hprec : FLX.Prec_gt_0 24 := eq_refl.
Local Instance Hmax : Prec_lt_emax 24 128 := eq_refl.
Local Instance Hexp : Valid_exp (SpecFloat.fexp 24 128) := fexp_correct 24 128 Hprec.
Local Instance Hmono : Monotone_exp (SpecFloat.fexp 24 128) := fexp_monotone 24 128.
Notation bf := (binary_float 24 128).
Notation rnd := (round radix2 (SpecFloat.fexp 24 128) ZnearestE).
Definition is_real (x : f32) (r : R) : Prop := exists b : bf, B2SF b = x /\ is_finite b = true /\ B2R b = r.

Lemma round_aux_equiv sx mx ex lx : SpecFloat.binary_round_aux 24 128 sx mx ex lx = BinarySingleNaN.binary_round_aux 24 128 mode_NE sx mx ex lx.
Proof.
  unfold SpecFloat.binary_round_aux, BinarySingleNaN.binary_round_aux. set (m := shr_fexp _ _ _ _ _). destruct m as [a b]. cbn [fst snd].
  assert (E : forall m l, round_nearest_even m l = choice_mode mode_NE sx m l).
  { intros m l. destruct l as [|[| |]]; cbn; unfold cond_incr; try reflexivity. destruct (Z.even m); reflexivity. }
  rewrite E. reflexivity.
Qed.
Lemma normalize_equiv m e z : SpecFloat.binary_normalize 24 128 m e z = B2SF (BinarySingleNaN.binary_normalize 24 128 Hprec Hmax mode_NE m e z).
Proof.
  destruct m as [|p|p]; [reflexivity| |]; cbn -[SpecFloat.binary_round]; rewrite B2SF_SF2B; unfold SpecFloat.binary_round, BinarySingleNaN.binary_round, shl_align_fexp; destruct (shl_align _ _ _); apply round_aux_equiv.
Qed.
Lemma mul_equiv (x y : bf) : SFmul 24 128 (B2SF x) (B2SF y) = B2SF (Bmult mode_NE x y).
Proof. destruct x as [sx|sx| |sx mx ex Bx], y as [sy|sy| |sy my ey By]; try reflexivity. cbn -[SpecFloat.binary_round_aux]. rewrite B2SF_SF2B. apply round_aux_equiv. Qed.
Lemma div_equiv (x y : bf) : SFdiv 24 128 (B2SF x) (B2SF y) = B2SF (Bdiv mode_NE x y).
Proof.
  destruct x as [sx|sx| |sx mx ex Bx], y as [sy|sy| |sy my ey By]; try (cbn; try destruct (Bool.eqb _ _); reflexivity).
  cbn -[SpecFloat.binary_round_aux SFdiv_core_binary]. rewrite B2SF_SF2B. set (m := SFdiv_core_binary _ _ _ _ _ _). destruct m as [[a b] c]. apply round_aux_equiv.
Qed.
Lemma big_bound r k : Rabs r <= bpow radix2 k -> (k < 128)%Z -> (-149 <= k)%Z -> Rlt_bool (Rabs (rnd r)) (bpow radix2 128) = true.
Proof.
  intros H K K'. apply Rlt_bool_true. apply Rle_lt_trans with (bpow radix2 k); [|apply bpow_lt; lia].
  apply abs_round_le_generic; auto with typeclass_instances. apply generic_format_bpow. unfold SpecFloat.fexp, emin. lia.
Qed.
Lemma real_mul x y a b : is_real x a -> is_real y b -> Rabs (a * b) <= bpow radix2 100 -> is_real (SFmul 24 128 x y) (rnd (a * b)).
Proof.
  intros (p & <- & Fp & <-) (q & <- & Fq & <-) B. rewrite mul_equiv. exists (Bmult mode_NE p q). split; auto. pose proof (Bmult_correct 24 128 Hprec Hmax mode_NE p q) as C.
  change (round_mode mode_NE) with ZnearestE in C. rewrite (big_bound _ 100) in C by (auto; lia). rewrite Fp, Fq in C. cbn in C. tauto.
Qed.
Lemma real_div x y a b : is_real x a -> is_real y b -> b <> 0 -> Rabs (a / b) <= bpow radix2 100 -> is_real (SFdiv 24 128 x y) (rnd (a / b)).
Proof.
  intros (p & <- & Fp & <-) (q & <- & Fq & <-) Z B. rewrite div_equiv. exists (Bdiv mode_NE p q). split; auto. pose proof (Bdiv_correct 24 128 Hprec Hmax mode_NE p q Z) as C.
  change (round_mode mode_NE) with ZnearestE in C. rewrite (big_bound _ 100) in C by (auto; lia). rewrite Fp in C. tauto.
Qed.
Lemma int_format z : (Z.abs z < 2 ^ 24)%Z -> generic_format radix2 (SpecFloat.fexp 24 128) (IZR z).
Proof.
  intros H. change (SpecFloat.fexp 24 128) with (FLT_exp (-149) 24). apply generic_format_FLT. exists (Float radix2 z 0); cbn; try lia. unfold F2R. cbn. ring.
Qed.
Lemma real_N n : (n < 2 ^ 24)%N -> is_real (f32_of_N n) (IZR (Z.of_N n)).
Proof.
  intros H. unfold f32_of_N. rewrite normalize_equiv. eexists. split; [reflexivity|]. pose proof (binary_normalize_correct 24 128 Hprec Hmax mode_NE (Z.of_N n) 0 false) as C. cbv zeta in C.
  change (round_mode mode_NE) with ZnearestE in C. assert (E : F2R (Float radix2 (Z.of_N n) 0) = IZR (Z.of_N n)) by (unfold F2R; cbn; ring). rewrite E in C.
  assert (G : rnd (IZR (Z.of_N n)) = IZR (Z.of_N n)) by (apply round_generic; [auto with typeclass_instances|apply int_format; lia]). rewrite G in C.
  rewrite Rlt_bool_true in C; [tauto|]. rewrite <- abs_IZR. change (bpow radix2 128) with (IZR (2 ^ 128)). apply IZR_lt. lia.
Qed.
Lemma real_number x r : is_real x r -> number x r.
Proof.
  intros (b & <- & F & <-). destruct b as [s|s| |s m e B]; try discriminate F; cbn [B2SF number B2R]; [reflexivity|].
  unfold F2R. cbn [Fnum Fexp]. rewrite bpow_powerRZ. destruct s; cbn [cond_Zopp]; [change (- Z.pos m)%Z with (Z.neg m); change (Z.neg m) with (- Z.pos m)%Z; rewrite opp_IZR|]; change (IZR radix2) with 2; ring.
Qed.
Lemma number_unique x r r' : number x r -> number x r' -> r = r'.
Proof. destruct x; cbn; try tauto; congruence. Qed.

(** * Link loss *)
Definition unit_real : R := rnd (3 / 1000000).
Lemma loss_unit_real : is_real loss_unit unit_real.
Proof.
  unfold loss_unit, unit_real. apply real_div; [apply (real_N 3); lia|apply (real_N 1000000); lia|lra|].
  rewrite Rabs_pos_eq by lra. apply Rle_trans with (bpow radix2 0); [cbn; lra|apply bpow_le; lia].
Qed.
(** Rounding a number that is not tiny changes it by at most one part in 2 ^ 24. *)
Lemma rnd_rel r : bpow radix2 (-126) <= r -> Rabs (rnd r - r) <= r * / 2 * bpow radix2 (-23).
Proof.
  intros H. assert (P : 0 < r) by (apply Rlt_le_trans with (2 := H); apply bpow_gt_0).
  pose proof (relative_error_N_FLT radix2 (-149) 24 eq_refl (fun x => negb (Z.even x)) r) as Q. rewrite (Rabs_pos_eq r) in Q by lra.
  specialize (Q ltac:(exact H)). change (FLT_exp (-149) 24) with (SpecFloat.fexp 24 128) in Q. change (- (24) + 1)%Z with (-23)%Z in Q.
  replace (r * / 2 * bpow radix2 (-23)) with (/ 2 * bpow radix2 (-23) * r) by ring. exact Q.
Qed.
Lemma unit_bounds : Rabs (unit_real - 3 / 1000000) <= 3 / 1000000 * / 2 * bpow radix2 (-23).
Proof. apply rnd_rel. apply Rle_trans with (bpow radix2 (-20)); [apply bpow_le; lia|cbn; lra]. Qed.
Lemma bpow_m23 : bpow radix2 (-23) = / 8388608. Proof. cbn. lra. Qed.
Lemma loss_real n : (n < 2 ^ 24)%N -> is_real (SFmul 24 128 (f32_of_N n) loss_unit) (rnd (IZR (Z.of_N n) * unit_real)).
Proof.
  intros H. apply real_mul; [apply real_N; exact H|apply loss_unit_real|]. pose proof unit_bounds as U. rewrite bpow_m23 in U. apply Rabs_le_inv in U.
  assert (0 <= IZR (Z.of_N n) <= 16777216) by (split; apply IZR_le; lia).
  apply Rle_trans with (bpow radix2 24); [cbn|apply bpow_le; lia]. rewrite Rabs_pos_eq by nra. nra.
Qed.
Lemma loss_near n : (n < 2 ^ 24)%N ->
  Rabs (rnd (IZR (Z.of_N n) * unit_real) - IZR (Z.of_N n) * 3 / 1000000) <= IZR (Z.of_N n) * 3 / 1000000 / 2 ^ 22.
Proof.
  intros H. pose proof unit_bounds as U. rewrite bpow_m23 in U. apply Rabs_le_inv in U. set (u := unit_real) in *.
  destruct (N.eq_dec n 0) as [->|Z]. { cbn [Z.of_N]. rewrite Rmult_0_l, round_0 by auto with typeclass_instances. rewrite Rabs_pos_eq; lra. }
  assert (P : 1 <= IZR (Z.of_N n)) by (apply IZR_le; lia). set (x := IZR (Z.of_N n)) in *.
  assert (B : Rabs (rnd (x * u) - x * u) <= x * u * / 2 * bpow radix2 (-23)).
  { apply rnd_rel. apply Rle_trans with (bpow radix2 (-20)); [apply bpow_le; lia|cbn; nra]. }
  rewrite bpow_m23 in B. apply Rabs_le_inv in B. set (y := rnd (x * u)) in *.
  assert (L : x * (3 / 1000000 - 3 / 1000000 * / 2 * / 8388608) <= x * u <= x * (3 / 1000000 + 3 / 1000000 * / 2 * / 8388608)).
  { split; apply Rmult_le_compat_l; lra. }
  change (2 ^ 22) with (2 * (2 * (2 * (2 * (2 * (2 * (2 * (2 * (2 * (2 * (2 * (2 * (2 * (2 * (2 * (2 * (2 * (2 * (2 * (2 * (2 * (2 * 1)))))))))))))))))))))).
  apply Rabs_le. split; lra.
Qed.
Lemma loss_mono n m : (n <= m)%N -> rnd (IZR (Z.of_N n) * unit_real) <= rnd (IZR (Z.of_N m) * unit_real).
Proof.
  intros H. apply round_le; auto with typeclass_instances. pose proof unit_bounds as U. rewrite bpow_m23 in U. apply Rabs_le_inv in U.
  apply Rmult_le_compat_r; [lra|]. apply IZR_le. lia.
Qed.

(** * Bits *)
Local Open Scope N_scope.
Lemma powerRZ_pos e : (0 < powerRZ 2 e)%R. Proof. apply powerRZ_lt. lra. Qed.
Lemma bits_split s e f : e < 256 -> f < 2 ^ 23 ->
  N.testbit (ieee_bits s e f) 31 = s /\ (ieee_bits s e f / 2 ^ 23) mod 256 = e /\ ieee_bits s e f mod 2 ^ 23 = f /\ ieee_bits s e f < 2 ^ 32.
Proof.
  intros E F. unfold ieee_bits. assert (A : e * 2 ^ 23 + f < 2 ^ 31) by lia. split; [|split; [|split]].
  - rewrite <- N.add_assoc. destruct s.
    + apply N.testbit_true. replace (2 ^ 31 + (e * 2 ^ 23 + f)) with (1 * 2 ^ 31 + (e * 2 ^ 23 + f)) by lia. rewrite N.div_add_l by lia. rewrite (N.div_small _ _ A). reflexivity.
    + apply N.testbit_false. rewrite N.add_0_l, (N.div_small _ _ A). reflexivity.
  - destruct s; lia.
  - destruct s; lia.
  - destruct s; lia.
Qed.
Lemma bits_cover n : n < 2 ^ 32 -> exists s e f, n = ieee_bits s e f /\ e < 256 /\ f < 2 ^ 23.
Proof.
  intros H. exists (2 ^ 31 <=? n), ((n / 2 ^ 23) mod 256), (n mod 2 ^ 23). unfold ieee_bits. split; [|split; lia].
  destruct (N.leb_spec (2 ^ 31) n); lia.
Qed.
Lemma bits_meaning s e f : e < 256 -> f < 2 ^ 23 -> ieee s e f (f32_of_bits (ieee_bits s e f)).
Proof.
  intros E F. unfold f32_of_bits. destruct (bits_split s e f E F) as (-> & -> & -> & _). unfold ieee.
  destruct (N.eqb_spec e 0) as [->|Z].
  - cbn [N.eqb]. destruct f as [|p]; cbn [sign number]; (split; [reflexivity|]); [destruct s; ring|]. change (Z.of_N (N.pos p)) with (Z.pos p). ring.
  - destruct (N.eqb_spec e 255); [destruct (f =? 0); reflexivity|].
    destruct (2 ^ 23 + f) as [|p] eqn:P; [lia|]. cbn [sign number]. split; [reflexivity|].
    replace (Z.of_N e - 127)%Z with ((Z.of_N e - 150) + 23)%Z by lia. rewrite powerRZ_add by lra. change (powerRZ 2 23) with (2 ^ 23)%R.
    assert (Q : IZR (Z.pos p) = (2 ^ 23 + IZR (Z.of_N f))%R).
    { replace (Z.pos p) with (8388608 + Z.of_N f)%Z by lia. rewrite plus_IZR. f_equal. cbn. lra. }
    rewrite Q. field.
Qed.

(** * Accessors *)
Lemma first_be_only k v n : first_be k v = Some n -> (forall b, v = Some b -> bytes_ok b) ->
  exists b r, v = Some (b ++ r) /\ length b = k /\ n = be_val b /\ bytes_ok b.
Proof.
  unfold first_be. destruct v as [b|]; [|discriminate]. destruct (Nat.leb_spec k (length b)) as [L|L]; [|discriminate]. intros [= <-] B.
  exists (firstn k b), (skipn k b). rewrite firstn_skipn. split; [reflexivity|]. split; [apply firstn_length_le; exact L|]. split; [reflexivity|]. apply bytes_ok_firstn. apply B. reflexivity.
Qed.
Lemma bandwidth_of s e f r : e < 256 -> f < 2 ^ 23 -> exists x, option_map f32_of_bits (first_be 4 (Some (be 4 (ieee_bits s e f) ++ r))) = Some x /\ ieee s e f x.
Proof.
  intros E F. rewrite first_be_app by (apply (bits_split s e f E F)). cbn [option_map]. eexists. split; [reflexivity|]. apply bits_meaning; auto.
Qed.
Lemma bandwidth_only v x : (forall b, v = Some b -> bytes_ok b) -> option_map f32_of_bits (first_be 4 v) = Some x ->
  exists s e f r, e < 256 /\ f < 2 ^ 23 /\ v = Some (be 4 (ieee_bits s e f) ++ r) /\ ieee s e f x.
Proof.
  intros B H. destruct (first_be 4 v) as [n|] eqn:Q; [|discriminate]. injection H as <-. destruct (first_be_only _ _ _ Q B) as (b & r & -> & L & -> & O).
  pose proof (be_val_bound b O) as K. rewrite L in K. change (256 ^ N.of_nat 4) with (2 ^ 32) in K. destruct (bits_cover (be_val b) K) as (s & e & f & E & E1 & F1). exists s, e, f, r.
  split; auto. split; auto. split; [|rewrite E; apply bits_meaning; auto]. do 2 f_equal. rewrite <- E, <- L. symmetry. apply be_be_val. exact O.
Qed.

Lemma last_such_in f l v : last_such f l = Some v -> exists t, In t l /\ f t = true /\ t_value t = v.
Proof.
  unfold last_such. destruct (find f (rev l)) as [t|] eqn:E; [|discriminate]. intros [= <-]. apply find_some in E as [I F]. exists t. apply in_rev in I. auto.
Qed.
Lemma last_ok k l : Forall (fun t => bytes_ok (t_value t)) l -> forall b, last_value k l = Some b -> bytes_ok b.
Proof. intros H b E. apply last_such_in in E as (t & I & _ & <-). rewrite Forall_forall in H. apply H. exact I. Qed.
Lemma text_only v s : text_of v = Some s <-> v = Some s /\ utf8 s.
Proof.
  unfold text_of. destruct v as [b|]; [|split; [discriminate|intros [[=] _]]]. destruct (utf8_ok b) eqn:U.
  - apply utf8_ok_iff in U. split; [intros [= <-]; auto|intros [[= <-] _]; reflexivity].
  - split; [discriminate|]. intros [[= <-] V]. apply utf8_ok_iff in V. congruence.
Qed.
Lemma flagged f m : f < 256 -> m < 2 ^ 24 -> be 1 f ++ be 3 m = be 4 (f * 2 ^ 24 + m).
Proof.
  intros Hf Hm. assert (B : bytes_ok (be 1 f ++ be 3 m)) by (rewrite bytes_ok_app; auto using be_ok).
  pose proof (be_be_val _ B) as E. rewrite app_length, !be_length in E. cbn [Nat.add] in E. rewrite <- E. f_equal.
  rewrite NetFacts.be_val_app, nlen_be, !be_val_be_small by (auto; lia). reflexivity.
Qed.
Lemma be4_only v n : (forall b, v = Some b -> bytes_ok b) -> first_be 4 v = Some n -> n < 2 ^ 32 /\ exists r, v = Some (be 4 n ++ r).
Proof.
  intros B H. destruct (first_be_only _ _ _ H B) as (b & r & -> & L & -> & O). pose proof (be_val_bound b O) as K. rewrite L in K. split; [exact K|].
  exists r. rewrite <- L. rewrite be_be_val by exact O. reflexivity.
Qed.
Lemma low24_only v n : (forall b, v = Some b -> bytes_ok b) -> low24 (first_be 4 v) = Some n ->
  n < 2 ^ 24 /\ exists f r, f < 256 /\ v = Some (be 1 f ++ be 3 n ++ r).
Proof.
  intros B H. destruct (first_be 4 v) as [m|] eqn:Q; [|discriminate]. injection H as <-. destruct (be4_only v m B Q) as (M & r & ->).
  assert (Z : m = (m / 2 ^ 24) * 2 ^ 24 + m mod 2 ^ 24) by lia. split; [lia|]. exists (m / 2 ^ 24), r. split; [lia|].
  rewrite app_assoc, flagged by lia. do 3 f_equal. exact Z.
Qed.
Lemma accessors_only l a : ls_view l a -> Forall (fun t => bytes_ok (t_value t)) l ->
  (forall b, get_node_flags a = Some b -> exists r, last_value 1024 l = Some (b :: r)) /\
  (forall m, get_igp_metric a = Some m -> exists w, (1 <= w <= 3)%nat /\ m < 256 ^ N.of_nat w /\ last_value 1095 l = Some (be w m)) /\
  (forall m, get_admin_group a = Some m -> m < 2 ^ 32 /\ exists r, last_value 1088 l = Some (be 4 m ++ r)) /\
  (forall m, get_prefix_metric a = Some m -> m < 2 ^ 32 /\ exists r, last_value 1155 l = Some (be 4 m ++ r)) /\
  (forall m, get_link_delay a = Some m -> m < 2 ^ 24 /\ exists f r, f < 256 /\ last_value 1114 l = Some (be 1 f ++ be 3 m ++ r)) /\
  (forall m n, get_min_max_delay a = Some (m, n) -> m < 2 ^ 24 /\ n < 2 ^ 24 /\
     exists f g r, f < 256 /\ g < 256 /\ last_value 1115 l = Some (be 1 f ++ be 3 m ++ be 1 g ++ be 3 n ++ r)) /\
  (forall m, get_delay_variation a = Some m -> m < 2 ^ 24 /\ exists f r, f < 256 /\ last_value 1116 l = Some (be 1 f ++ be 3 m ++ r)).
Proof.
  intros V O. pose proof (fun k => last_ok k l O) as B.
  split; [|split; [|split; [|split; [|split; [|split]]]]].
  - intros b. unfold get_node_flags. rewrite (view_node l a) by (auto; cbn; auto). destruct (last_value 1024 l) as [[|x r]|]; try discriminate. intros [= <-]. eauto.
  - intros m. unfold get_igp_metric. rewrite (view_link l a) by (auto; cbn; tauto). destruct (last_value 1095 l) as [v|] eqn:E; [|discriminate].
    destruct ((length v =? 1)%nat || (length v =? 2)%nat || (length v =? 3)%nat) eqn:L; [|discriminate]. intros [= <-]. pose proof (B _ _ E) as Ov. exists (length v). split; [lia|]. split; [apply be_val_bound; exact Ov|].
    rewrite be_be_val by exact Ov. reflexivity.
  - intros m. unfold get_admin_group. rewrite (view_link l a) by (auto; cbn; tauto). apply be4_only. apply B.
  - intros m. unfold get_prefix_metric. rewrite (view_prefix l a) by (auto; cbn; tauto). apply be4_only. apply B.
  - intros m. unfold get_link_delay. rewrite (view_link l a) by (auto; cbn; tauto). apply low24_only. apply B.
  - intros m n. unfold get_min_max_delay. rewrite (view_link l a) by (auto; cbn; tauto). destruct (last_value 1115 l) as [v|] eqn:E; [|discriminate].
    destruct (Nat.leb_spec 8 (length v)) as [L|L]; [|discriminate]. set (p := be_val (firstn 4 v)). set (q := be_val (firstn 4 (skipn 4 v))). intros H. pose proof (B _ _ E) as Ov.
    assert (m = p mod 2 ^ 24 /\ n = q mod 2 ^ 24) as [-> ->] by (split; congruence). clear H. split; [lia|]. split; [lia|].
    assert (Lp : length (firstn 4 v) = 4%nat) by (apply firstn_length_le; lia). assert (Lq : length (firstn 4 (skipn 4 v)) = 4%nat) by (apply firstn_length_le; rewrite skipn_length; lia).
    assert (Op : bytes_ok (firstn 4 v)) by (apply bytes_ok_firstn; exact Ov). assert (Oq : bytes_ok (firstn 4 (skipn 4 v))) by (apply bytes_ok_firstn, bytes_ok_skipn; exact Ov).
    pose proof (be_val_bound _ Op) as Bp. pose proof (be_val_bound _ Oq) as Bq. rewrite Lp in Bp. rewrite Lq in Bq. change (256 ^ N.of_nat 4) with (2 ^ 32) in Bp, Bq. fold p in Bp. fold q in Bq.
    exists (p / 2 ^ 24), (q / 2 ^ 24), (skipn 4 (skipn 4 v)). split; [lia|]. split; [lia|]. f_equal.
    rewrite (app_assoc (be 1 (q / 2 ^ 24))), (app_assoc (be 1 (p / 2 ^ 24))), !flagged by lia.
    replace (p / 2 ^ 24 * 2 ^ 24 + p mod 2 ^ 24) with p by lia. replace (q / 2 ^ 24 * 2 ^ 24 + q mod 2 ^ 24) with q by lia.
    pose proof (be_be_val _ Op) as Ep. pose proof (be_be_val _ Oq) as Eq4. rewrite Lp in Ep. rewrite Lq in Eq4. fold p in Ep. fold q in Eq4. rewrite Ep, Eq4, !firstn_skipn. reflexivity.
  - intros m. unfold get_delay_variation. rewrite (view_link l a) by (auto; cbn; tauto). apply low24_only. apply B.
Qed.
Lemma names l a s : ls_view l a ->
  (get_node_name a = Some s <-> last_value 1026 l = Some s /\ utf8 s) /\
  (get_link_name a = Some s <-> last_value 1098 l = Some s /\ utf8 s).
Proof.
  intros V. unfold get_node_name, get_link_name. rewrite (view_node l a), (view_link l a) by (auto; cbn; tauto). split; apply text_only.
Qed.
Lemma bandwidths l a : ls_view l a -> forall s e f r, e < 256 -> f < 2 ^ 23 ->
  (last_value 1089 l = Some (be 4 (ieee_bits s e f) ++ r) -> exists x, get_max_bandwidth a = Some x /\ ieee s e f x) /\
  (last_value 1118 l = Some (be 4 (ieee_bits s e f) ++ r) -> exists x, get_residual_bandwidth a = Some x /\ ieee s e f x) /\
  (last_value 1119 l = Some (be 4 (ieee_bits s e f) ++ r) -> exists x, get_available_bandwidth a = Some x /\ ieee s e f x) /\
  (last_value 1120 l = Some (be 4 (ieee_bits s e f) ++ r) -> exists x, get_utilized_bandwidth a = Some x /\ ieee s e f x).
Proof.
  intros V s e f r E F. unfold get_max_bandwidth, get_residual_bandwidth, get_available_bandwidth, get_utilized_bandwidth.
  rewrite !(view_link l a) by (auto; cbn; tauto). split; [|split; [|split]]; intros ->; apply bandwidth_of; auto.
Qed.
Lemma bandwidths_only l a x : ls_view l a -> Forall (fun t => bytes_ok (t_value t)) l ->
  (get_max_bandwidth a = Some x -> exists s e f r, e < 256 /\ f < 2 ^ 23 /\ last_value 1089 l = Some (be 4 (ieee_bits s e f) ++ r) /\ ieee s e f x) /\
  (get_residual_bandwidth a = Some x -> exists s e f r, e < 256 /\ f < 2 ^ 23 /\ last_value 1118 l = Some (be 4 (ieee_bits s e f) ++ r) /\ ieee s e f x) /\
  (get_available_bandwidth a = Some x -> exists s e f r, e < 256 /\ f < 2 ^ 23 /\ last_value 1119 l = Some (be 4 (ieee_bits s e f) ++ r) /\ ieee s e f x) /\
  (get_utilized_bandwidth a = Some x -> exists s e f r, e < 256 /\ f < 2 ^ 23 /\ last_value 1120 l = Some (be 4 (ieee_bits s e f) ++ r) /\ ieee s e f x).
Proof.
  intros V O. unfold get_max_bandwidth, get_residual_bandwidth, get_available_bandwidth, get_utilized_bandwidth.
  rewrite !(view_link l a) by (auto; cbn; tauto). split; [|split; [|split]]; apply bandwidth_only; apply last_ok; exact O.
Qed.
Lemma loss_at l a f n r : ls_view l a -> f < 256 -> n < 2 ^ 24 -> last_value 1117 l = Some (be 1 f ++ be 3 n ++ r) ->
  get_link_loss a = Some (SFmul 24 128 (f32_of_N n) loss_unit).
Proof.
  intros V F B E. unfold get_link_loss. rewrite (view_link l a) by (auto; cbn; tauto). rewrite E, app_assoc, flagged, first_be_app by lia.
  cbn [low24 option_map]. do 3 f_equal. lia.
Qed.
Lemma loss l a f n r : ls_view l a -> f < 256 -> n < 2 ^ 24 -> last_value 1117 l = Some (be 1 f ++ be 3 n ++ r) ->
  exists x v, get_link_loss a = Some x /\ number x v /\ (Rabs (v - IZR (Z.of_N n) * 3 / 1000000) <= IZR (Z.of_N n) * 3 / 1000000 / 2 ^ 22)%R.
Proof.
  intros V F B E. rewrite (loss_at l a f n r V F B E). do 2 eexists. split; [reflexivity|]. split; [apply real_number, loss_real; exact B|]. apply loss_near. exact B.
Qed.
Lemma loss_only l a x : ls_view l a -> Forall (fun t => bytes_ok (t_value t)) l -> get_link_loss a = Some x ->
  exists f n r, f < 256 /\ n < 2 ^ 24 /\ last_value 1117 l = Some (be 1 f ++ be 3 n ++ r).
Proof.
  intros V O. unfold get_link_loss. rewrite (view_link l a) by (auto; cbn; tauto). intros H. destruct (low24 (first_be 4 (last_value 1117 l))) as [n|] eqn:Q; [|discriminate].
  destruct (low24_only _ _ (last_ok 1117 l O) Q) as (N & f & r & F & E). exists f, n, r. auto.
Qed.
Lemma loss_order l a f n r l' a' f' n' r' x v x' v' : ls_view l a -> ls_view l' a' -> f < 256 -> f' < 256 -> n <= n' -> n' < 2 ^ 24 ->
  last_value 1117 l = Some (be 1 f ++ be 3 n ++ r) -> last_value 1117 l' = Some (be 1 f' ++ be 3 n' ++ r') ->
  get_link_loss a = Some x -> get_link_loss a' = Some x' -> number x v -> number x' v' -> (v <= v')%R.
Proof.
  intros V V' F F' L N' E E' X X' R R'. assert (N1 : n < 2 ^ 24) by lia. rewrite (loss_at l a f n r) in X by auto. rewrite (loss_at l' a' f' n' r') in X' by auto. injection X as <-. injection X' as <-.
  pose proof (real_number _ _ (loss_real n N1)) as P. pose proof (real_number _ _ (loss_real n' N')) as P'.
  rewrite (number_unique _ _ _ R P), (number_unique _ _ _ R' P'). apply loss_mono. exact L.
Qed.

(** * Tunnels *)
Lemma find_first t k v : find_sub t k = Some v -> first_value k (tn_subs t) v.
Proof.
  unfold find_sub. destruct t as [ty l]. cbn [tn_subs]. induction l as [|x l IH]; cbn [find]; [discriminate|]. destruct (N.eqb_spec (t_type x) k) as [E|E].
  - intros [= <-]. exists [], l. destruct x as [c w]. cbn in *. subst. auto.
  - intros H. destruct (IH H) as (pre & post & -> & F). exists (x :: pre), post. split; [reflexivity|]. constructor; auto.
Qed.
Lemma sub_ok t k : Forall (fun x => bytes_ok (t_value x)) (tn_subs t) -> forall b, find_sub t k = Some b -> bytes_ok b.
Proof.
  intros O b H. apply find_first in H as (pre & post & E & _). rewrite E in O. apply Forall_app in O as [_ O]. inversion O; auto.
Qed.
Lemma tunnel_accessors_only t n : Forall (fun x => bytes_ok (t_value x)) (tn_subs t) ->
  (get_endpoint t = Some (Net.V4 n) -> n < 2 ^ 32 /\ first_value 6 (tn_subs t) (be 4 n)) /\
  (get_endpoint t = Some (Net.V6 n) -> n < 2 ^ 128 /\ first_value 6 (tn_subs t) (be 16 n)) /\
  (get_color t = Some n -> n < 2 ^ 32 /\ exists r, first_value 4 (tn_subs t) (be 4 n ++ r)) /\
  (get_udp_port t = Some n -> n < 2 ^ 16 /\ exists r, first_value 8 (tn_subs t) (be 2 n ++ r)) /\
  (get_preference t = Some n -> n < 2 ^ 32 /\ exists r, first_value 12 (tn_subs t) (be 4 n ++ r)).
Proof.
  intros O.
  assert (G : forall k w, first_be w (find_sub t k) = Some n -> n < 256 ^ N.of_nat w /\ exists r, first_value k (tn_subs t) (be w n ++ r)).
  { intros k w H. destruct (first_be_only _ _ _ H (sub_ok t k O)) as (b & r & E & L & -> & Ob). split; [rewrite <- L; apply be_val_bound; exact Ob|].
    exists r. rewrite <- L, be_be_val by exact Ob. apply find_first. exact E. }
  assert (X : forall b, find_sub t 6 = Some b -> n = be_val b -> n < 256 ^ N.of_nat (length b) /\ first_value 6 (tn_subs t) (be (length b) n)).
  { intros b E ->. pose proof (sub_ok t 6 O b E) as Ob. split; [apply be_val_bound; exact Ob|]. rewrite be_be_val by exact Ob. apply find_first. exact E. }
  split; [|split; [|split; [exact (G 4 4%nat)|split; [exact (G 8 2%nat)|exact (G 12 4%nat)]]]]; unfold get_endpoint; destruct (find_sub t 6) as [b|]; try discriminate; specialize (X b eq_refl);
    destruct (Nat.eqb_spec (length b) 4) as [L|L]; try discriminate.
  - intros H. rewrite L in X. apply X. congruence.
  - destruct (length b =? 16)%nat; discriminate.
  - destruct (Nat.eqb_spec (length b) 16) as [L'|L']; [|discriminate]. intros H. rewrite L' in X. apply X. congruence.
Qed.
Lemma by_type l k : part_of (tunnels_by_type l k) l /\
  (forall t, In t (tunnels_by_type l k) <-> In t l /\ tn_type t = k) /\
  (forall s, part_of s l -> Forall (fun t => tn_type t = k) s -> (length s <= length (tunnels_by_type l k))%nat) /\
  (has_tunnel_type l k = true <-> exists t, In t l /\ tn_type t = k).
Proof.
  split; [|split; [|split]].
  - unfold tunnels_by_type. induction l as [|x l IH]; cbn [filter]; [constructor|]. destruct (tn_type x =? k); constructor; exact IH.
  - intros t. unfold tunnels_by_type. rewrite filter_In, N.eqb_eq. reflexivity.
  - intros s H. unfold tunnels_by_type. induction H as [|x s l H IH|x s l H IH]; intros F; cbn [filter]; [lia| |].
    + inversion F as [|? ? E F']; subst. rewrite N.eqb_refl. cbn [length]. specialize (IH F'). lia.
    + specialize (IH F). destruct (tn_type x =? k); cbn [length]; lia.
  - unfold has_tunnel_type. rewrite existsb_exists. split; intros (t & I & E); exists t; (split; [exact I|]); apply N.eqb_eq; exact E.
Qed.

(** Added tunnels and sub-TLVs. *)
Lemma added_tunnel l t : (forall k, tunnels_by_type (add_tunnel_tlv l t) k = tunnels_by_type l k ++ tunnels_by_type [t] k) /\
  (forall a b, encode_tunnel_encap l = Ok a -> encode_tunnel t = Ok b -> encode_tunnel_encap (add_tunnel_tlv l t) = Ok (a ++ b)).
Proof.
  split; [intros k; apply filter_app|]. intros a b A B. unfold encode_tunnel_encap, add_tunnel_tlv in *. destruct (rmap encode_tunnel l) as [bs| |] eqn:R; try discriminate A.
  apply rmap_ok in R. assert (R' : rmap encode_tunnel (l ++ [t]) = Ok (bs ++ [b])) by (apply rmap_ok; apply Forall2_app; [exact R|repeat constructor; exact B]).
  rewrite R'. cbn [rbind] in *. rewrite concat_app. cbn [concat]. rewrite app_nil_r. congruence.
Qed.
Lemma added_sub t x : tn_type (add_sub_tlv t x) = tn_type t /\
  (forall k v, first_value k (tn_subs t) v -> first_value k (tn_subs (add_sub_tlv t x)) v) /\
  (Forall (fun y => t_type y <> t_type x) (tn_subs t) -> first_value (t_type x) (tn_subs (add_sub_tlv t x)) (t_value x)).
Proof.
  unfold add_sub_tlv. cbn [tn_type tn_subs]. split; [reflexivity|]. split.
  - intros k v (pre & post & E & F). exists pre, (post ++ [x]). rewrite E, <- app_assoc. split; [reflexivity|exact F].
  - intros F. exists (tn_subs t), []. split; [destruct x; reflexivity|exact F].
Qed.
