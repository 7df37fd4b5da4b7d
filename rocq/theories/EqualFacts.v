(** Proofs about [Equal]. *)
From Coq Require Import ZArith NArith Reals Lia Lra ZifyBool ZifyNat ZifyN Floats.SpecFloat.
From Flocq Require Import Core.Zaux Core.Raux Core.Defs Core.Generic_fmt Core.FLT Core.Float_prop IEEE754.BinarySingleNaN.
From Verif Require Import Base BaseFacts Net NetFacts Tlv TlvSpec TlvFacts Community CommunitySpec CommunityFacts TableDump Elem Attr Bmp BmpSpec F64Real Framing MrtRecord Equal EqualSpec.
Local Open Scope N_scope.

Lemma vec_eqb_iff {A} (eqb : A -> A -> bool) : (forall x y, eqb x y = true <-> x = y) -> forall l m, vec_eqb eqb l m = true <-> l = m.
Proof.
  intros E. induction l as [|x l IH]; intros [|y m]; cbn [vec_eqb]; try (split; [discriminate|discriminate]); [split; reflexivity|].
  rewrite andb_true_iff, E, IH. split; [intros [-> ->]; reflexivity|]. intros [= -> ->]. auto.
Qed.
Lemma leibniz_equivalence {A} (eqb : A -> A -> bool) (P : A -> Prop) : (forall x y, P x -> P y -> (eqb x y = true <-> x = y)) -> equivalence eqb P.
Proof.
  intros E. split; [|split].
  - intros x X. apply E; auto.
  - intros x y X Y H. apply E in H; auto. subst. apply E; auto.
  - intros x y z X Y Z H K. apply E in H; auto. apply E in K; auto. subst. apply E; auto.
Qed.

(** * Traffic engineering *)
Lemma zipped l m : length l = length m -> (forallb (fun p : N * N => fst p =? snd p) (combine l m) = true <-> l = m).
Proof.
  revert m; induction l as [|x l IH]; intros [|y m] L; try discriminate; [split; reflexivity|]. cbn [combine forallb fst snd]. injection L as L.
  rewrite andb_true_iff, N.eqb_eq, (IH m L). split; [intros [-> ->]; reflexivity|]. intros [= -> ->]. auto.
Qed.
Lemma te_eqb_iff t u : te_ok t -> te_ok u -> (te_eqb t u = true <-> t = u).
Proof.
  intros (_ & _ & _ & L & _) (_ & _ & _ & M & _). unfold te_eqb. rewrite !andb_true_iff, !N.eqb_eq, bytes_eqb_eq, zipped by congruence.
  destruct t, u; cbn. split; [intros ((((-> & ->) & ->) & ->) & ->); reflexivity|]. intros [= -> -> -> -> ->]. auto.
Qed.
Lemma te_eqb_wire t u : te_ok t -> te_ok u -> (te_eqb t u = true <-> encode_traffic_eng t = encode_traffic_eng u).
Proof.
  intros T U. rewrite te_eqb_iff by auto. split; [intros ->; reflexivity|]. intros E.
  change (te_wire t = te_wire u) in E.
  assert (B : bytes_ok (te_wire t)).
  { destruct T as (_ & _ & _ & _ & _ & S). unfold te_wire. rewrite !bytes_ok_app. repeat split; auto using be_ok. apply Forall_flat_map. apply Forall_forall. intros; apply be_ok. }
  pose proof (proj2 (te_iff (te_wire t) t B) (conj T eq_refl)) as P. assert (Bu : bytes_ok (te_wire u)) by (rewrite <- E; exact B).
  pose proof (proj2 (te_iff (te_wire u) u Bu) (conj U eq_refl)) as Q. rewrite E in P. congruence.
Qed.

(** * Extended communities *)
Lemma ext_eqb_iff x y : ext_eqb x y = true <-> x = y.
Proof.
  destruct x, y; cbn [ext_eqb]; try (split; discriminate); rewrite ?andb_true_iff, ?Bool.eqb_true_iff, ?N.eqb_eq, ?bytes_eqb_eq;
    (split; [intros H; repeat match goal with H : _ /\ _ |- _ => destruct H end; subst; reflexivity|intros [=]; subst; auto]).
Qed.
Lemma ext_eqb_wire x y : ext_ok x -> ext_ok y -> (ext_eqb x y = true <-> encode_ext x = encode_ext y).
Proof.
  intros X Y. rewrite ext_eqb_iff. split; [intros ->; reflexivity|]. intros E. pose proof (read_ext_ok x [] X) as P. pose proof (read_ext_ok y [] Y) as Q. rewrite E in P. congruence.
Qed.

(** * Geographic peers *)
Lemma peer_eqb_iff p q : peer_eqb p q = true <-> p = q.
Proof.
  unfold peer_eqb. rewrite !andb_true_iff, !N.eqb_eq, ip_eqb_eq. destruct p, q; cbn. split; [intros (((-> & ->) & ->) & ->); reflexivity|]. intros [= -> -> -> ->]. auto.
Qed.
Lemma geo_peer_eqb_iff p q : geo_peer_eqb p q = true <-> p = q.
Proof.
  unfold geo_peer_eqb. rewrite !andb_true_iff, !N.eqb_eq, peer_eqb_iff. destruct p, q; cbn. split; [intros ((-> & ->) & ->); reflexivity|]. intros [= -> -> ->]. auto.
Qed.
Lemma geo_table_eqb_iff t u : geo_table_eqb t u = true <-> t = u.
Proof.
  unfold geo_table_eqb. rewrite !andb_true_iff, !N.eqb_eq, bytes_eqb_eq, (vec_eqb_iff _ geo_peer_eqb_iff). destruct t, u; cbn.
  split; [intros ((((-> & ->) & ->) & ->) & ->); reflexivity|]. intros [= -> -> -> -> ->]. auto.
Qed.

(** * The MRT header *)
Lemma header_eqb_iff h k : header_eqb h k = true <-> h_ts h = h_ts k /\ h_us h = h_us k /\ h_type h = h_type k /\ h_sub h = h_sub k.
Proof.
  unfold header_eqb. rewrite !andb_true_iff, !N.eqb_eq. assert (U : (match h_us h, h_us k with Some x, Some y => x =? y | None, None => true | _, _ => false end) = true <-> h_us h = h_us k).
  { destruct (h_us h), (h_us k); try (split; discriminate); [|split; reflexivity]. rewrite N.eqb_eq. split; congruence. }
  rewrite U. tauto.
Qed.

(** * Attribute types *)
Lemma atype_ok n m : atype_code (atype_of n) = n /\ (atype_eqb (atype_of n) (atype_of m) = true <-> n = m) /\
  (atype_cmp (atype_of n) (atype_of m) = (n ?= m)) /\ (atype_cmp (atype_of n) (atype_of m) = Eq <-> atype_eqb (atype_of n) (atype_of m) = true).
Proof.
  assert (C : forall k, atype_code (atype_of k) = k) by (intros k; unfold atype_of; destruct (mem k known_codes); reflexivity).
  assert (E : atype_eqb (atype_of n) (atype_of m) = true <-> n = m).
  { unfold atype_of. destruct (mem n known_codes) eqn:A, (mem m known_codes) eqn:B; cbn [atype_eqb]; rewrite ?N.eqb_eq; split; try discriminate; auto; intros ->; congruence. }
  split; [apply C|]. split; [exact E|]. unfold atype_cmp. rewrite !C. split; [reflexivity|]. rewrite E. apply N.compare_eq_iff.
Qed.

(** * Times of BMP headers *)
Local Open Scope R_scope.
Lemma positive_real x r : is_real x r -> 0 < r -> exists m e, x = S754_finite false m e.
Proof.
  intros (b & <- & F & <-) P. destruct b as [s|s| |s m e B]; try discriminate F; cbn in P; [lra|]. destruct s; [|eexists; eexists; reflexivity].
  exfalso. cbn in P. assert (N : F2R (Float radix2 (Zneg m) e) < 0) by (apply F2R_lt_0; reflexivity). lra.
Qed.
Lemma pos_unique x y a b : is_real x a -> is_real y b -> 0 < a -> SFeqb x y = true -> x = y.
Proof.
  intros X Y P E. assert (AB : a = b).
  { unfold SFeqb in E. rewrite (real_compare x y a b X Y) in E. destruct (Rcompare_spec a b); try discriminate; auto. }
  subst b. destruct X as (p & <- & Fp & <-). destruct Y as (q & <- & Fq & H). f_equal. apply B2R_inj; auto.
  - destruct p; try discriminate; cbn in P |- *; [lra|reflexivity].
  - rewrite <- H in P. destruct q as [| | |]; try discriminate; cbn in P |- *; [lra|reflexivity].
Qed.
Lemma time_zero_or_pos s us : (s < 2 ^ 32)%N -> (us < 2 ^ 32)%N -> (s = 0%N /\ us = 0%N) \/ exists t, is_real (bmp_time s us) t /\ 0 < t.
Proof.
  intros S U. destruct (N.eq_dec s 0) as [Zs|Zs], (N.eq_dec us 0) as [Zu|Zu]; [left; auto| | |]; right;
  (set (zs := Z.of_N s); set (zu := Z.of_N us); assert (Ps : 0 <= IZR zs <= 4294967295) by (split; apply IZR_le; lia); assert (Pu : 0 <= IZR zu <= 4294967295) by (split; apply IZR_le; lia);
   assert (B33 : bpow radix2 33 = 8589934592) by (cbn; lra); assert (B100 : bpow radix2 33 <= bpow radix2 100) by (apply bpow_le; lia);
   assert (D : 0 <= IZR zu / 1000000 <= 4294967295 / 1000000) by (unfold Rdiv; split; [apply Rmult_le_pos; lra|apply Rmult_le_compat_r; lra]);
   assert (Q : is_real (f64_div (f64_of_N us) (f64_of_N 1000000)) (rnd (IZR zu / 1000000))) by (apply real_div; [apply real_N; lia|apply (real_N 1000000); lia|lra|rewrite Rabs_pos_eq by lra; lra]);
   assert (Q0 : 0 <= rnd (IZR zu / 1000000)) by (apply (rnd_ge 0); [lia|lra]);
   assert (Q1 : rnd (IZR zu / 1000000) <= 4295) by (apply round_le_generic; [apply Hexp|apply valid_rnd_N|apply (int_format 4295); lia|lra]);
   exists (rnd (IZR zs + rnd (IZR zu / 1000000))); split; [apply real_add; [apply real_N; lia|exact Q|rewrite Rabs_pos_eq; lra]|]).
  - assert (L : bpow radix2 (-20) <= rnd (IZR zu / 1000000)).
    { apply round_ge_generic; [apply Hexp|apply valid_rnd_N|apply generic_format_bpow; unfold SpecFloat.fexp, emin; lia|]. assert (1 <= IZR zu) by (apply IZR_le; lia). cbn. lra. }
    apply Rlt_le_trans with (bpow radix2 (-20)); [apply bpow_gt_0|]. apply round_ge_generic; [apply Hexp|apply valid_rnd_N|apply generic_format_bpow; unfold SpecFloat.fexp, emin; lia|]. lra.
  - apply Rlt_le_trans with 1; [lra|]. apply (rnd_ge 1); [lia|]. assert (1 <= IZR zs) by (apply IZR_le; lia). lra.
  - apply Rlt_le_trans with 1; [lra|]. apply (rnd_ge 1); [lia|]. assert (1 <= IZR zs) by (apply IZR_le; lia). lra.
Qed.
Lemma zero_time : bmp_time 0 0 = S754_zero false. Proof. vm_compute. reflexivity. Qed.
Lemma time_eq s us s' us' : (s < 2 ^ 32)%N -> (us < 2 ^ 32)%N -> (s' < 2 ^ 32)%N -> (us' < 2 ^ 32)%N ->
  (SFeqb (bmp_time s us) (bmp_time s' us') = true <-> bmp_time s us = bmp_time s' us').
Proof.
  intros S U S' U'. destruct (time_zero_or_pos s us S U) as [[-> ->]|(t & T & P)], (time_zero_or_pos s' us' S' U') as [[-> ->]|(t' & T' & P')].
  - split; reflexivity.
  - rewrite zero_time. destruct (positive_real _ _ T' P') as (m & e & ->). split; discriminate.
  - rewrite zero_time. destruct (positive_real _ _ T P) as (m & e & ->). split; discriminate.
  - split; [apply (pos_unique _ _ t t' T T' P)|]. intros <-. unfold SFeqb. rewrite (real_compare _ _ t t T T), Rcompare_Eq; reflexivity.
Qed.
Local Open Scope N_scope.
Lemma flags_eqb_iff a b : flags_eqb a b = true <-> a = b.
Proof. destruct a, b; cbn; rewrite ?N.eqb_eq; split; congruence. Qed.
Lemma per_peer_iff w w' h h' : per_peer_octets w h -> per_peer_octets w' h' -> (per_peer_eqb h h' = true <-> h = h').
Proof.
  intros (f & a & x & s & us & _ & _ & _ & _ & _ & S & U & T & _) (f' & a' & x' & s' & us' & _ & _ & _ & _ & _ & S' & U' & T' & _).
  unfold per_peer_eqb. rewrite !andb_true_iff, !N.eqb_eq, ip_eqb_eq, flags_eqb_iff, T, T', time_eq, <- T, <- T' by auto.
  destruct h, h'; cbn. split; [intros ((((((-> & ->) & ->) & ->) & ->) & ->) & ->); reflexivity|]. intros [= -> -> -> -> -> -> ->]. auto 10.
Qed.
