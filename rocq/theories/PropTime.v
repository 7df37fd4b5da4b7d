(** C70: times. *)
From Coq Require Import Lia Floats.SpecFloat.
From Verif Require Import Base Framing Elem Filter Bmp F64Real.

(** The time of a record in microseconds, and a header that states a valid one. *)
Definition micros (h : header) : N := h_ts h * 1000000 + match h_us h with Some us => us | None => 0 end.
Definition time_ok (h : header) : Prop := h_ts h < 2 ^ 32 /\ match h_us h with Some us => us < 1000000 | None => True end.
Lemma near_record h : time_ok h -> near (record_time h) (micros h).
Proof.
  intros [S U]. unfold record_time, micros. destruct (h_us h) as [us|]; [apply near_time; auto|rewrite N.add_0_r; apply near_seconds; auto].
Qed.
Lemma compare_swap x y : SFcompare x y = Some Eq -> SFcompare y x = Some Eq.
Proof.
  destruct x as [[]|[]| |[] m e], y as [[]|[]| |[] m' e']; cbn; try discriminate; auto.
  - destruct (Z.compare_spec e e') as [->|L|L]; try discriminate. rewrite Z.compare_refl. change (Pos.compare_cont Eq m m') with (m ?= m')%positive. change (Pos.compare_cont Eq m' m) with (m' ?= m)%positive.
    destruct (Pos.compare_spec m m') as [->|L|L]; try discriminate. rewrite Pos.compare_refl. auto.
  - destruct (Z.compare_spec e e') as [->|L|L]; try discriminate. rewrite Z.compare_refl. change (Pos.compare_cont Eq m m') with (m ?= m')%positive. change (Pos.compare_cont Eq m' m) with (m' ?= m)%positive.
    destruct (Pos.compare_spec m m') as [->|L|L]; try discriminate. rewrite Pos.compare_refl. auto.
Qed.
Lemma near_refl x n : near x n -> SFcompare x x = Some Eq.
Proof. intros (t & T & _). rewrite (real_compare x x t t T T). f_equal. apply Flocq.Core.Raux.Rcompare_Eq. reflexivity. Qed.

(** The floats given to elements order the records of a stream as their seconds and
    microseconds do: different times never become equal, and equal ones are equal. *)
Theorem C70_order h h' : time_ok h -> time_ok h' -> SFcompare (record_time h) (record_time h') = Some (micros h ?= micros h').
Proof.
  intros T T'. pose proof (near_record h T) as N. pose proof (near_record h' T') as N'. destruct (N.compare_spec (micros h) (micros h')) as [E|E|E].
  - assert (X : h_ts h = h_ts h' /\ match h_us h with Some us => us | None => 0 end = match h_us h' with Some us => us | None => 0 end).
    { destruct T as [_ U], T' as [_ U']. unfold micros in E. destruct (h_us h), (h_us h'); split; lia. }
    destruct X as [X Y]. unfold record_time in *. destruct (h_us h) as [us|], (h_us h') as [us'|]; subst; rewrite <- X in *.
    + exact (near_refl _ _ N).
    + apply whole_time. exact (proj1 T).
    + apply compare_swap. apply whole_time. exact (proj1 T).
    + exact (near_refl _ _ N).
  - exact (near_lt _ _ _ _ N N' E).
  - exact (near_gt _ _ _ _ N N' E).
Qed.
Print Assumptions C70_order.
(** Converting such a time back gives the seconds exactly and the microseconds, or one less. *)
Theorem C70_back h : time_ok h -> let us := match h_us h with Some us => us | None => 0 end in
  convert_timestamp (record_time h) = (h_ts h, us) \/ 0 < us /\ convert_timestamp (record_time h) = (h_ts h, us - 1).
Proof. intros [S U]. cbv zeta. unfold record_time. destruct (h_us h) as [us|]; [apply (convert_time (h_ts h) us); auto|left; apply convert_seconds; auto]. Qed.
Print Assumptions C70_back.
(** Time filters at whole seconds compare exactly. *)
Theorem C70_filter show h v n : time_ok h -> n < 2 ^ 32 -> vw_time v = record_time h ->
  (match_filter show v (FTsStart (f64_of_N n)) = true <-> n <= h_ts h) /\
  (match_filter show v (FTsEnd (f64_of_N n)) = true <-> micros h <= n * 1000000).
Proof.
  intros T B E. pose proof (C70_order (Hdr n None 0 0 0) h (conj B I) T) as A. pose proof (C70_order h (Hdr n None 0 0 0) T (conj B I)) as A'.
  change (record_time (Hdr n None 0 0 0)) with (f64_of_N n) in *. replace (micros (Hdr n None 0 0 0)) with (n * 1000000) in * by (unfold micros; cbn [h_ts h_us]; lia).
  assert (U : n * 1000000 <= micros h <-> n <= h_ts h) by (destruct T as [_ U]; unfold micros; destruct (h_us h); lia).
  cbn [match_filter is_elem_only_filter]. rewrite !Bool.andb_false_r. unfold SFleb. rewrite E, A, A'. split.
  - rewrite <- U. destruct (N.compare_spec (n * 1000000) (micros h)); split; intros; try lia; auto; discriminate.
  - destruct (N.compare_spec (micros h) (n * 1000000)); split; intros; try lia; auto; discriminate.
Qed.
Print Assumptions C70_filter.
Example C70_ex : time_ok (Hdr 4294967295 (Some 999999) 17 4 0) /\ time_ok (Hdr 4294967295 (Some 999998) 17 4 0) /\
  SFltb (record_time (Hdr 4294967295 (Some 999998) 17 4 0)) (record_time (Hdr 4294967295 (Some 999999) 17 4 0)) = true /\
  convert_timestamp (record_time (Hdr 4294967295 (Some 999999) 17 4 0)) = (4294967295, 999999).
Proof. repeat split; try (vm_compute; reflexivity). Qed.
(** Finding: a microsecond field of a million or more, which is not checked, moves the time
    past the next second. *)
Theorem C70_overflow_refuted : exists h h', h_ts h < h_ts h' /\ SFltb (record_time h') (record_time h) = true.
Proof. exists (Hdr 1 (Some 4000000000) 17 4 0), (Hdr 2 None 16 4 0). split; vm_compute; reflexivity. Qed.
Print Assumptions C70_overflow_refuted.
