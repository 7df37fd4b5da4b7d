(** Proofs about the times in file names. *)
From Coq Require Import String Lia Floats.SpecFloat.
From Verif Require Import Tac Base BaseFacts Text Elem Filter TextDump TextDumpSpec.

(** * The calendar *)
Lemma leap_iff y : leap y = true <-> leap_year y.
Proof. unfold leap, leap_year. lia. Qed.
Lemma month_last y m d : 1 <= m <= 12 -> last_day y m d <-> d = month_days y m.
Proof.
  intros H. assert (C : m = 1 \/ m = 2 \/ m = 3 \/ m = 4 \/ m = 5 \/ m = 6 \/ m = 7 \/ m = 8 \/ m = 9 \/ m = 10 \/ m = 11 \/ m = 12) by lia.
  pose proof (leap_iff y) as L.
  destruct C as [->|[->|[->|[->|[->|[->|[->|[->|[->|[->|[->| ->]]]]]]]]]]]; cbn [last_day month_days]; try tauto.
  destruct (leap y); [assert (leap_year y) by (apply L; reflexivity); split; [intros [[_ H1]|[H1 _]]; [exact H1|contradiction]|intros ->; left; auto]|].
  assert (~ leap_year y) by (intros K; apply L in K; discriminate). split; [intros [[H1 _]|[_ H1]]; [contradiction|exact H1]|intros ->; right; auto].
Qed.
Lemma last_month y m d : last_day y m d -> 1 <= m <= 12.
Proof. intros H. destruct (N.le_gt_cases 1 m) as [A|A]; [|assert (m = 0) as -> by lia; destruct H]. destruct (N.le_gt_cases m 12) as [B|B]; [lia|]. exfalso.
  destruct m as [|p]; [lia|]. revert H B. clear. unfold last_day. repeat match goal with |- context [match ?q with xI _ => _ | xO _ => _ | xH => _ end] => destruct q end; lia.
Qed.
Lemma date_iff y m d : date_ok y m d = true <-> date y m d.
Proof.
  unfold date_ok, date. split.
  - intros H. rewrite !andb_true_iff, !N.leb_le in H. destruct H as [[[A B] C] D]. exists (month_days y m). split; [apply month_last; lia|auto].
  - intros (k & L & A & B). pose proof (last_month _ _ _ L) as M. apply month_last in L; [|exact M]. subst k. rewrite !andb_true_iff, !N.leb_le. lia.
Qed.
Lemma month_days_bound y m : 28 <= month_days y m <= 31.
Proof. unfold month_days. destruct m as [|p]; [lia|]. repeat match goal with |- context [match ?q with xI _ => _ | xO _ => _ | xH => _ end] => destruct q end; try lia; destruct (leap y); lia. Qed.
Definition days0 (y m d : N) : N := days_before_year y + days_of_months y (N.to_nat (m - 1)) + (d - 1).
Lemma days0_month y m d : 1 <= m -> last_day y m d -> days0 y (m + 1) 1 = days0 y m d + 1.
Proof.
  intros A L. pose proof (last_month _ _ _ L) as M. apply month_last in L; [|exact M]. unfold days0.
  replace (N.to_nat (m + 1 - 1)) with (S (N.to_nat (m - 1))) by lia. cbn [days_of_months]. replace (N.of_nat (S (N.to_nat (m - 1)))) with m by lia.
  subst d. pose proof (month_days_bound y m). lia.
Qed.
Lemma days_year y : days_before_year (y + 1) = days_before_year y + if leap y then 366 else 365.
Proof.
  unfold days_before_year. pose proof (leap_iff y) as L. unfold leap_year in L.
  assert (Y : y = 400 * (y / 400) + y mod 400) by (apply N.div_mod; lia). pose proof (N.mod_lt y 400 ltac:(lia)) as R.
  set (q := y / 400) in *. set (r := y mod 400) in *. clearbody q r.
  assert (M4 : y mod 4 = r mod 4) by lia. assert (M100 : y mod 100 = r mod 100) by lia. rewrite M4, M100 in L. clear M4 M100.
  assert (D4 : forall k, (400 * q + k) / 4 = 100 * q + k / 4) by (intros; lia). assert (D100 : forall k, (400 * q + k) / 100 = 4 * q + k / 100) by (intros; lia). assert (D400 : forall k, (400 * q + k) / 400 = q + k / 400) by (intros; lia).
  subst y. rewrite <- !N.add_assoc. rewrite !D4, !D100, !D400. clear D4 D100 D400. destruct (leap (400 * q + r)).
  - assert (K : r mod 4 = 0 /\ (r mod 100 <> 0 \/ r = 0)) by (apply L; reflexivity). clear L. lia.
  - assert (K : ~ (r mod 4 = 0 /\ (r mod 100 <> 0 \/ r = 0))) by (intros K; apply L in K; discriminate). clear L. lia.
Qed.
Lemma days0_year y : days0 (y + 1) 1 1 = days0 y 12 31 + 1.
Proof.
  unfold days0. rewrite days_year. replace (N.to_nat (1 - 1)) with 0%nat by reflexivity. replace (N.to_nat (12 - 1)) with 11%nat by reflexivity.
  cbn [days_of_months]. cbn [N.of_nat Pos.of_succ_nat Pos.succ month_days]. destruct (leap y); lia.
Qed.
Lemma next_days y m d y' m' d' : next_day (y, m, d) (y', m', d') -> 1 <= d -> days0 y' m' d' = days0 y m d + 1.
Proof.
  intros H D. inversion H; subst.
  - unfold days0. lia.
  - apply days0_month; [|assumption]. eapply last_month; eassumption.
  - apply days0_year.
Qed.
Definition days (x : N * N * N) : Z := let '(y, m, d) := x in days_since_epoch y m d.
Lemma days_eq y m d : days (y, m, d) = (Z.of_N (days0 y m d) - 719528)%Z.
Proof. reflexivity. Qed.
Lemma last_pos y m d : last_day y m d -> 1 <= d.
Proof. intros L. pose proof (last_month _ _ _ L) as M. apply month_last in L; [|exact M]. pose proof (month_days_bound y m). lia. Qed.
(** Only valid dates have numbers; they are what the formula gives. *)
Definition valid (x : N * N * N) : Prop := let '(y, m, d) := x in date y m d.
Lemma date_first y m : 1 <= m <= 12 -> date y m 1.
Proof. intros M. exists (month_days y m). split; [apply month_last; auto|]. pose proof (month_days_bound y m). lia. Qed.
Lemma next_step a b : next_day a b -> valid a /\ valid b /\ days b = (days a + 1)%Z.
Proof.
  intros H. destruct a as [[y m] d], b as [[y' m'] d'].
  assert (X : valid (y, m, d) /\ valid (y', m', d')).
  { inversion H; subst; cbn [valid] in *.
    - auto.
    - match goal with L : last_day _ _ _ |- _ => pose proof (last_month _ _ _ L); pose proof (last_pos _ _ _ L); split; [exists d; split; [exact L|lia]|apply date_first; lia] end.
    - split; [exists 31; split; [reflexivity|lia]|apply date_first; lia]. }
  destruct X as [X Y]. split; [exact X|]. split; [exact Y|]. rewrite !days_eq. destruct X as (k & _ & D & _).
  rewrite (next_days _ _ _ _ _ _ H D). lia.
Qed.
Lemma day_number_days x n : day_number x n -> valid x /\ n = days x.
Proof.
  induction 1 as [|a b n H _ [V IH]|a b n H _ [V IH]].
  - split; [apply date_first; lia|vm_compute; reflexivity].
  - destruct (next_step _ _ H) as (A & B & E). split; [exact B|lia].
  - destruct (next_step _ _ H) as (A & B & E). split; [exact A|lia].
Qed.
(** [k] days on. *)
Inductive later : N * N * N -> N -> N * N * N -> Prop :=
| later_0 a : later a 0 a
| later_1 a b c k : later a k b -> next_day b c -> later a (k + 1) c.
Lemma later_trans a b c j k : later a j b -> later b k c -> later a (j + k) c.
Proof. intros H K. revert H. induction K as [b|b c e k K IH S]; intros H; [rewrite N.add_0_r; exact H|]. rewrite N.add_assoc. eapply later_1; [apply IH; exact H|exact S]. Qed.
Lemma later_day y m d : date y m d -> exists k, later (y, m, 1) k (y, m, d).
Proof.
  revert d. intros d. pattern d. apply N.peano_ind; [intros (k & _ & A & _); lia|]. intros n IH D.
  destruct (N.eq_dec n 0) as [->|Z]; [exists 0; constructor|]. destruct D as (k & L & A & B).
  assert (D' : date y m n) by (exists k; split; [exact L|lia]). destruct (IH D') as [j J]. exists (j + 1). eapply later_1; [exact J|].
  replace (N.succ n) with (n + 1) by lia. apply next_in_month; [exact D'|]. exists k. split; [exact L|lia].
Qed.
Lemma later_month y m : 1 <= m <= 12 -> exists k, later (y, 1, 1) k (y, m, 1).
Proof.
  pattern m. apply N.peano_ind; [lia|]. intros n IH M. destruct (N.eq_dec n 0) as [->|Z]; [exists 0; constructor|].
  destruct IH as [k K]; [lia|]. assert (L : last_day y n (month_days y n)) by (apply month_last; [lia|reflexivity]).
  destruct (later_day y n (month_days y n)) as [j J]; [exists (month_days y n); split; [exact L|]; pose proof (month_days_bound y n); lia|].
  exists (k + j + 1). eapply later_1; [eapply later_trans; eassumption|]. replace (N.succ n) with (n + 1) by lia. apply next_month; [exact L|lia].
Qed.
Lemma later_year y : exists k, later (0, 1, 1) k (y, 1, 1).
Proof.
  pattern y. apply N.peano_ind; [exists 0; constructor|]. intros n [k K]. destruct (later_month n 12 ltac:(lia)) as [j J].
  destruct (later_day n 12 31) as [i I]; [exists 31; split; [reflexivity|lia]|]. exists (k + (j + i) + 1).
  eapply later_1; [eapply later_trans; [exact K|eapply later_trans; eassumption]|]. replace (N.succ n) with (n + 1) by lia. apply next_year.
Qed.
Lemma later_date y m d : date y m d -> exists k, later (0, 1, 1) k (y, m, d).
Proof.
  intros D. assert (M : 1 <= m <= 12) by (destruct D as (k & L & _); eapply last_month; exact L).
  destruct (later_year y) as [i I], (later_month y m M) as [j J], (later_day y m d D) as [k K]. exists (i + (j + k)).
  eapply later_trans; [exact I|]. eapply later_trans; eassumption.
Qed.
Lemma later_forth a k b n : later a k b -> day_number a n -> exists n', day_number b n'.
Proof. intros L D. induction L as [a|a b c k L IH S]; [exists n; exact D|]. destruct (IH D) as [n' D']. exists (n' + 1)%Z. eapply day_after; eassumption. Qed.
Lemma later_back a k b n : later a k b -> day_number b n -> exists n', day_number a n'.
Proof. intros L. revert n. induction L as [a|a b c k L IH S]; intros n D; [exists n; exact D|]. apply (IH (n - 1)%Z). eapply day_before; eassumption. Qed.
(** The calendar of the model. *)
Lemma day_number_ok y m d n : day_number (y, m, d) n <-> date y m d /\ n = days_since_epoch y m d.
Proof.
  split; [exact (day_number_days (y, m, d) n)|]. intros [D ->].
  destruct (later_date 1970 1 1) as [j J]; [apply date_first; lia|]. destruct (later_date y m d D) as [k K].
  destruct (later_back _ _ _ _ J day_epoch) as [n0 Z]. destruct (later_forth _ _ _ _ K Z) as [n X].
  destruct (day_number_days _ _ X) as [_ E]. cbn [days] in E. rewrite <- E. exact X.
Qed.
Lemma at_time_iff y m d hh mm x : at_time y m d hh mm x <-> date y m d /\ x = unix_time y m d hh mm.
Proof.
  unfold at_time, unix_time. split.
  - intros (n & D & E). apply day_number_ok in D as [D ->]. split; [exact D|]. rewrite E. f_equal. lia.
  - intros [D ->]. exists (days_since_epoch y m d). split; [apply day_number_ok; auto|]. f_equal. lia.
Qed.

(** * Numbers with leading zeros *)
Lemma digit_iff b : digit b = true <-> 48 <= b <= 57.
Proof. unfold digit. rewrite andb_true_iff, !N.leb_le. reflexivity. Qed.
Lemma two_num n : n < 100 -> num (two n) = n.
Proof. unfold num, two. cbn [fold_left]. lia. Qed.
Lemma four_num n : n < 10000 -> num (four n) = n.
Proof. unfold num, four. cbn [fold_left]. intros. lia. Qed.
Lemma num_two a b : digit a = true -> digit b = true -> two (num [a; b]) = [a; b] /\ num [a; b] < 100.
Proof. rewrite !digit_iff. intros A B. unfold num, two. cbn [fold_left]. split; [|lia]. f_equal; [|f_equal]; lia. Qed.
Lemma num_four a b c d : digit a = true -> digit b = true -> digit c = true -> digit d = true -> four (num [a; b; c; d]) = [a; b; c; d] /\ num [a; b; c; d] < 10000.
Proof. rewrite !digit_iff. intros A B C D. unfold num, four. cbn [fold_left]. split; [|lia]. f_equal; [|f_equal; [|f_equal; [|f_equal]]]; lia. Qed.
Lemma two_digits n : n < 100 -> forallb digit (two n) = true.
Proof. intros. unfold two. cbn [forallb]. rewrite !andb_true_iff, !digit_iff. lia. Qed.
Lemma four_digits n : n < 10000 -> forallb digit (four n) = true.
Proof. intros. unfold four. cbn [forallb]. rewrite !andb_true_iff, !digit_iff. repeat split; lia. Qed.
Lemma date_bounds y m d : date y m d -> m < 100 /\ d < 100.
Proof. intros D. apply date_iff in D. unfold date_ok in D. rewrite !andb_true_iff, !N.leb_le in D. pose proof (month_days_bound y m). lia. Qed.

(** * One window *)
Definition prior (u : bytes) : option N := match rev u with [] => None | x :: _ => Some x end.
Lemma prior_snoc u x : prior (u ++ [x]) = Some x.
Proof. unfold prior. rewrite rev_app_distr. reflexivity. Qed.
Lemma prior_digit u : match prior u with Some x => digit x | None => false end = true <-> ends_in_digit u.
Proof.
  unfold prior, ends_in_digit. destruct (rev u) as [|x r] eqn:R.
  - split; [discriminate|]. intros (a & x & -> & _). rewrite rev_app_distr in R. discriminate.
  - rewrite digit_iff. assert (u = rev r ++ [x]) by (rewrite <- (rev_involutive u), R; reflexivity). split.
    + intros. exists (rev r), x. auto.
    + intros (a & y & E & Y). rewrite H in E. apply app_inj_tail in E as [_ ->]. exact Y.
Qed.
Lemma dashed_some u s x : dashed (prior u) (firstn 15 s) = Some x <->
  exists y m d hh mm q, s = dashed_text y m d hh mm ++ q /\ ~ ends_in_digit u /\ y < 10000 /\ date y m d /\ hh < 24 /\ mm < 60 /\ x = unix_time y m d hh mm.
Proof.
  split.
  - intros H. do 15 (destruct s as [|? s]; [discriminate|]). cbn [firstn] in H. unfold dashed in H.
    match type of H with (if ?c then _ else _) = _ => destruct c eqn:C; [|discriminate] end.
    cbn [forallb] in C. rewrite !andb_true_iff in C. destruct C as (((((((C & E1) & E2) & E3) & P) & D) & HH) & MM).
    repeat match goal with K : _ /\ _ |- _ => destruct K end.
    apply N.eqb_eq in E1, E2, E3. apply negb_true_iff in P. apply date_iff in D. apply N.ltb_lt in HH, MM.
    match type of D with date (num [?a; ?b; ?c; ?d]) (num [?f; ?g]) (num [?i; ?j]) =>
      match type of HH with num [?l; ?m] < _ => match type of MM with num [?n; ?o] < _ =>
      destruct (num_four a b c d) as [F1 F2]; try assumption; destruct (num_two f g) as [G1 _]; try assumption; destruct (num_two i j) as [I1 _]; try assumption;
      destruct (num_two l m) as [L1 _]; try assumption; destruct (num_two n o) as [O1 _]; try assumption;
      exists (num [a; b; c; d]), (num [f; g]), (num [i; j]), (num [l; m]), (num [n; o]), s end end end.
    split; [unfold dashed_text; rewrite F1, G1, I1, L1, O1, E1, E2, E3; reflexivity|]. injection H as <-.
    repeat split; try assumption. intros K. apply prior_digit in K. congruence.
  - intros (y & m & d & hh & mm & q & -> & P & Y & D & HH & MM & ->).
    destruct (date_bounds _ _ _ D) as [Mb Db].
    change (firstn 15 (dashed_text y m d hh mm ++ q)) with (dashed_text y m d hh mm). unfold dashed_text.
    pose proof (four_digits y Y) as F1. pose proof (two_digits m Mb) as F2. pose proof (two_digits d Db) as F3.
    pose proof (two_digits hh ltac:(lia)) as F4. pose proof (two_digits mm ltac:(lia)) as F5.
    pose proof (four_num y Y) as N1. pose proof (two_num m Mb) as N2. pose proof (two_num d Db) as N3.
    pose proof (two_num hh ltac:(lia)) as N4. pose proof (two_num mm ltac:(lia)) as N5.
    destruct (four y) as [|a [|b [|c [|e [|? ?]]]]] eqn:Q1; try discriminate. destruct (two m) as [|f [|g [|? ?]]] eqn:Q2; try discriminate.
    destruct (two d) as [|i [|j [|? ?]]] eqn:Q3; try discriminate. destruct (two hh) as [|k [|l [|? ?]]] eqn:Q4; try discriminate.
    destruct (two mm) as [|n [|o [|? ?]]] eqn:Q5; try discriminate.
    change (str "-") with [45]. cbn [app]. unfold dashed. rewrite N1, N2, N3, N4, N5.
    cbn [forallb] in *. rewrite !andb_true_iff in *. 
    assert (P' : negb (match prior u with Some x => digit x | None => false end) = true).
    { apply negb_true_iff. destruct (match prior u with Some x => digit x | None => false end) eqn:K; [|reflexivity]. apply prior_digit in K. contradiction. }
    rewrite P'. apply date_iff in D. rewrite D. apply N.ltb_lt in HH, MM. rewrite HH, MM.
    repeat match goal with K : _ /\ _ |- _ => destruct K end.
    repeat match goal with K : digit _ = true |- _ => rewrite K; clear K end. reflexivity.
Qed.
Lemma dotted_some s r : dotted (firstn 10 s) = Some r <->
  exists y m d q, s = dotted_text y m d ++ q /\ y < 10000 /\ m < 100 /\ d < 100 /\ r = if date_ok y m d then Some (unix_time y m d 12 0) else None.
Proof.
  split.
  - intros H. do 10 (destruct s as [|? s]; [discriminate|]). cbn [firstn] in H. unfold dotted in H.
    match type of H with (if ?c then _ else _) = _ => destruct c eqn:C; [|discriminate] end.
    cbn [forallb] in C. rewrite !andb_true_iff in C. destruct C as ((C & E1) & E2).
    repeat match goal with K : _ /\ _ |- _ => destruct K end.
    apply N.eqb_eq in E1, E2. injection H as <-.
    match goal with |- context [date_ok (num [?a; ?b; ?c; ?d]) (num [?f; ?g]) (num [?i; ?j])] =>
      destruct (num_four a b c d) as [F1 F2]; try assumption; destruct (num_two f g) as [G1 G2]; try assumption; destruct (num_two i j) as [I1 I2]; try assumption;
      exists (num [a; b; c; d]), (num [f; g]), (num [i; j]), s end.
    split; [unfold dotted_text; rewrite F1, G1, I1, E1, E2; reflexivity|]. auto.
  - intros (y & m & d & q & -> & Y & Mb & Db & ->).
    change (firstn 10 (dotted_text y m d ++ q)) with (dotted_text y m d). unfold dotted_text.
    pose proof (four_digits y Y) as F1. pose proof (two_digits m Mb) as F2. pose proof (two_digits d Db) as F3.
    pose proof (four_num y Y) as N1. pose proof (two_num m Mb) as N2. pose proof (two_num d Db) as N3.
    destruct (four y) as [|a [|b [|c [|e [|? ?]]]]] eqn:Q1; try discriminate. destruct (two m) as [|f [|g [|? ?]]] eqn:Q2; try discriminate.
    destruct (two d) as [|i [|j [|? ?]]] eqn:Q3; try discriminate.
    change (str ".") with [46]. cbn [app]. unfold dotted. rewrite N1, N2, N3.
    cbn [forallb] in *. rewrite !andb_true_iff in *. repeat match goal with K : _ /\ _ |- _ => destruct K end.
    repeat match goal with K : digit _ = true |- _ => rewrite K; clear K end. reflexivity.
Qed.

(** * The search *)
Lemma app_cut (A : Type) (u s p r : list A) : u ++ s = p ++ r -> length p = length u -> p = u /\ r = s.
Proof. intros E L. revert p L E. induction u as [|x u IH]; intros [|y p] L E; try discriminate; [auto|]. injection E as -> E. injection L as L. destruct (IH p L E) as [-> ->]. auto. Qed.
Lemma dashed_here u s x : dashed (prior u) (firstn 15 s) = Some x <-> exists y m d hh mm, dashed_at (u ++ s) (length u) y m d hh mm /\ x = unix_time y m d hh mm.
Proof.
  rewrite dashed_some. split.
  - intros (y & m & d & hh & mm & q & -> & P & Y & D & HH & MM & ->). exists y, m, d, hh, mm. split; [|reflexivity]. exists u, q. auto 9.
  - intros (y & m & d & hh & mm & (p & q & E & L & P & Y & D & HH & MM) & ->). apply app_cut in E as [-> E]; [|exact L]. exists y, m, d, hh, mm, q. auto 9.
Qed.
Lemma dotted_here u s r : dotted (firstn 10 s) = Some r <-> exists y m d, dotted_at (u ++ s) (length u) y m d /\ r = if date_ok y m d then Some (unix_time y m d 12 0) else None.
Proof.
  rewrite dotted_some. split.
  - intros (y & m & d & q & -> & Y & Mb & Db & ->). exists y, m, d. split; [|reflexivity]. exists u, q. auto 9.
  - intros (y & m & d & (p & q & E & L & Y & Mb & Db) & ->). apply app_cut in E as [-> E]; [|exact L]. exists y, m, d, q. auto 9.
Qed.
Lemma dashed_at_end path y m d hh mm : ~ dashed_at path (length path) y m d hh mm.
Proof. intros (p & q & E & L & _). rewrite E, !app_length in L. cbn in L. lia. Qed.
Lemma dotted_at_end path y m d : ~ dotted_at path (length path) y m d.
Proof. intros (p & q & E & L & _). rewrite E, !app_length in L. cbn in L. lia. Qed.
Lemma dashed_at_len path a y m d hh mm : dashed_at path a y m d hh mm -> (a < length path)%nat.
Proof. intros (p & q & E & L & _). rewrite E, !app_length. cbn. lia. Qed.
Lemma dotted_at_len path a y m d : dotted_at path a y m d -> (a < length path)%nat.
Proof. intros (p & q & E & L & _). rewrite E, !app_length. cbn. lia. Qed.
Definition first_dashed (path : bytes) (k : nat) (x : f64) : Prop := exists a y m d hh mm,
  (k <= a)%nat /\ dashed_at path a y m d hh mm /\ x = unix_time y m d hh mm /\ forall a' y' m' d' hh' mm', (k <= a' < a)%nat -> ~ dashed_at path a' y' m' d' hh' mm'.
Lemma scan_dashed_ok s : forall u, match scan_dashed (prior u) s with
  | Some x => first_dashed (u ++ s) (length u) x
  | None => forall a y m d hh mm, (length u <= a)%nat -> ~ dashed_at (u ++ s) a y m d hh mm end.
Proof.
  induction s as [|b s IH]; intros u; cbn [scan_dashed].
  - intros a y m d hh mm L D. apply dashed_at_len in D. rewrite app_nil_r in D. lia.
  - destruct (dashed (prior u) (firstn 15 (b :: s))) as [x|] eqn:W.
    + apply dashed_here in W as (y & m & d & hh & mm & D & ->). exists (length u), y, m, d, hh, mm. repeat split; auto. intros. lia.
    + specialize (IH (u ++ [b])). rewrite prior_snoc in IH. rewrite <- app_assoc in IH. cbn [app] in IH.
      assert (N0 : forall y m d hh mm, ~ dashed_at (u ++ b :: s) (length u) y m d hh mm).
      { intros y m d hh mm D. assert (K : dashed (prior u) (firstn 15 (b :: s)) = Some (unix_time y m d hh mm)) by (apply dashed_here; exists y, m, d, hh, mm; auto). congruence. }
      rewrite app_length in IH. cbn [length] in IH. destruct (scan_dashed (Some b) s) as [x|].
      * destruct IH as (a & y & m & d & hh & mm & L & D & E & F). exists a, y, m, d, hh, mm. split; [lia|]. split; [exact D|]. split; [exact E|].
        intros a' y' m' d' hh' mm' L'. destruct (Nat.eq_dec a' (length u)) as [->|Z]; [apply N0|]. apply F. lia.
      * intros a y m d hh mm L. destruct (Nat.eq_dec a (length u)) as [->|Z]; [apply N0|]. apply IH. lia.
Qed.
Definition first_dotted (path : bytes) (k : nat) (r : option f64) : Prop := exists a y m d,
  (k <= a)%nat /\ dotted_at path a y m d /\ r = (if date_ok y m d then Some (unix_time y m d 12 0) else None) /\ forall a' y' m' d', (k <= a' < a)%nat -> ~ dotted_at path a' y' m' d'.
Lemma scan_dotted_ok s : forall u, first_dotted (u ++ s) (length u) (scan_dotted s) \/ (scan_dotted s = None /\ forall a y m d, (length u <= a)%nat -> ~ dotted_at (u ++ s) a y m d).
Proof.
  induction s as [|b s IH]; intros u; cbn [scan_dotted].
  - right. split; [reflexivity|]. intros a y m d L D. apply dotted_at_len in D. rewrite app_nil_r in D. lia.
  - destruct (dotted (firstn 10 (b :: s))) as [x|] eqn:W.
    + left. apply (dotted_here u) in W as (y & m & d & D & ->). exists (length u), y, m, d. repeat split; auto. intros. lia.
    + specialize (IH (u ++ [b])). rewrite <- app_assoc in IH. cbn [app] in IH.
      assert (N0 : forall y m d, ~ dotted_at (u ++ b :: s) (length u) y m d).
      { intros y m d D. assert (K : dotted (firstn 10 (b :: s)) = Some (if date_ok y m d then Some (unix_time y m d 12 0) else None)) by (apply (dotted_here u); exists y, m, d; auto). congruence. }
      rewrite app_length in IH. cbn [length] in IH. destruct IH as [(a & y & m & d & L & D & E & F)|[E F]].
      * left. exists a, y, m, d. split; [lia|]. split; [exact D|]. split; [exact E|].
        intros a' y' m' d' L'. destruct (Nat.eq_dec a' (length u)) as [->|Z]; [apply N0|]. apply F. lia.
      * right. split; [exact E|]. intros a y m d L. destruct (Nat.eq_dec a (length u)) as [->|Z]; [apply N0|]. apply F. lia.
Qed.
Lemma four_inj a b : four a = four b -> a < 10000 -> b < 10000 -> a = b.
Proof. intros E A B. rewrite <- (four_num a A), E. apply four_num. exact B. Qed.
Lemma two_inj a b : two a = two b -> a < 100 -> b < 100 -> a = b.
Proof. intros E A B. rewrite <- (two_num a A), E. apply two_num. exact B. Qed.
Lemma dashed_at_time path a y m d hh mm y' m' d' hh' mm' : dashed_at path a y m d hh mm -> dashed_at path a y' m' d' hh' mm' -> (y, m, d, hh, mm) = (y', m', d', hh', mm').
Proof.
  intros (p & q & E & L & _ & Y & D & HH & MM) (p' & q' & E' & L' & _ & Y' & D' & HH' & MM').
  rewrite E in E'. apply app_cut in E' as [-> E']; [|lia]. destruct (date_bounds _ _ _ D), (date_bounds _ _ _ D').
  unfold dashed_text in E'. rewrite <- !app_assoc in E'.
  apply app_cut in E' as [F1 E']; [|reflexivity]. apply app_cut in E' as [_ E']; [|reflexivity]. apply app_cut in E' as [F2 E']; [|reflexivity].
  apply app_cut in E' as [_ E']; [|reflexivity]. apply app_cut in E' as [F3 E']; [|reflexivity]. apply app_cut in E' as [_ E']; [|reflexivity].
  apply app_cut in E' as [F4 E']; [|reflexivity]. apply app_cut in E' as [F5 E']; [|reflexivity].
  apply four_inj in F1; [|assumption|assumption]. apply two_inj in F2; [|assumption|assumption]. apply two_inj in F3; [|assumption|assumption].
  apply two_inj in F4; [|lia|lia]. apply two_inj in F5; [|lia|lia]. congruence.
Qed.
Lemma dotted_at_time path a y m d y' m' d' : dotted_at path a y m d -> dotted_at path a y' m' d' -> (y, m, d) = (y', m', d').
Proof.
  intros (p & q & E & L & Y & Mb & Db) (p' & q' & E' & L' & Y' & Mb' & Db').
  rewrite E in E'. apply app_cut in E' as [-> E']; [|lia]. unfold dotted_text in E'. rewrite <- !app_assoc in E'.
  apply app_cut in E' as [F1 E']; [|reflexivity]. apply app_cut in E' as [_ E']; [|reflexivity]. apply app_cut in E' as [F2 E']; [|reflexivity].
  apply app_cut in E' as [_ E']; [|reflexivity]. apply app_cut in E' as [F3 E']; [|reflexivity].
  apply four_inj in F1; [|assumption|assumption]. apply two_inj in F2; [|assumption|assumption]. apply two_inj in F3; [|assumption|assumption]. congruence.
Qed.
(** What [infer_timestamp] returns. *)
Lemma infer_ok path x : infer_timestamp path = Some x <->
  (exists a y m d hh mm, dashed_at path a y m d hh mm /\ (forall a' y' m' d' hh' mm', (a' < a)%nat -> ~ dashed_at path a' y' m' d' hh' mm') /\ at_time y m d hh mm x)
  \/ ((forall a y m d hh mm, ~ dashed_at path a y m d hh mm)
      /\ exists a y m d, dotted_at path a y m d /\ (forall a' y' m' d', (a' < a)%nat -> ~ dotted_at path a' y' m' d') /\ at_time y m d 12 0 x).
Proof.
  unfold infer_timestamp. pose proof (scan_dashed_ok path []) as S. cbn [app length] in S. change (prior []) with (@None N) in S.
  pose proof (scan_dotted_ok path []) as T. cbn [app length] in T. destruct (scan_dashed None path) as [z|] eqn:Z.
  - destruct S as (a & y & m & d & hh & mm & _ & D & E & F). split.
    + intros H. injection H as <-. left. exists a, y, m, d, hh, mm. split; [exact D|]. split; [intros; apply F; lia|].
      apply at_time_iff. split; [|exact E]. destruct D as (? & ? & _ & _ & _ & _ & D & _). exact D.
    + intros [(a' & y' & m' & d' & hh' & mm' & D' & F' & A')|[K _]]; [|exfalso; eapply K; exact D].
      assert (a = a') as <-. { destruct (Nat.lt_trichotomy a a') as [G|[G|G]]; [exfalso; eapply F'; eassumption|exact G|exfalso; eapply F; [|exact D']; lia]. }
      pose proof (dashed_at_time _ _ _ _ _ _ _ _ _ _ _ _ D D') as Q. injection Q as <- <- <- <- <-. apply at_time_iff in A' as [_ ->]. rewrite E. reflexivity.
  - split.
    + intros H. right. split; [intros; apply S; lia|]. destruct T as [(a & y & m & d & _ & D & E & F)|[E _]]; [|congruence].
      rewrite H in E. destruct (date_ok y m d) eqn:K; [|discriminate]. injection E as ->. exists a, y, m, d. split; [exact D|]. split; [intros; apply F; lia|].
      apply at_time_iff. apply date_iff in K. auto.
    + intros [(a & y & m & d & hh & mm & D & _)|[_ (a & y & m & d & D & F' & A)]]; [exfalso; eapply S; [|exact D]; lia|].
      apply at_time_iff in A as [A ->]. apply date_iff in A. destruct T as [(a' & y' & m' & d' & _ & D' & E & F)|[_ F]]; [|exfalso; eapply F; [|exact D]; lia].
      assert (a = a') as <-. { destruct (Nat.lt_trichotomy a a') as [G|[G|G]]; [exfalso; eapply F; [|exact D]; lia|exact G|exfalso; eapply F'; eassumption]. }
      pose proof (dotted_at_time _ _ _ _ _ _ _ _ D D') as Q. injection Q as <- <- <-. rewrite A in E. exact E.
Qed.
