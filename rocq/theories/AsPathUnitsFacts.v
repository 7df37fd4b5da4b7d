From Coq Require Import Sorting.Sorted ZifyBool Lia.
From Verif Require Import Tac Base BaseFacts Net AsPath AsPathSpec AsPathFacts AsPathUnitsSpec.

Lemma same_single_eq x y : same_single x y = true -> x = y.
Proof.
  destruct x as [c a|], y as [d b|]; try discriminate. cbn. intros H. apply andb_prop in H as [H1 H2].
  apply Bool.eqb_prop in H1. apply N.eqb_eq in H2. congruence.
Qed.
Lemma squeeze_cons2 a b l : squeeze (a :: b :: l) = if same_single a b then squeeze (b :: l) else a :: squeeze (b :: l).
Proof. reflexivity. Qed.
Lemma squeeze_head a l : exists l', squeeze (a :: l) = a :: l'.
Proof.
  revert a. induction l as [|b l IH]; intros a; [eexists; reflexivity|]. rewrite squeeze_cons2. destruct (same_single a b) eqn:E.
  - apply same_single_eq in E. subst. apply IH. - eexists. reflexivity.
Qed.
Lemma squeeze_id_cons x l : squeeze (squeeze (x :: l)) = squeeze (x :: l).
Proof.
  revert x. induction l as [|y l IH]; intros x; [reflexivity|]. rewrite squeeze_cons2. destruct (same_single x y) eqn:E; [apply IH|].
  destruct (squeeze_head y l) as [l' F]. pose proof (IH y) as G. rewrite F in *. rewrite squeeze_cons2, E. congruence.
Qed.
Lemma squeeze_idem l : squeeze (squeeze l) = squeeze l.
Proof. destruct l; [reflexivity|apply squeeze_id_cons]. Qed.
Lemma squeeze_cons_r x b : squeeze (x :: squeeze b) = squeeze (x :: b).
Proof.
  destruct b as [|y b]; [reflexivity|]. destruct (squeeze_head y b) as [l' E]. pose proof (squeeze_idem (y :: b)) as G. rewrite E in *.
  rewrite !squeeze_cons2. rewrite G, E. reflexivity.
Qed.
Lemma squeeze_app_r a b : squeeze (a ++ squeeze b) = squeeze (a ++ b).
Proof. induction a as [|x a IH]; cbn [app]; [apply squeeze_idem|]. rewrite <- squeeze_cons_r, IH. apply squeeze_cons_r. Qed.
Lemma squeeze_app_l a b : squeeze (squeeze a ++ b) = squeeze (a ++ b).
Proof.
  induction a as [|x a IH]; [reflexivity|]. destruct a as [|y a]; [reflexivity|]. rewrite squeeze_cons2. destruct (same_single x y) eqn:E.
  - rewrite IH. cbn [app]. rewrite squeeze_cons2, E. reflexivity.
  - cbn [app]. rewrite <- squeeze_cons_r, IH. apply squeeze_cons_r.
Qed.
Lemma squeeze_singles c l : squeeze (map (Single c) l) = map (Single c) (dedup l).
Proof.
  induction l as [|a l IH]; [reflexivity|]. destruct l as [|b l]; [reflexivity|]. cbn [map] in *. rewrite squeeze_cons2, dedup_cons2. cbn [same_single].
  rewrite Bool.eqb_reflx. cbn [andb]. destruct (a =? b); [exact IH|]. cbn [map]. rewrite IH. reflexivity.
Qed.
Lemma set_units_cases c l : (exists a, dedup (nsort l) = [a] /\ set_units c l = [Single c a]) \/
  (length (dedup (nsort l)) <> 1%nat /\ set_units c l = [Several c (dedup (nsort l))]).
Proof. unfold set_units. destruct (dedup (nsort l)) as [|a [|b x]]; [right|left|right]; eauto; split; auto; discriminate. Qed.
Lemma set_units_again c l : dedup (nsort l) = l -> length l <> 1%nat -> set_units c l = [Several c l].
Proof. intros E L. unfold set_units. rewrite E. destruct l as [|a [|b x]]; auto. elim L. reflexivity. Qed.
Lemma seg_dedup_units s : seg_units (seg_dedup s) = squeeze (seg_units s).
Proof.
  pose proof (seg_dedup_nseg s) as N. destruct s as [k l]. unfold seg_dedup, seg_units in *. cbn [s_kind s_asns] in *.
  destruct k; try (symmetry; apply squeeze_singles).
  all: match goal with |- _ = squeeze (set_units ?c ?x) => destruct (set_units_cases c x) as [(a & E & ->)|(E & ->)] end;
    [rewrite E; reflexivity|]. all: apply Nat.eqb_neq in E; rewrite E in *; cbn [s_kind s_asns] in *; destruct N as [N1 N2]; apply set_units_again; auto.
Qed.
Lemma dmerge_units x y m r : dmerge x y = Some m -> squeeze (seg_units m ++ r) = squeeze (seg_units x ++ seg_units y ++ r).
Proof.
  assert (He : forall s, is_empty_seq s = true -> seg_units s = []).
  { intros [k []]; unfold is_empty_seq; cbn; auto; destruct k; try discriminate; reflexivity. }
  assert (J : forall c a b, squeeze (map (Single c) (dedup (a ++ b)) ++ r) = squeeze (map (Single c) a ++ map (Single c) b ++ r)).
  { intros c a b. rewrite <- squeeze_singles, squeeze_app_l, map_app, app_assoc. reflexivity. }
  unfold dmerge. pose proof (He x) as Hx. pose proof (He y) as Hy. clear He.
  destruct x as [kx lx], y as [ky ly]; cbn [s_kind s_asns]; destruct kx, ky; intros H;
    try (inv H; exact (J _ _ _));
    destruct (is_empty_seq (Seg _ lx)); try (rewrite (Hx eq_refl); inv H; reflexivity);
    destruct (is_empty_seq (Seg _ ly)); try discriminate; rewrite (Hy eq_refl); inv H; reflexivity.
Qed.
Lemma squeeze_border c l v r : dedup l = l -> (forall a, v <> Single c a) -> squeeze (map (Single c) l ++ v :: r) = map (Single c) l ++ squeeze (v :: r).
Proof.
  intros D V. induction l as [|a l IH]; [reflexivity|]. destruct l as [|b l]; cbn [map app].
  - rewrite squeeze_cons2. destruct (same_single (Single c a) v) eqn:E; [|reflexivity]. apply same_single_eq in E. exfalso. apply (V a). auto.
  - rewrite dedup_cons2 in D. rewrite squeeze_cons2. cbn [same_single]. destruct (a =? b) eqn:E.
    + exfalso. destruct (dedup_head b l) as [l' F]. assert (length (dedup (b :: l)) = S (length (b :: l))) by (rewrite D; reflexivity).
      assert (G : forall x, (length (dedup x) <= length x)%nat).
      { clear. induction x as [|p x IH]; auto. destruct x as [|q x]; auto. rewrite dedup_cons2. destruct (p =? q); cbn [length] in *; lia. }
      pose proof (G (b :: l)). lia.
    + rewrite andb_false_r. f_equal. apply IH. congruence.
Qed.
Lemma nseg_units y : nseg y -> ~ empty_sequence y -> exists v t, seg_units y = v :: t /\
  (forall c a, v = Single c a -> s_kind y = if c then KCSeq else KSeq).
Proof.
  intros N E. destruct y as [k l]. unfold nseg, empty_sequence, seg_units in *. cbn [s_kind s_asns] in *.
  destruct k.
  1,3: destruct l as [|a l]; [elim E; auto|]; do 2 eexists; split; [reflexivity|]; intros c b [= <- <-]; reflexivity.
  all: destruct N as [N1 N2]; rewrite (set_units_again _ l N1 N2); do 2 eexists; split; [reflexivity|discriminate].
Qed.
Lemma irreducible_units x y r : nseg x -> nseg y -> irreducible x y -> squeeze (seg_units x ++ seg_units y ++ r) = seg_units x ++ squeeze (seg_units y ++ r).
Proof.
  intros Nx Ny (K & Ex & Ey). destruct (nseg_units y Ny Ey) as (v & t & -> & V). cbn [app].
  destruct x as [k l]. unfold nseg in Nx. cbn [seg_units s_kind s_asns] in *. unfold seg_units. cbn [s_kind s_asns]. destruct k.
  - apply squeeze_border; auto. intros a ->. apply K. rewrite (V _ _ eq_refl). auto.
  - destruct Nx as [N1 N2]. rewrite (set_units_again _ l N1 N2). reflexivity.
  - apply squeeze_border; auto. intros a ->. apply K. rewrite (V _ _ eq_refl). auto.
  - destruct Nx as [N1 N2]. rewrite (set_units_again _ l N1 N2). reflexivity.
Qed.
Lemma nseg_squeezed x : nseg x -> squeeze (seg_units x) = seg_units x.
Proof. intros H. rewrite <- seg_dedup_units, nseg_dedup by exact H. reflexivity. Qed.
Lemma coalesce_units l : forall cur, nseg cur -> units (coalesce_from dedup_merge_in_place cur l) = squeeze (seg_units cur ++ units l).
Proof.
  induction l as [|y l IH]; intros cur N; cbn [coalesce_from units flat_map].
  - rewrite !app_nil_r. symmetry. apply nseg_squeezed. exact N.
  - rewrite dedup_merge_eq. pose proof (seg_dedup_nseg y) as Ny. change (flat_map seg_units l) with (units l). destruct (dmerge cur (seg_dedup y)) as [m|] eqn:E.
    + rewrite IH by (eapply dmerge_nseg; eauto). rewrite (dmerge_units _ _ _ (units l) E), seg_dedup_units.
      rewrite <- (squeeze_app_r (seg_units cur) (squeeze _ ++ _)), squeeze_app_l, squeeze_app_r. reflexivity.
    + apply dmerge_none_iff in E. cbn [units flat_map]. change (flat_map seg_units ?z) with (units z). rewrite IH by exact Ny.
      rewrite <- (irreducible_units _ _ (units l) N Ny E), seg_dedup_units.
      rewrite <- (squeeze_app_r (seg_units cur) (squeeze _ ++ _)), squeeze_app_l, squeeze_app_r. reflexivity.
Qed.
Lemma dedup_coalesce_units p : units (dedup_coalesce p) = squeeze (units p).
Proof.
  destruct p as [|s p]; [reflexivity|]. cbn [dedup_coalesce]. rewrite coalesce_units by apply seg_dedup_nseg. rewrite seg_dedup_units, squeeze_app_l. reflexivity.
Qed.
Lemma seg_equiv_units a b : seg_equiv a b -> seg_units a = seg_units b.
Proof.
  destruct a as [k l], b as [k' l']. unfold seg_equiv, seg_units. cbn [s_kind s_asns]. intros [<- H].
  destruct k; try (rewrite H; reflexivity); unfold set_units; rewrite (nsort_perm_eq _ _ H); reflexivity.
Qed.
Lemma path_equiv_units p q : path_equiv p q -> units p = units q.
Proof. unfold units. induction 1 as [|a b p q H _ IH]; [reflexivity|]. cbn [flat_map]. rewrite IH, (seg_equiv_units _ _ H). reflexivity. Qed.
Definition starts_off (c : bool) (l : list unit_) : Prop := match l with Single d _ :: _ => d <> c | _ => True end.
Lemma singles_split c l l' a b : starts_off c a -> starts_off c b -> map (Single c) l ++ a = map (Single c) l' ++ b -> l = l' /\ a = b.
Proof.
  revert l'. induction l as [|x l IH]; intros [|y l'] A B H; cbn [map app] in H; auto.
  - subst a. elim A. reflexivity. - subst b. elim B. reflexivity.
  - assert (x = y /\ map (Single c) l ++ a = map (Single c) l' ++ b) as [-> H'] by (split; congruence). destruct (IH _ A B H') as [-> ->]. auto.
Qed.
Lemma units_off (c : bool) x l : Forall nseg l -> Sorted irreducible (x :: l) -> s_kind x = (if c then KCSeq else KSeq) -> starts_off c (units l).
Proof.
  intros F S K. destruct l as [|y l]; [exact I|]. inv F. inv S. inv H4. destruct H0 as (H0 & _ & Ey). destruct (nseg_units y H1 Ey) as (v & t & E & V).
  unfold units. cbn [flat_map]. rewrite E. cbn [app starts_off]. destruct v as [d a|]; auto. intros ->. pose proof (V _ _ eq_refl) as Ky. apply H0. rewrite K, Ky. destruct c; auto.
Qed.
Definition no_empty (p : aspath) : Prop := Forall (fun s => ~ empty_sequence s) p.
Lemma units_inj p : forall q, Forall nseg p -> Forall nseg q -> no_empty p -> no_empty q -> Sorted irreducible p -> Sorted irreducible q -> units p = units q -> p = q.
Proof.
  induction p as [|x p IH]; intros [|y q] Np Nq Ep Eq Sp Sq H; auto.
  - exfalso. inv Nq. inv Eq. destruct (nseg_units y H2 H4) as (v & t & E & _). unfold units in H. cbn [flat_map] in H. rewrite E in H. discriminate.
  - exfalso. inv Np. inv Ep. destruct (nseg_units x H2 H4) as (v & t & E & _). unfold units in H. cbn [flat_map] in H. rewrite E in H. discriminate.
  - pose proof (Forall_inv_tail Np) as Np'. pose proof (Forall_inv_tail Nq) as Nq'. pose proof (Forall_inv_tail Ep) as Ep'. pose proof (Forall_inv_tail Eq) as Eq'.
    pose proof (Forall_inv Np) as Nx. pose proof (Forall_inv Nq) as Ny. apply Forall_inv in Ep, Eq. unfold units in H. cbn [flat_map] in H. change (flat_map seg_units ?z) with (units z) in H.
    assert (Sp' : Sorted irreducible p) by (inv Sp; auto). assert (Sq' : Sorted irreducible q) by (inv Sq; auto).
    assert (G : x = y /\ units p = units q); [|destruct G as [-> G]; f_equal; auto].
    destruct (nseg_units x Nx Ep) as (v & t & E & V). destruct (nseg_units y Ny Eq) as (w & t' & E' & W).
    assert (v = w) as <-. { rewrite E, E' in H. cbn [app] in H. congruence. }
    destruct v as [c a|c l].
    + pose proof (V _ _ eq_refl) as Kx. pose proof (W _ _ eq_refl) as Ky. destruct x as [kx lx], y as [ky ly]; cbn [s_kind] in *. subst kx ky.
      assert (U : forall z, seg_units (Seg (if c then KCSeq else KSeq) z) = map (Single c) z) by (intros z; destruct c; reflexivity). rewrite !U in H.
      apply singles_split in H; [destruct H as [-> H]; auto| |]; [eapply (units_off _ _ p Np' Sp)|eapply (units_off _ _ q Nq' Sq)]; reflexivity.
    + assert (K : forall s, nseg s -> forall r, seg_units s = Several c l :: r -> s = Seg (if c then KCSet else KSet) l /\ r = []).
      { intros [k m] Ns r. unfold seg_units, nseg in *. cbn [s_kind s_asns] in *. destruct k; try (destruct m; discriminate);
          destruct Ns as [N1 N2]; rewrite (set_units_again _ m N1 N2); intros [= <- <- <-]; auto. }
      destruct (K _ Nx _ E) as [-> ->]. destruct (K _ Ny _ E') as [-> ->]. rewrite E in H. cbn [app] in H. split; congruence.
Qed.
Lemma normal_shape p : Forall nseg (dedup_coalesce p) /\ Sorted irreducible (dedup_coalesce p).
Proof. destruct p as [|s p]; [split; constructor|]. destruct (dcoalesce_from (seg_dedup s) p (seg_dedup_nseg s)) as (H1 & H2 & _). auto. Qed.
Lemma normal_no_empty p : units p <> [] -> Sorted irreducible p -> no_empty p.
Proof.
  intros U S. destruct p as [|x [|y p]]; [constructor| |].
  - repeat constructor. intros [K E]. apply U. destruct x as [k l]; cbn [s_kind s_asns] in *. subst l. destruct K as [-> | ->]; reflexivity.
  - clear U. revert x y S. induction p as [|z p IH]; intros x y S; pose proof (Sorted_inv S) as [S1 S2]; inv S2; destruct H0 as (_ & Ex & Ey).
    + repeat constructor; assumption. + constructor; [exact Ex|]. apply IH. exact S1.
Qed.
Lemma squeeze_nil l : squeeze l = [] -> l = [].
Proof. destruct l as [|a l]; auto. intros H. destruct (squeeze_head a l) as [l' E]. congruence. Qed.
Lemma equiv_routing_units p q : units p <> [] -> (has_equivalent_routing p q = true <-> squeeze (units p) = squeeze (units q)).
Proof.
  intros U. unfold has_equivalent_routing. rewrite path_eqb_equiv. split; intros H.
  - apply path_equiv_units in H. rewrite !dedup_coalesce_units in H. exact H.
  - destruct (normal_shape p) as [P1 P2]. destruct (normal_shape q) as [Q1 Q2].
    assert (Up : units (dedup_coalesce p) <> []) by (rewrite dedup_coalesce_units; intros Z; apply squeeze_nil in Z; auto).
    assert (Uq : units (dedup_coalesce q) <> []) by (rewrite dedup_coalesce_units, <- H; intros Z; apply squeeze_nil in Z; auto).
    rewrite (units_inj (dedup_coalesce p) (dedup_coalesce q)); auto using normal_no_empty; [|rewrite !dedup_coalesce_units; exact H].
    apply path_equiv_refl.
Qed.
