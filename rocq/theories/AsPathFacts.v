(** Proofs about AS paths. *)
From Coq Require Import ZifyBool ZifyNat ZifyN Lia Permutation Sorting.Sorted.
From Verif Require Import Base BaseFacts Reader ReaderFacts Net NetFacts AsPath AsPathSpec.
Ltac Zify.zify_post_hook ::= Z.div_mod_to_equations.

(** * Coalescing *)
Ltac seg2 x y := destruct x as [[] [|? ?]], y as [[] [|? ?]].

Lemma merge_some_facts x y m : merge_in_place x y = Some m ->
  tagged [m] = tagged [x; y] /\ hops [m] = hops [x; y] /\ sets [m] = sets [x; y].
Proof.
  intros H. unfold tagged, hops, sets.
  destruct x as [kx lx], y as [ky ly].
  destruct kx, ky, lx, ly; unfold merge_in_place, is_empty_seq in H;
    cbn [s_kind s_asns is_seq_kind andb] in H; inv H;
    unfold seg_hops; cbn [flat_map s_kind s_asns filter map app];
    rewrite ?app_nil_r, ?map_app; auto.
Qed.

Lemma merge_none_iff x y : merge_in_place x y = None <-> irreducible x y.
Proof.
  unfold irreducible, empty_sequence.
  seg2 x y; unfold merge_in_place, is_empty_seq; cbn; split; intros; try discriminate;
    try (intuition (try congruence)); exfalso; intuition congruence.
Qed.

Lemma coalesce_from_pres {A} (f : aspath -> list A) (cur : seg) l :
  (forall p q, f (p ++ q) = f p ++ f q) ->
  (forall x y m, merge_in_place x y = Some m -> f [m] = f [x; y]) ->
  f (coalesce_from plain_merge cur l) = f (cur :: l).
Proof.
  intros Happ Hm. revert cur. induction l as [|y l IH]; intros cur; [reflexivity|].
  cbn [coalesce_from]. unfold plain_merge at 1.
  destruct (merge_in_place cur y) as [m|] eqn:E.
  - rewrite IH. apply Hm in E. change (m :: l) with ([m] ++ l).
    change (cur :: y :: l) with ([cur; y] ++ l). rewrite !Happ, E. auto.
  - change (cur :: coalesce_from plain_merge y l) with ([cur] ++ coalesce_from plain_merge y l).
    change (cur :: y :: l) with ([cur] ++ y :: l). rewrite !Happ, IH. auto.
Qed.

Lemma tagged_app p q : tagged (p ++ q) = tagged p ++ tagged q.
Proof. apply flat_map_app. Qed.
Lemma hops_app p q : hops (p ++ q) = hops p ++ hops q.
Proof. apply flat_map_app. Qed.
Lemma sets_app p q : sets (p ++ q) = sets p ++ sets q.
Proof. apply filter_app. Qed.

Lemma coalesce_tagged p : tagged (coalesce p) = tagged p.
Proof. destruct p; auto. apply coalesce_from_pres. apply tagged_app. intros; apply merge_some_facts; auto. Qed.
Lemma coalesce_hops p : hops (coalesce p) = hops p.
Proof. destruct p; auto. apply coalesce_from_pres. apply hops_app. intros; apply merge_some_facts; auto. Qed.
Lemma coalesce_sets p : sets (coalesce p) = sets p.
Proof. destruct p; auto. apply coalesce_from_pres. apply sets_app. intros; apply merge_some_facts; auto. Qed.

Lemma route_len_hops p : route_len p = length (hops p).
Proof.
  unfold route_len, hops. induction p as [|s p IH]; [reflexivity|].
  cbn [map list_sum fold_right flat_map]. rewrite app_length. unfold list_sum in IH. rewrite IH. f_equal.
  unfold seg_route_len, seg_hops. destruct (s_kind s); simpl; auto. rewrite map_length; auto.
Qed.

Lemma asns_tagged p : asns p = map snd (tagged p).
Proof.
  unfold asns, tagged. induction p; simpl; auto. rewrite map_app, IHp. f_equal.
  rewrite map_map. simpl. rewrite map_id. auto.
Qed.

Lemma coalesce_from_head mg cur l : exists c l', coalesce_from mg cur l = c :: l'.
Proof.
  revert cur. induction l as [|y l IH]; intros cur; cbn [coalesce_from]; eauto.
  destruct (mg cur y) as [[m|] y']; eauto.
Qed.

(** head of the result of [coalesce_from] relates to an earlier kept segment *)
Lemma coalesce_from_irred cur l :
  Sorted irreducible (coalesce_from plain_merge cur l) /\
  (forall z, irreducible z cur -> HdRel irreducible z (coalesce_from plain_merge cur l)).
Proof.
  revert cur. induction l as [|y l IH]; intros cur; cbn [coalesce_from].
  - split; [repeat constructor|]. intros; constructor; auto.
  - change (plain_merge cur y) with (merge_in_place cur y, y). destruct (merge_in_place cur y) as [m|] eqn:E.
    + destruct (IH m) as [H1 H2]. split; auto. intros z Hz. apply H2.
      destruct Hz as (Hz1 & Hz2 & Hz3). revert E. unfold irreducible, empty_sequence in *.
      seg2 cur y; unfold merge_in_place, is_empty_seq; cbn; intros H; inv H; cbn in *; intuition congruence.
    + apply merge_none_iff in E. destruct (IH y) as [H1 H2]. split.
      * constructor; auto.
      * intros; constructor; auto.
Qed.

Lemma coalesce_irreducible p : Sorted irreducible (coalesce p).
Proof. destruct p; [constructor|]. apply coalesce_from_irred. Qed.

Lemma coalesce_from_id cur l : Sorted irreducible (cur :: l) -> coalesce_from plain_merge cur l = cur :: l.
Proof.
  revert cur. induction l as [|y l IH]; intros cur H; [reflexivity|].
  cbn [coalesce_from]. unfold plain_merge at 1. inv H. inv H3.
  rewrite (proj2 (merge_none_iff cur y)) by auto. rewrite IH; auto.
Qed.
Lemma coalesce_id p : Sorted irreducible p -> coalesce p = p.
Proof. destruct p; auto. apply coalesce_from_id. Qed.
Lemma coalesce_idem p : coalesce (coalesce p) = coalesce p.
Proof. apply coalesce_id, coalesce_irreducible. Qed.

(** * The vector algorithm computes the fold *)
Lemma nth_error_mid {A} (l : list A) x r : nth_error (l ++ x :: r) (length l) = Some x.
Proof. rewrite nth_error_app2 by lia. rewrite Nat.sub_diag. reflexivity. Qed.
Lemma set_nth_mid l x r y : set_nth (length l) y (l ++ x :: r) = l ++ y :: r.
Proof. induction l; simpl; auto. rewrite IHl; auto. Qed.

Lemma coalesce_vec_spec mg junk fuel kept cur garbage todo :
  (length todo <= fuel)%nat ->
  coalesce_vec mg junk fuel (length kept) (length kept + 1 + length garbage) (kept ++ cur :: garbage ++ todo)
  = kept ++ coalesce_from mg cur todo.
Proof.
  revert kept cur garbage todo. induction fuel as [|f IH]; intros kept cur garbage todo Hf.
  - destruct todo; [|simpl in Hf; lia]. cbn [coalesce_vec coalesce_from]. rewrite app_nil_r.
    replace (S (length kept)) with (length (kept ++ [cur])) by (rewrite app_length; simpl; lia).
    change (kept ++ cur :: garbage) with (kept ++ [cur] ++ garbage). rewrite app_assoc.
    apply firstn_app_len.
  - cbn [coalesce_vec].
    destruct todo as [|y todo].
    + rewrite app_nil_r. destruct (Nat.ltb_spec (length kept + 1 + length garbage) (length (kept ++ cur :: garbage))) as [Hlt|_].
      { rewrite app_length in Hlt. simpl in Hlt. lia. }
      replace (S (length kept)) with (length (kept ++ [cur])) by (rewrite app_length; simpl; lia).
      change (kept ++ cur :: garbage) with (kept ++ [cur] ++ garbage). rewrite app_assoc.
      apply firstn_app_len.
    + destruct (Nat.ltb_spec (length kept + 1 + length garbage) (length (kept ++ cur :: garbage ++ y :: todo))) as [_|Hge].
      2:{ rewrite app_length in Hge. cbn [length] in Hge. rewrite app_length in Hge. cbn [length] in Hge. lia. }
      rewrite nth_error_mid.
      assert (Esc : (length kept + 1 + length garbage)%nat = length (kept ++ cur :: garbage)).
      { rewrite app_length. simpl. lia. }
      rewrite Esc. 
      assert (Ev : kept ++ cur :: garbage ++ y :: todo = (kept ++ cur :: garbage) ++ y :: todo).
      { rewrite <- app_assoc. reflexivity. }
      rewrite Ev at 1. rewrite nth_error_mid. cbn [coalesce_from].
      destruct (mg cur y) as [[m|] y'] eqn:Em.
      * rewrite set_nth_mid.
        assert (Esc2 : length (kept ++ cur :: garbage) = length (kept ++ m :: garbage)) by (rewrite !app_length; auto).
        rewrite Esc2. rewrite app_comm_cons, app_assoc, set_nth_mid.
        rewrite <- app_assoc. cbn [app].
        replace (garbage ++ junk cur y :: todo) with ((garbage ++ [junk cur y]) ++ todo) by (rewrite <- app_assoc; auto).
        replace (S (length (kept ++ m :: garbage))) with (length kept + 1 + length (garbage ++ [junk cur y]))%nat.
        2:{ rewrite !app_length. simpl. lia. }
        apply IH. simpl in Hf; lia.
      * rewrite Ev, set_nth_mid. simpl in Hf.
        destruct garbage as [|g gs].
        -- assert (Esw : swap_nth (S (length kept)) (length (kept ++ [cur])) ((kept ++ [cur]) ++ y' :: todo)
                         = (kept ++ [cur]) ++ y' :: todo).
           { unfold swap_nth. replace (S (length kept)) with (length (kept ++ [cur])) by (rewrite app_length; simpl; lia).
             rewrite nth_error_mid, !set_nth_mid. auto. }
           rewrite Esw. 
           replace (S (length kept)) with (length (kept ++ [cur])) by (rewrite app_length; simpl; lia).
           specialize (IH (kept ++ [cur]) y' [] todo). cbn [app length] in IH.
           replace (S (length (kept ++ [cur]))) with (length (kept ++ [cur]) + 1 + 0)%nat by lia.
           rewrite IH by lia. rewrite <- app_assoc. reflexivity.
        -- assert (Esw : swap_nth (S (length kept)) (length (kept ++ cur :: g :: gs)) ((kept ++ cur :: g :: gs) ++ y' :: todo)
                         = (kept ++ [cur]) ++ y' :: (gs ++ [g]) ++ todo).
           { unfold swap_nth. rewrite nth_error_mid.
             replace (S (length kept)) with (length (kept ++ [cur])) by (rewrite app_length; simpl; lia).
             replace ((kept ++ cur :: g :: gs) ++ y' :: todo) with ((kept ++ [cur]) ++ g :: (gs ++ y' :: todo)) at 1.
             2:{ rewrite <- !app_assoc. reflexivity. }
             rewrite nth_error_mid. rewrite set_nth_mid.
             replace ((kept ++ cur :: g :: gs) ++ g :: todo) with ((kept ++ [cur]) ++ g :: (gs ++ g :: todo)).
             2:{ rewrite <- !app_assoc. reflexivity. }
             rewrite set_nth_mid. rewrite <- (app_assoc gs [g] todo). reflexivity. }
           rewrite Esw.
           replace (S (length (kept ++ cur :: g :: gs))) with (length (kept ++ [cur]) + 1 + length (gs ++ [g]))%nat.
           2:{ rewrite !app_length. simpl. lia. }
           replace (S (length kept)) with (length (kept ++ [cur])) by (rewrite app_length; simpl; lia).
           rewrite IH by lia. rewrite <- app_assoc. reflexivity.
Qed.

Lemma coalesce_vec_eq junk p : coalesce_vec plain_merge junk (length p) 0 1 p = coalesce p.
Proof.
  destruct p as [|s p]; [reflexivity|].
  apply (coalesce_vec_spec plain_merge junk (length (s :: p)) [] s [] p). simpl; lia.
Qed.
Definition dedup_first (p : aspath) : aspath :=
  match p with [] => [] | s :: p' => seg_dedup s :: p' end.
Lemma dedup_coalesce_vec_eq junk p :
  coalesce_vec dedup_merge_in_place junk (length p) 0 1 (dedup_first p) = dedup_coalesce p.
Proof.
  destruct p as [|s p]; [reflexivity|].
  apply (coalesce_vec_spec dedup_merge_in_place junk (length (s :: p)) [] (seg_dedup s) [] p). simpl; lia.
Qed.

(** * Sorting and dedup *)
Lemma insert_perm a l : Permutation (a :: l) (insert a l).
Proof.
  induction l; simpl; auto. destruct (a <=? a0); auto.
  eapply perm_trans; [apply perm_swap|]. constructor. auto.
Qed.
Lemma nsort_perm l : Permutation l (nsort l).
Proof. induction l; simpl; auto. eapply perm_trans; [|apply insert_perm]. constructor; auto. Qed.
Lemma nsort_length l : length (nsort l) = length l.
Proof. symmetry. apply Permutation_length, nsort_perm. Qed.
Lemma insert_comm a b l : insert a (insert b l) = insert b (insert a l).
Proof.
  induction l as [|c l IH]; simpl.
  - destruct (a <=? b) eqn:E1, (b <=? a) eqn:E2; auto; try lia. assert (a = b) by lia. subst; auto.
  - destruct (b <=? c) eqn:E1, (a <=? c) eqn:E2; simpl; rewrite ?E1, ?E2.
    + destruct (a <=? b) eqn:E3, (b <=? a) eqn:E4; auto; try lia. assert (a = b) by lia. subst; auto.
    + destruct (a <=? b) eqn:E3; auto; lia.
    + destruct (b <=? a) eqn:E3; auto; lia.
    + rewrite IH; auto.
Qed.
Lemma nsort_perm_eq l l' : Permutation l l' -> nsort l = nsort l'.
Proof.
  induction 1; simpl; auto. congruence. apply insert_comm. congruence.
Qed.
Lemma nsort_eq_perm l l' : nsort l = nsort l' -> Permutation l l'.
Proof.
  intros H. eapply perm_trans; [apply nsort_perm|]. rewrite H. symmetry. apply nsort_perm.
Qed.
Lemma asns_eqb_eq a b : asns_eqb a b = true <-> a = b.
Proof.
  revert b; induction a; intros [|y b]; simpl; split; intros H; try discriminate; auto.
  - apply andb_true_iff in H as [H1 H2]. apply N.eqb_eq in H1. apply IHa in H2. congruence.
  - inv H. rewrite N.eqb_refl. simpl. apply IHa; auto.
Qed.
Lemma combine_eqb_eq (a b : list N) : length a = length b ->
  forallb (fun '(x, y) => x =? y) (combine a b) = true <-> a = b.
Proof.
  revert b; induction a; intros [|y b] Hl; simpl in *; try discriminate; split; intros H; auto.
  - apply andb_true_iff in H as [H1 H2]. apply N.eqb_eq in H1. apply IHa in H2; auto. congruence.
  - inv H. rewrite N.eqb_refl. simpl. apply IHa; auto.
Qed.
Lemma set_eqb_perm x y : set_eqb x y = true <-> Permutation x y.
Proof.
  unfold set_eqb. split.
  - destruct (Nat.eqb_spec (length x) (length y)) as [El|El]; cbn [negb]; [|discriminate].
    destruct (asns_eqb x y) eqn:E1.
    { intros _. apply asns_eqb_eq in E1. subst. auto. }
    destruct (Nat.leb (length x) 32); intros H.
    + apply asns_eqb_eq in H. apply nsort_eq_perm; auto.
    + apply combine_eqb_eq in H; [|rewrite !nsort_length; auto]. apply nsort_eq_perm; auto.
  - intros H. pose proof (Permutation_length H) as Hl. rewrite Hl, Nat.eqb_refl. cbn [negb].
    destruct (asns_eqb x y); auto. pose proof (nsort_perm_eq _ _ H) as Hs. rewrite <- Hl.
    destruct (Nat.leb (length x) 32).
    + apply asns_eqb_eq; auto.
    + apply combine_eqb_eq; auto. rewrite Hs; auto.
Qed.
Lemma seg_eqb_equiv a b : seg_eqb a b = true <-> seg_equiv a b.
Proof.
  unfold seg_eqb, seg_equiv. destruct a as [ka la], b as [kb lb]; cbn [s_kind s_asns].
  destruct ka, kb; rewrite ?asns_eqb_eq, ?set_eqb_perm; intuition congruence.
Qed.
Lemma path_eqb_equiv a b : path_eqb a b = true <-> path_equiv a b.
Proof.
  revert b; induction a as [|x a IH]; intros [|y b]; simpl; split; intros H; try discriminate; auto;
    try (inv H; fail).
  - constructor.
  - apply andb_true_iff in H as [H1 H2]. constructor; [apply seg_eqb_equiv|apply IH]; auto.
  - inv H. apply andb_true_iff. split; [apply seg_eqb_equiv|apply IH]; auto.
Qed.

Lemma seg_equiv_refl a : seg_equiv a a.
Proof. split; auto. destruct (s_kind a); auto. Qed.
Lemma seg_equiv_sym a b : seg_equiv a b -> seg_equiv b a.
Proof. intros [H1 H2]. split; auto. rewrite <- H1. destruct (s_kind a); auto; symmetry; auto. Qed.
Lemma seg_equiv_trans a b c : seg_equiv a b -> seg_equiv b c -> seg_equiv a c.
Proof.
  intros [H1 H2] [H3 H4]. split; [congruence|]. rewrite <- H1 in H4.
  destruct (s_kind a); try congruence; eapply perm_trans; eauto.
Qed.
Lemma path_equiv_refl a : path_equiv a a.
Proof. induction a; constructor; auto using seg_equiv_refl. Qed.
Lemma path_equiv_sym a b : path_equiv a b -> path_equiv b a.
Proof. induction 1; constructor; auto using seg_equiv_sym. Qed.
Lemma path_equiv_trans a b c : path_equiv a b -> path_equiv b c -> path_equiv a c.
Proof.
  intros H. revert c. induction H; intros c Hc; inv Hc; constructor; eauto using seg_equiv_trans.
  eapply IHForall2; auto.
Qed.

Lemma seg_hash_equiv a b : seg_equiv a b -> seg_hash a = seg_hash b.
Proof.
  destruct a as [ka la], b as [kb lb]. intros [H1 H2]; cbn [s_kind s_asns] in *. subst kb.
  unfold seg_hash; cbn [s_kind s_asns]. f_equal.
  destruct ka; cbn [is_seq_kind]; try congruence; apply nsort_perm_eq; auto.
Qed.
Lemma path_hash_equiv a b : path_equiv a b -> path_hash a = path_hash b.
Proof.
  intros H. unfold path_hash. f_equal.
  - unfold nlen. f_equal. induction H; simpl; auto.
  - induction H; cbn [flat_map]; auto. rewrite IHForall2, (seg_hash_equiv _ _ H); auto.
Qed.

(** * dedup *)
Lemma dedup_cons2 a b l : dedup (a :: b :: l) = if a =? b then dedup (b :: l) else a :: dedup (b :: l).
Proof. reflexivity. Qed.
Lemma dedup_head a l : exists l', dedup (a :: l) = a :: l'.
Proof.
  revert a; induction l as [|b l IH]; intros a.
  - exists []; auto.
  - rewrite dedup_cons2. destruct (N.eqb_spec a b) as [->|]; eauto.
Qed.
Lemma dedup_idem l : dedup (dedup l) = dedup l.
Proof.
  induction l as [|a l IH]; auto. destruct l as [|b l]; auto.
  rewrite dedup_cons2. destruct (N.eqb_spec a b) as [->|Hn]; auto.
  destruct (dedup_head b l) as [l' E]. rewrite E in *.
  rewrite dedup_cons2. destruct (N.eqb_spec a b); [contradiction|]. rewrite IH; auto.
Qed.
Lemma dedup_in a l : In a (dedup l) <-> In a l.
Proof.
  induction l as [|x l IH]; [tauto|]. destruct l as [|y l]; [tauto|].
  rewrite dedup_cons2. destruct (N.eqb_spec x y) as [->|Hn].
  - rewrite IH. simpl. tauto.
  - change (In a (x :: dedup (y :: l))) with (x = a \/ In a (dedup (y :: l))). rewrite IH. simpl; tauto.
Qed.
Lemma dedup_app_l a b : dedup (a ++ b) = dedup (dedup a ++ b).
Proof.
  induction a as [|x a IH]; auto. destruct a as [|y a]; auto.
  rewrite dedup_cons2. cbn [app] in *. rewrite dedup_cons2.
  destruct (N.eqb_spec x y) as [->|Hn]; auto.
  destruct (dedup_head y a) as [l' E]. rewrite E in *. cbn [app] in *.
  rewrite dedup_cons2. destruct (N.eqb_spec x y); [contradiction|]. rewrite IH; auto.
Qed.
Lemma dedup_cons_dedup x b : dedup (x :: b) = dedup (x :: dedup b).
Proof.
  destruct b as [|y b]; auto. destruct (dedup_head y b) as [l' E].
  rewrite dedup_cons2. rewrite E at 3. rewrite dedup_cons2. rewrite <- E, dedup_idem. auto.
Qed.
Lemma dedup_app_r a b : dedup (a ++ b) = dedup (a ++ dedup b).
Proof.
  induction a as [|x a IH]; [symmetry; apply dedup_idem|].
  cbn [app]. rewrite dedup_cons_dedup, IH, <- dedup_cons_dedup. auto.
Qed.
Lemma dedup_nil l : dedup l = [] <-> l = [].
Proof.
  split; intros H; [|subst; auto]. destruct l as [|a l]; auto.
  destruct (dedup_head a l) as [l' E]. congruence.
Qed.
Lemma dedup_repeat l1 a l2 : dedup (l1 ++ a :: a :: l2) = dedup (l1 ++ a :: l2).
Proof. rewrite dedup_app_r. rewrite dedup_cons2, N.eqb_refl. rewrite <- dedup_app_r. auto. Qed.

(** sorted lists stay sorted under dedup, so sets normalise in one step *)
Lemma insert_head_le a l : Sorted N.le l -> HdRel N.le a l -> insert a l = a :: l.
Proof. intros Hs Hh. destruct l; auto. inv Hh. simpl. destruct (a <=? n) eqn:E; auto. lia. Qed.
Lemma insert_sorted a l : Sorted N.le l -> Sorted N.le (insert a l).
Proof.
  induction l as [|b l IH]; intros H; simpl.
  - repeat constructor.
  - destruct (a <=? b) eqn:E.
    + constructor; auto. constructor. lia.
    + inv H. constructor; auto. destruct l as [|c l]; simpl.
      * constructor; lia.
      * destruct (a <=? c); constructor; try lia. inv H3; auto.
Qed.
Lemma nsort_sorted l : Sorted N.le (nsort l).
Proof. induction l; simpl; [constructor|]. apply insert_sorted; auto. Qed.
Lemma nsort_id l : Sorted N.le l -> nsort l = l.
Proof.
  induction l; intros H; simpl; auto. inv H. rewrite IHl by auto. apply insert_head_le; auto.
Qed.
Lemma dedup_sorted l : Sorted N.le l -> Sorted N.le (dedup l).
Proof.
  induction l as [|a l IH]; intros H; auto. destruct l as [|b l]; auto.
  inv H. rewrite dedup_cons2. destruct (a =? b); auto.
  constructor; auto. destruct (dedup_head b l) as [l' E]. rewrite E. inv H3; constructor; auto.
Qed.

(** A segment in normal form. *)
Definition nseg (s : seg) : Prop :=
  match s_kind s with
  | KSeq | KCSeq => dedup (s_asns s) = s_asns s
  | KSet | KCSet => dedup (nsort (s_asns s)) = s_asns s /\ length (s_asns s) <> 1%nat
  end.
Lemma seg_dedup_nseg s : nseg (seg_dedup s).
Proof.
  unfold seg_dedup, nseg. destruct s as [[] l]; cbn [s_kind s_asns].
  - apply dedup_idem.
  - destruct (Nat.eqb_spec (length (dedup (nsort l))) 1); cbn [s_kind s_asns].
    + apply dedup_idem.
    + split; auto. rewrite nsort_id by (apply dedup_sorted, nsort_sorted). apply dedup_idem.
  - apply dedup_idem.
  - destruct (Nat.eqb_spec (length (dedup (nsort l))) 1); cbn [s_kind s_asns].
    + apply dedup_idem.
    + split; auto. rewrite nsort_id by (apply dedup_sorted, nsort_sorted). apply dedup_idem.
Qed.
Lemma nseg_dedup s : nseg s -> seg_dedup s = s.
Proof.
  unfold seg_dedup, nseg. destruct s as [[] l]; cbn [s_kind s_asns].
  - congruence.
  - intros [H1 H2]. rewrite H1. destruct (Nat.eqb_spec (length l) 1); congruence.
  - congruence.
  - intros [H1 H2]. rewrite H1. destruct (Nat.eqb_spec (length l) 1); congruence.
Qed.

Definition dmerge (x y : seg) : option seg :=
  match s_kind x, s_kind y with
  | KSeq, KSeq => Some (Seg KSeq (dedup (s_asns x ++ s_asns y)))
  | KCSeq, KCSeq => Some (Seg KCSeq (dedup (s_asns x ++ s_asns y)))
  | _, _ => if is_empty_seq x then Some y else if is_empty_seq y then Some x else None
  end.
Lemma dedup_merge_eq x y : dedup_merge_in_place x y = (dmerge x (seg_dedup y), seg_dedup y).
Proof. reflexivity. Qed.
Lemma dmerge_none_iff x y : dmerge x y = None <-> irreducible x y.
Proof.
  rewrite <- merge_none_iff. unfold dmerge, merge_in_place.
  destruct (s_kind x), (s_kind y); split; intros; try discriminate; auto.
Qed.
Lemma dmerge_nseg x y m : dmerge x y = Some m -> nseg x -> nseg y -> nseg m.
Proof.
  unfold dmerge. destruct x as [kx lx], y as [ky ly]; cbn [s_kind s_asns].
  destruct kx, ky; intros H Hx Hy;
    try (inv H; unfold nseg; cbn [s_kind s_asns]; apply dedup_idem);
    destruct (is_empty_seq _); try (inv H; auto; fail);
    destruct (is_empty_seq _); inv H; auto.
Qed.
Lemma dmerge_irred z x y m : dmerge x y = Some m -> irreducible z x -> irreducible z m.
Proof.
  intros H (Hz1 & Hz2 & Hz3). unfold irreducible, empty_sequence in *.
  destruct x as [kx lx], y as [ky ly]; unfold dmerge in H; cbn [s_kind s_asns] in *.
  assert (Hd : forall l, lx <> [] -> dedup (lx ++ l) = [] -> False).
  { intros l Hl Hd. apply (proj1 (dedup_nil _)) in Hd. apply app_eq_nil in Hd as [Hd _]. auto. }
  destruct kx, ky, lx, ly; unfold is_empty_seq in H; cbn [is_seq_kind andb s_kind s_asns] in H; inv H;
    cbn [s_kind s_asns]; (split; [intuition congruence|split; [auto|]]);
    try (intuition congruence);
    intros [_ E]; first [eapply Hd; [|exact E]; discriminate | intuition congruence].
Qed.

Lemma dcoalesce_from cur l : nseg cur ->
  Forall nseg (coalesce_from dedup_merge_in_place cur l) /\
  Sorted irreducible (coalesce_from dedup_merge_in_place cur l) /\
  (forall z, irreducible z cur -> HdRel irreducible z (coalesce_from dedup_merge_in_place cur l)).
Proof.
  revert cur. induction l as [|y l IH]; intros cur Hc; cbn [coalesce_from].
  - split; [repeat constructor; auto|]. split; [repeat constructor|]. intros; constructor; auto.
  - rewrite dedup_merge_eq. pose proof (seg_dedup_nseg y) as Hy.
    destruct (dmerge cur (seg_dedup y)) as [m|] eqn:E.
    + destruct (IH m (dmerge_nseg _ _ _ E Hc Hy)) as (H1 & H2 & H3). repeat split; auto.
      intros z Hz. apply H3. eapply dmerge_irred; eauto.
    + apply dmerge_none_iff in E. destruct (IH _ Hy) as (H1 & H2 & H3). repeat split; auto.
Qed.
Lemma dcoalesce_from_id cur l : Forall nseg (cur :: l) -> Sorted irreducible (cur :: l) ->
  coalesce_from dedup_merge_in_place cur l = cur :: l.
Proof.
  revert cur. induction l as [|y l IH]; intros cur HF H; [reflexivity|].
  cbn [coalesce_from]. rewrite dedup_merge_eq. inv HF. inv H. inv H3. inv H5.
  rewrite nseg_dedup by auto.
  rewrite (proj2 (dmerge_none_iff cur y)) by auto. rewrite IH; auto.
Qed.
Lemma dedup_coalesce_idem p : dedup_coalesce (dedup_coalesce p) = dedup_coalesce p.
Proof.
  destruct p as [|s p]; auto. cbn [dedup_coalesce].
  destruct (dcoalesce_from (seg_dedup s) p (seg_dedup_nseg s)) as (H1 & H2 & _).
  destruct (coalesce_from dedup_merge_in_place (seg_dedup s) p) as [|c l]; auto.
  cbn [dedup_coalesce]. rewrite nseg_dedup by (inv H1; auto). apply dcoalesce_from_id; auto.
Qed.

Lemma seg_dedup_in a s : In a (s_asns (seg_dedup s)) <-> In a (s_asns s).
Proof.
  unfold seg_dedup. assert (Hs : In a (dedup (nsort (s_asns s))) <-> In a (s_asns s)).
  { rewrite dedup_in. split; apply Permutation_in; [symmetry|]; apply nsort_perm. }
  destruct (s_kind s); try (cbn [s_asns]; apply dedup_in);
    destruct (Nat.eqb _ _); cbn [s_asns]; auto.
Qed.
Lemma dmerge_in a x y m : dmerge x y = Some m -> (In a (s_asns m) <-> In a (s_asns x) \/ In a (s_asns y)).
Proof.
  assert (He : forall s, is_empty_seq s = true -> ~ In a (s_asns s)).
  { intros [k []]; unfold is_empty_seq; simpl; auto. destruct k; discriminate. }
  unfold dmerge. pose proof (He x) as Hx. pose proof (He y) as Hy. clear He.
  destruct (s_kind x), (s_kind y); intros H;
    try (assert (Hm : s_asns m = dedup (s_asns x ++ s_asns y)) by (destruct m; cbn [s_asns]; congruence);
         rewrite Hm, dedup_in, in_app_iff; tauto);
    destruct (is_empty_seq x); try (destruct (is_empty_seq y); try discriminate);
    try specialize (Hx eq_refl); try specialize (Hy eq_refl); inv H; cbn [s_asns]; rewrite ?dedup_in, ?in_app_iff; tauto.
Qed.
Lemma dcoalesce_from_in a cur l :
  In a (asns (coalesce_from dedup_merge_in_place cur l)) <-> In a (asns (cur :: l)).
Proof.
  revert cur. induction l as [|y l IH]; intros cur; [tauto|].
  cbn [coalesce_from]. rewrite dedup_merge_eq. unfold asns in *.
  destruct (dmerge cur (seg_dedup y)) as [m|] eqn:E.
  - rewrite IH. cbn [flat_map]. rewrite !in_app_iff, (dmerge_in a _ _ _ E), seg_dedup_in. tauto.
  - cbn [flat_map]. rewrite in_app_iff, IH. cbn [flat_map]. rewrite !in_app_iff, seg_dedup_in. tauto.
Qed.
Lemma dedup_coalesce_in a p : In a (asns (dedup_coalesce p)) <-> In a (asns p).
Proof.
  destruct p as [|s p]; [tauto|]. cbn [dedup_coalesce]. rewrite dcoalesce_from_in.
  unfold asns; cbn [flat_map]. rewrite !in_app_iff, seg_dedup_in. tauto.
Qed.

(** Only the deduplicated segments matter. *)
Lemma dcoalesce_from_map cur l l' : map seg_dedup l = map seg_dedup l' ->
  coalesce_from dedup_merge_in_place cur l = coalesce_from dedup_merge_in_place cur l'.
Proof.
  revert cur l'. induction l as [|y l IH]; intros cur [|y' l'] H; try discriminate; auto.
  cbn [map] in H. assert (Hy : seg_dedup y = seg_dedup y') by congruence.
  assert (Hl : map seg_dedup l = map seg_dedup l') by congruence.
  cbn [coalesce_from]. rewrite !dedup_merge_eq, Hy.
  destruct (dmerge cur (seg_dedup y')); [auto|]. rewrite (IH _ _ Hl); auto.
Qed.
Lemma dedup_coalesce_map p q : map seg_dedup p = map seg_dedup q -> dedup_coalesce p = dedup_coalesce q.
Proof.
  destruct p as [|s p], q as [|t q]; intros H; try discriminate; auto.
  cbn [map] in H. assert (Hy : seg_dedup s = seg_dedup t) by congruence.
  assert (Hl : map seg_dedup p = map seg_dedup q) by congruence.
  cbn [dedup_coalesce]. rewrite Hy. apply dcoalesce_from_map; auto.
Qed.

Lemma equiv_routing_refl p : has_equivalent_routing p p = true.
Proof. apply path_eqb_equiv, path_equiv_refl. Qed.
Lemma equiv_routing_of_eq p q : dedup_coalesce p = dedup_coalesce q -> has_equivalent_routing p q = true.
Proof. intros H. unfold has_equivalent_routing. rewrite H. apply path_eqb_equiv, path_equiv_refl. Qed.
Lemma equiv_routing_sym p q : has_equivalent_routing p q = true -> has_equivalent_routing q p = true.
Proof. unfold has_equivalent_routing. rewrite !path_eqb_equiv. apply path_equiv_sym. Qed.
Lemma equiv_routing_trans p q r : has_equivalent_routing p q = true -> has_equivalent_routing q r = true ->
  has_equivalent_routing p r = true.
Proof. unfold has_equivalent_routing. rewrite !path_eqb_equiv. apply path_equiv_trans. Qed.

Lemma prepend_ignored pre k l1 a l2 suf : k = KSeq \/ k = KCSeq ->
  has_equivalent_routing (pre ++ Seg k (l1 ++ a :: a :: l2) :: suf) (pre ++ Seg k (l1 ++ a :: l2) :: suf) = true.
Proof.
  intros Hk. apply equiv_routing_of_eq, dedup_coalesce_map. rewrite !map_app. f_equal. cbn [map]. f_equal.
  unfold seg_dedup. destruct Hk as [-> | ->]; cbn [s_kind s_asns]; rewrite dedup_repeat; auto.
Qed.
Lemma set_order_ignored pre k l l' suf : k = KSet \/ k = KCSet -> Permutation l l' ->
  has_equivalent_routing (pre ++ Seg k l :: suf) (pre ++ Seg k l' :: suf) = true.
Proof.
  intros Hk Hp. apply equiv_routing_of_eq, dedup_coalesce_map. rewrite !map_app. f_equal. cbn [map]. f_equal.
  unfold seg_dedup. destruct Hk as [-> | ->]; cbn [s_kind s_asns]; rewrite (nsort_perm_eq _ _ Hp); auto.
Qed.

Lemma dcoalesce_split cur k l1 l2 suf : k = KSeq \/ k = KCSeq ->
  coalesce_from dedup_merge_in_place cur (Seg k l1 :: Seg k l2 :: suf) =
  coalesce_from dedup_merge_in_place cur (Seg k (l1 ++ l2) :: suf).
Proof.
  intros Hk. cbn [coalesce_from]. rewrite !dedup_merge_eq.
  assert (E : forall x, seg_dedup (Seg k x) = Seg k (dedup x)) by (intros; destruct Hk as [-> | ->]; auto).
  rewrite !E. 
  assert (M : forall x y, dmerge (Seg k x) (Seg k y) = Some (Seg k (dedup (x ++ y)))) by (intros; destruct Hk as [-> | ->]; auto).
  destruct cur as [kc lc]. 
  assert (Hcase : kc = k \/ kc <> k) by (destruct kc, k; auto; right; discriminate).
  destruct Hcase as [-> | Hne].
  - rewrite !M. cbn [coalesce_from]. rewrite dedup_merge_eq, E, M.
    rewrite <- dedup_app_l, <- !dedup_app_r, <- app_assoc. 
    rewrite (dedup_app_r lc (l1 ++ l2)), (dedup_app_r lc (dedup l1 ++ l2)), <- dedup_app_l. auto.
  - assert (D : forall y, dmerge (Seg kc lc) (Seg k y) =
       if is_empty_seq (Seg kc lc) then Some (Seg k y) else if is_empty_seq (Seg k y) then Some (Seg kc lc) else None).
    { intros. unfold dmerge; cbn [s_kind]. destruct kc, k; auto; congruence. }
    rewrite !D. destruct (is_empty_seq (Seg kc lc)) eqn:Ec.
    + rewrite dedup_merge_eq, E, M. rewrite <- dedup_app_l, <- dedup_app_r. auto.
    + assert (Em : forall x, is_empty_seq (Seg k (dedup x)) = match x with [] => true | _ => false end).
      { intros x. unfold is_empty_seq; cbn [s_kind s_asns].
        replace (is_seq_kind k) with true by (destruct Hk as [-> | ->]; auto). cbn [andb].
        destruct x as [|a x]; auto. destruct (dedup_head a x) as [l' ->]. auto. }
      rewrite !Em. destruct l1 as [|a l1].
      * cbn [app]. cbn [coalesce_from]. rewrite dedup_merge_eq, E, D, Em. destruct l2; auto.
      * cbn [app]. rewrite M. 
        rewrite <- dedup_app_l, <- dedup_app_r. auto.
Qed.
Lemma coalesce_from_app mg cur l1 l2 l2' :
  (forall c, coalesce_from mg c l2 = coalesce_from mg c l2') ->
  coalesce_from mg cur (l1 ++ l2) = coalesce_from mg cur (l1 ++ l2').
Proof.
  intros H. revert cur. induction l1 as [|y l1 IH]; intros cur; cbn [app]; auto.
  cbn [coalesce_from]. destruct (mg cur y) as [[m|] y']; auto. rewrite IH; auto.
Qed.
Lemma split_ignored pre k l1 l2 suf : k = KSeq \/ k = KCSeq ->
  has_equivalent_routing (pre ++ Seg k l1 :: Seg k l2 :: suf) (pre ++ Seg k (l1 ++ l2) :: suf) = true.
Proof.
  intros Hk. apply equiv_routing_of_eq. destruct pre as [|s pre].
  - cbn [app dedup_coalesce].
    assert (E : forall x, seg_dedup (Seg k x) = Seg k (dedup x)) by (intros; destruct Hk as [-> | ->]; auto).
    rewrite !E. cbn [coalesce_from]. rewrite dedup_merge_eq, E.
    replace (dmerge (Seg k (dedup l1)) (Seg k (dedup l2))) with (Some (Seg k (dedup (l1 ++ l2)))).
    2:{ destruct Hk as [-> | ->]; unfold dmerge; cbn [s_kind s_asns]; rewrite <- dedup_app_l, <- dedup_app_r; auto. }
    auto.
  - cbn [app dedup_coalesce]. apply coalesce_from_app. intros c. apply dcoalesce_split; auto.
Qed.

(** * Merging AS_PATH and AS4_PATH *)
Lemma seg_hops_len s : length (seg_hops s) = seg_route_len s.
Proof. unfold seg_hops, seg_route_len. destruct (s_kind s); simpl; auto. apply map_length. Qed.

Lemma take_leading_spec n p : (n <= length (hops p))%nat ->
  exists l, take_leading n p = Ok l /\ hops l = firstn n (hops p).
Proof.
  revert n. induction p as [|s p IH]; intros n Hn.
  - exists []. destruct n; auto.
  - cbn [take_leading]. destruct n as [|n]; [exists []; auto|].
    change (hops (s :: p)) with (seg_hops s ++ hops p) in *. rewrite app_length, seg_hops_len in Hn.
    destruct (seg_route_len s) as [|k] eqn:Ek.
    + destruct (IH (S n)) as (l & -> & Hl); [lia|]. cbn [rbind]. eexists; split; eauto.
      assert (E0 : seg_hops s = []) by (apply length_zero_iff_nil; rewrite seg_hops_len; auto).
      change (hops (s :: l)) with (seg_hops s ++ hops l). rewrite E0. auto.
    + destruct (Nat.leb_spec (S k) (S n)).
      * destruct (IH (S n - S k)%nat) as (l & -> & Hl); [lia|]. cbn [rbind]. eexists; split; eauto.
        change (hops (s :: l)) with (seg_hops s ++ hops l). rewrite firstn_app, seg_hops_len, Ek, Hl.
        rewrite (@firstn_all2 _ (S n) (seg_hops s)) by (rewrite seg_hops_len; lia). auto.
      * assert (Hk : s_kind s = KSeq).
        { unfold seg_route_len in Ek. destruct (s_kind s); auto; try discriminate. lia. }
        rewrite Hk. replace (take_leading 0 p) with (@Ok (list seg) []) by (destruct p; auto).
        cbn [rbind]. eexists; split; eauto.
        unfold hops; cbn [flat_map]. rewrite app_nil_r. unfold seg_hops at 1; cbn [s_kind s_asns].
        unfold seg_hops at 1. rewrite Hk. rewrite firstn_app, map_length.
        replace (S n - length (s_asns s))%nat with 0%nat.
        2:{ unfold seg_route_len in Ek. rewrite Hk in Ek. lia. }
        rewrite firstn_O, app_nil_r. rewrite firstn_map. auto.
Qed.

Lemma take_leading_prefix n p l : take_leading n p = Ok l -> exists t, tagged p = tagged l ++ t.
Proof.
  revert n l. induction p as [|s p IH]; intros n l H; cbn [take_leading] in H.
  - inv H. exists []; auto.
  - change (tagged (s :: p)) with (map (pair (s_kind s)) (s_asns s) ++ tagged p).
    destruct n as [|n]; [inv H; eexists; reflexivity|].
    destruct (seg_route_len s) as [|k].
    + apply rbind_inv in H as (l' & H & E). apply IH in H as [t ->]. inv E. exists t.
      change (tagged (s :: l')) with (map (pair (s_kind s)) (s_asns s) ++ tagged l'). rewrite <- app_assoc; auto.
    + destruct (Nat.leb_spec (S k) (S n)).
      * apply rbind_inv in H as (l' & H & E). apply IH in H as [t ->]. inv E. exists t.
        change (tagged (s :: l')) with (map (pair (s_kind s)) (s_asns s) ++ tagged l'). rewrite <- app_assoc; auto.
      * destruct (s_kind s) eqn:Ek; try discriminate.
        replace (take_leading 0 p) with (@Ok (list seg) []) in H by (destruct p; auto). cbn [rbind] in H.
        assert (El : l = [Seg KSeq (firstn (S n) (s_asns s))]) by congruence. subst l.
        unfold tagged at 2. cbn [flat_map s_kind s_asns]. rewrite app_nil_r.
        exists (map (pair KSeq) (skipn (S n) (s_asns s)) ++ tagged p).
        rewrite app_assoc, <- map_app, firstn_skipn. auto.
Qed.

Lemma merge_as4_spec p q :
  if Nat.ltb (length (hops p)) (length (hops q)) then merge_aspath_as4path p q = Ok p
  else exists m, merge_aspath_as4path p q = Ok m /\
       hops m = firstn (length (hops p) - length (hops q)) (hops p) ++ hops q /\
       (exists lead rest, tagged p = lead ++ rest /\ tagged m = lead ++ tagged q) /\
       Sorted irreducible m.
Proof.
  unfold merge_aspath_as4path. rewrite !route_len_hops.
  destruct (Nat.ltb_spec (length (hops p)) (length (hops q))); auto.
  destruct (take_leading_spec (length (hops p) - length (hops q)) p) as (l & El & Hl); [lia|].
  rewrite El. cbn [rbind]. eexists; split; eauto. rewrite coalesce_hops, hops_app, Hl. split; auto.
  split. { apply take_leading_prefix in El as [t Et]. exists (tagged l), t. rewrite coalesce_tagged, tagged_app. auto. }
  apply coalesce_irreducible.
Qed.

(** * Routes *)
Definition nseq (s k : nat) : list N := map N.of_nat (seq s k).

Lemma nth_map_seq {A} (l : list A) d : map (fun i => nth i l d) (seq 0 (length l)) = l.
Proof.
  induction l as [|a l IH]; auto. cbn [length seq map]. cbn [nth]. f_equal.
  rewrite <- seq_shift, map_map. auto.
Qed.

Lemma seq_shift_map s k : seq s k = map (fun i => (s + i)%nat) (seq 0 k).
Proof.
  revert s. induction k; intros; cbn [seq map]; auto. rewrite Nat.add_0_r. f_equal.
  rewrite <- (seq_shift k 0), map_map, IHk. apply map_ext. intros; lia.
Qed.

Lemma flat_map_choices (l : list asn) (f : N -> list asn) m : l <> [] ->
  flat_map (fun r => map (fun a => a :: r) l) (map f (nseq 0 m)) =
  map (fun i => nth (N.to_nat (i mod nlen l)) l 0 :: f (i / nlen l)) (nseq 0 (m * length l)).
Proof.
  intros Hl. assert (Hlen : (0 < length l)%nat) by (destruct l; [congruence|simpl; lia]).
  induction m as [|m IH]; [reflexivity|].
  unfold nseq in *. rewrite seq_S, !map_app, flat_map_app, IH.
  replace (S m * length l)%nat with (m * length l + length l)%nat by lia.
  rewrite seq_app, !map_app. f_equal.
  cbn [map flat_map]. rewrite app_nil_r. cbn [Nat.add].
  rewrite <- (nth_map_seq l 0) at 1. rewrite map_map.
  assert (Esh : seq (m * length l) (length l) = map (fun i => (m * length l + i)%nat) (seq 0 (length l))).
  { apply seq_shift_map. }
  rewrite Esh, !map_map. apply map_ext_in. intros i Hi. apply in_seq in Hi.
  assert (E1 : N.of_nat (m * length l + i) mod nlen l = N.of_nat i).
  { unfold nlen. replace (N.of_nat (m * length l + i)) with (N.of_nat i + N.of_nat m * N.of_nat (length l)) by lia.
    rewrite N.mod_add by lia. apply N.mod_small. lia. }
  assert (E2 : N.of_nat (m * length l + i) / nlen l = N.of_nat m).
  { unfold nlen. replace (N.of_nat (m * length l + i)) with (N.of_nat i + N.of_nat m * N.of_nat (length l)) by lia.
    rewrite N.div_add by lia. rewrite N.div_small by lia. lia. }
  rewrite E1, E2, Nat2N.id. auto.
Qed.

Lemma numbered_all p : map (numbered_route p) (nseq 0 (N.to_nat (set_product p))) = all_routes p.
Proof.
  induction p as [|[k l] p IH]; [reflexivity|].
  destruct k; cbn [numbered_route all_routes set_product s_kind s_asns]; auto.
  - rewrite <- IH, map_map. auto.
  - rewrite <- IH. destruct l as [|a l].
    + change (nlen (@nil asn)) with 0. cbn. generalize (map (numbered_route p) (nseq 0 (N.to_nat (set_product p)))).
      intros l. induction l; auto.
    + rewrite flat_map_choices by discriminate. f_equal. f_equal.
      unfold nlen. lia.
Qed.

Lemma variations_ok p acc n : variations_from acc p = Ok n -> n = acc * set_product p.
Proof.
  revert acc. induction p as [|[k l] p IH]; intros acc H; cbn [variations_from set_product s_kind s_asns] in *.
  - inv H. lia.
  - destruct k; auto. cbv zeta in H. destruct (_ <? _); [|discriminate]. apply IH in H. lia.
Qed.
Lemma variations_np p acc : acc * set_product p < 2 ^ 64 -> (forall l, In (Seg KSet l) p -> l <> []) -> 
  variations_from acc p = Ok (acc * set_product p).
Proof.
  revert acc. induction p as [|[k l] p IH]; intros acc H Hne; cbn [variations_from set_product s_kind s_asns] in *.
  - f_equal; lia.
  - destruct k; try (apply IH; auto; intros; apply Hne; right; auto).
    cbv zeta.
    assert (Hp : 0 < set_product p).
    { clear -Hne. assert (Hne' : forall l, In (Seg KSet l) p -> l <> []) by (intros; apply Hne; right; auto).
      clear Hne l. induction p as [|[k l] p IH]; cbn [set_product]; [lia|].
      assert (0 < set_product p) by (apply IH; intros; apply Hne'; right; auto).
      destruct k; auto. assert (l <> []) by (apply Hne'; left; auto).
      assert (0 < nlen l) by (destruct l; [congruence|rewrite nlen_cons; lia]). nia. }
    destruct (acc * nlen l <? 2 ^ 64) eqn:E.
    + rewrite IH. f_equal; lia. lia. intros; apply Hne; right; auto.
    + apply N.ltb_ge in E. exfalso. nia.
Qed.

Lemma route_iter_map p total fuel n :
  (N.to_nat total - N.to_nat n < fuel)%nat ->
  route_iter fuel p total n = map (numbered_route p) (nseq (N.to_nat n) (N.to_nat total - N.to_nat n)).
Proof.
  revert n. induction fuel as [|f IH]; intros n Hf; [lia|].
  cbn [route_iter]. unfold route_iter_next. destruct (total <=? n) eqn:E.
  - replace (N.to_nat total - N.to_nat n)%nat with 0%nat by lia. reflexivity.
  - replace (N.to_nat total - N.to_nat n)%nat with (S (N.to_nat total - N.to_nat (n + 1))) by lia.
    unfold nseq in *. cbn [seq map]. rewrite N2Nat.id.
    assert (Erec : route_iter f p total (n + 1) = map (numbered_route p)
      (map N.of_nat (seq (S (N.to_nat n)) (N.to_nat total - N.to_nat (n + 1))))).
    { rewrite IH by lia. replace (N.to_nat (n + 1)) with (S (N.to_nat n)) by lia. auto. }
    destruct (N.eqb_spec n 0) as [->|]; [|rewrite Erec; auto].
    destruct p as [|[[] l] [|s p]]; try (rewrite Erec; reflexivity).
    rewrite Erec. cbn [numbered_route s_kind s_asns]. rewrite app_nil_r. auto.
Qed.

Lemma iter_routes_spec p rs : iter_routes p = Ok rs ->
  rs = all_routes p /\ num_route_variations p = Ok (nlen rs).
Proof.
  unfold iter_routes. intros H. apply rbind_inv in H as (total & Ht & H).
  assert (Hr : rs = route_iter (S (N.to_nat total)) p total 0) by congruence. clear H. subst rs.
  pose proof (variations_ok _ _ _ Ht) as E. rewrite N.mul_1_l in E. subst total.
  rewrite route_iter_map by lia. rewrite Nat.sub_0_r. 
  change (N.to_nat 0) with 0%nat. rewrite numbered_all.
  split; auto. rewrite Ht. f_equal.
  rewrite <- numbered_all. unfold nlen, nseq. rewrite !map_length, seq_length. lia.
Qed.

Lemma in_all_routes p r : In r (all_routes p) <-> is_route p r.
Proof.
  revert r. induction p as [|[k l] p IH]; intros r.
  - simpl. split; [intros [<-|[]]; constructor | intros H; inv H; auto].
  - destruct k; cbn [all_routes].
    + rewrite in_map_iff. split.
      * intros (x & <- & H). constructor. apply IH; auto.
      * intros H. inversion H; subst; [|match goal with Hk : _ \/ _ |- _ => destruct Hk; discriminate end]. eexists; split; eauto. apply IH; auto.
    + rewrite in_flat_map. split.
      * intros (x & Hx & H). apply in_map_iff in H as (a & <- & Ha). constructor; auto. apply IH; auto.
      * intros H. inversion H; subst; [|match goal with Hk : _ \/ _ |- _ => destruct Hk; discriminate end]. eexists. split; [apply IH; eassumption|].
        apply in_map_iff. eauto.
    + rewrite IH. split; [intros; constructor; auto|]. intros H; inversion H; subst; auto.
    + rewrite IH. split; [intros; constructor; auto|]. intros H; inversion H; subst; auto.
Qed.

Lemma is_route_length p r : is_route p r -> length r = route_len p.
Proof.
  rewrite route_len_hops. unfold hops. induction 1; cbn [flat_map]; auto.
  - rewrite !app_length, IHis_route. unfold seg_hops; cbn [s_kind s_asns]. rewrite map_length; auto.
  - cbn. rewrite IHis_route. auto.
  - destruct H as [-> | ->]; auto.
Qed.

(** * Wire codec *)
Lemma kind_of_code_code k : kind_of_code (kind_code k) = Some k.
Proof. destruct k; reflexivity. Qed.
Lemma kind_code_of n k : kind_of_code n = Some k -> kind_code k = n.
Proof.
  unfold kind_of_code. intros H.
  repeat match goal with
  | H : context [if ?x =? ?y then _ else _] |- _ => destruct (N.eqb_spec x y); [inv H; reflexivity|]
  end. discriminate.
Qed.

Lemma write_asns_ok l xs : Forall (asn_fits l) xs -> write_asns l xs = Ok (flat_map (encode_asn l) xs).
Proof.
  intros H. unfold write_asns.
  assert (E : rmap (fun a => match l with Bits32 => Ok (be 4 a) | Bits16 => _ <~ check_max a 65535 ;; Ok (be 2 a) end) xs
              = Ok (map (encode_asn l) xs)).
  { induction H as [|x xs Hx _ IH]; [reflexivity|]. cbn [rmap]. rewrite IH. destruct l; [|reflexivity].
    unfold check_max. simpl in Hx. destruct (65535 <? x) eqn:E; [lia|]. reflexivity. }
  rewrite E. cbn [rbind]. rewrite flat_map_concat_map. auto.
Qed.
Lemma write_asns_inv l xs b : write_asns l xs = Ok b -> b = flat_map (encode_asn l) xs /\
  (l = Bits16 -> Forall (asn_fits l) xs).
Proof.
  unfold write_asns. intros H. apply rbind_inv in H as (bs & H & E). inv E.
  apply rmap_ok in H. rewrite flat_map_concat_map. induction H; simpl; auto.
  destruct IHForall2 as [-> I2]. destruct l.
  - apply rbind_inv in H as (u & Hc & H). inv H. split; auto. intros _. constructor; auto.
    unfold check_max in Hc. simpl. destruct (65535 <? x) eqn:E; [discriminate|]. lia.
  - inv H. split; auto. discriminate.
Qed.

Definition seg_bytes (l : asn_len) (s : seg) : bytes :=
  be 1 (kind_code (s_kind s)) ++ be 1 (nlen (s_asns s)) ++ flat_map (encode_asn l) (s_asns s).

Lemma wire_seg_fits l s : wire_seg l s <-> (length (s_asns s) <= 255)%nat /\ Forall (asn_fits l) (s_asns s).
Proof. unfold wire_seg, asn_fits. destruct l; tauto. Qed.

Lemma encode_seg_ok l s : wire_seg l s -> encode_seg l s = Ok (seg_bytes l s).
Proof.
  intros H. apply wire_seg_fits in H as [H1 H2]. unfold encode_seg, check_max.
  destruct (255 <? nlen (s_asns s)) eqn:E; [unfold nlen in E; lia|].
  cbn [rbind]. rewrite write_asns_ok by auto. reflexivity.
Qed.
Lemma encode_seg_inv l s b : encode_seg l s = Ok b -> b = seg_bytes l s /\ (length (s_asns s) <= 255)%nat /\
  (l = Bits16 -> Forall (asn_fits l) (s_asns s)).
Proof.
  unfold encode_seg, check_max. destruct (255 <? nlen (s_asns s)) eqn:E; [discriminate|]. cbn [rbind].
  intros H. apply rbind_inv in H as (w & Hw & H). inv H. apply write_asns_inv in Hw as [-> Hw].
  repeat split; auto. unfold nlen in E; lia.
Qed.

Lemma parse_seg_bytes l s r : wire_seg l s -> parse_as_path_segment l (seg_bytes l s ++ r) = Ok (s, r).
Proof.
  intros H. apply wire_seg_fits in H as [H1 H2]. unfold parse_as_path_segment, seg_bytes.
  rewrite <- !app_assoc.
  rewrite (bind_ok _ _ _ _ _ (read_u8_be (kind_code (s_kind s)) _ ltac:(destruct (s_kind s); reflexivity))).
  rewrite (bind_ok _ _ _ _ _ (read_u8_be (nlen (s_asns s)) _ ltac:(unfold nlen; lia))).
  rewrite (bind_ok _ _ _ _ _ (eq_refl : remaining _ = Ok (_, _))).
  destruct (_ <? _) eqn:E.
  { rewrite app_length, flat_map_encode_asn_length in E. unfold nlen in E. lia. }
  rewrite (bind_ok _ _ _ _ _ (read_asns_be l (s_asns s) r H2)).
  rewrite kind_of_code_code. destruct s; reflexivity.
Qed.
Lemma parse_seg_inv l s x r : parse_as_path_segment l s = Ok (x, r) -> bytes_ok s ->
  s = seg_bytes l x ++ r /\ wire_seg l x.
Proof.
  unfold parse_as_path_segment. intros H Hs.
  apply bind_inv in H as (ty & s1 & H1 & H). apply read_be_inv_ok in H1 as (-> & Hty & Hs1); auto.
  apply bind_inv in H as (c & s2 & H1 & H). apply read_be_inv_ok in H1 as (-> & Hc & Hs2); auto.
  apply bind_inv in H as (rem & s3 & H1 & H). unfold remaining in H1. inv H1.
  destruct (_ <? _); [discriminate|].
  apply bind_inv in H as (path & s4 & H1 & H). apply read_asns_inv in H1 as (-> & Hf & Hn); auto.
  destruct (kind_of_code ty) as [k|] eqn:Ek; [|discriminate].
  apply ret_inv in H as [<- <-]. apply kind_code_of in Ek. subst ty c.
  unfold seg_bytes; cbn [s_kind s_asns]. rewrite <- !app_assoc. split; auto.
  apply wire_seg_fits; cbn [s_asns]. split; auto. change (256 ^ N.of_nat 1) with 256 in Hc. unfold nlen in Hc. lia.
Qed.

Lemma encode_path_ok l p : Forall (wire_seg l) p -> encode_as_path l p = Ok (flat_map (seg_bytes l) p).
Proof.
  intros H. unfold encode_as_path.
  assert (E : rmap (encode_seg l) p = Ok (map (seg_bytes l) p)).
  { induction H; simpl; auto. rewrite (encode_seg_ok l x), IHForall by auto. auto. }
  rewrite E. cbn [rbind]. rewrite flat_map_concat_map. auto.
Qed.
Lemma seg_bytes_nonempty l s : (0 < length (seg_bytes l s))%nat.
Proof. unfold seg_bytes. rewrite app_length, be_length. lia. Qed.

Lemma path_roundtrip l p : Forall (wire_seg l) p ->
  exists b, encode_as_path l p = Ok b /\ parse_as_path b l = Ok p.
Proof.
  intros H. eexists; split; [apply encode_path_ok; auto|].
  unfold parse_as_path. apply many_p_app with (Q := wire_seg l); auto.
  - intros; apply parse_seg_bytes; auto.
  - intros; apply seg_bytes_nonempty.
Qed.
Lemma path_parse_inv l s p : parse_as_path s l = Ok p -> bytes_ok s ->
  encode_as_path l p = Ok s /\ Forall (wire_seg l) p.
Proof.
  unfold parse_as_path. intros H Hs.
  apply many_p_inv with (enc := seg_bytes l) (Q := wire_seg l) in H as [-> H]; auto.
  - split; auto. apply encode_path_ok; auto.
  - intros. apply parse_seg_inv; auto.
Qed.
Lemma encode_path_fails l p : asn32 p -> (forall b, encode_as_path l p <> Ok b) <-> ~ Forall (wire_seg l) p.
Proof.
  intros H32. split.
  - intros H HF. apply (H (flat_map (seg_bytes l) p)). apply encode_path_ok; auto.
  - intros H b Hb. apply H. unfold encode_as_path in Hb. apply rbind_inv in Hb as (bs & Hb & _).
    apply rmap_ok in Hb. clear H. revert H32. unfold asn32. induction Hb; intros H32; constructor.
    + apply encode_seg_inv in H as (_ & H1 & H2). apply wire_seg_fits. split; auto.
      destruct l; auto. inv H32. auto.
    + apply IHHb. inv H32; auto.
Qed.
Lemma encode_path_np l p : np (encode_as_path l p).
Proof.
  unfold encode_as_path. apply np_rbind; [|intros; discriminate]. apply np_rmap. intros s _.
  unfold encode_seg. apply np_rbind.
  { unfold check_max. destruct (_ <? _); discriminate. }
  intros. apply np_rbind; [|intros; discriminate]. unfold write_asns.
  apply np_rbind; [|intros; discriminate]. apply np_rmap. intros x _. destruct l; try discriminate.
  apply np_rbind; [|intros; discriminate]. unfold check_max. destruct (_ <? _); discriminate.
Qed.
Lemma parse_seg_progress l s x r : parse_as_path_segment l s = Ok (x, r) -> (length r < length s)%nat.
Proof.
  unfold parse_as_path_segment. intros H.
  apply bind_inv in H as (ty & s1 & H1 & H). apply read_be_len in H1.
  apply bind_inv in H as (c & s2 & H2 & H). apply read_be_len in H2.
  apply bind_inv in H as (rem & s3 & H3 & H). unfold remaining in H3. inv H3.
  destruct (_ <? _); [discriminate|].
  apply bind_inv in H as (path & s4 & H4 & H). apply consumes_len in H4; [|auto with consumes].
  destruct (kind_of_code ty); [|discriminate]. apply ret_inv in H as [_ <-]. lia.
Qed.
Lemma npp_parse_seg l : npp (parse_as_path_segment l).
Proof.
  unfold parse_as_path_segment. repeat (apply npp_bind; auto with np; intros).
  destruct (_ <? _); auto with np. apply npp_bind; auto with np. intros. destruct (kind_of_code _); auto with np.
Qed.
Lemma parse_as_path_np s l : np (parse_as_path s l).
Proof.
  unfold parse_as_path. apply many_p_np; auto.
  - apply npp_parse_seg.
  - intros; eapply parse_seg_progress; eauto.
Qed.

(** * Accessors *)
Lemma last_opt_snoc {A} (l : list A) a : last_opt (l ++ [a]) = Some a.
Proof. unfold last_opt. rewrite rev_app_distr. auto. Qed.
Lemma last_opt_some {A} (l : list A) a : last_opt l = Some a -> exists l', l = l' ++ [a].
Proof.
  unfold last_opt. destruct (rev l) eqn:E; intros H; inv H.
  exists (rev l0). rewrite <- (rev_involutive l), E. auto.
Qed.
Lemma last_opt_none {A} (l : list A) : last_opt l = None -> l = [].
Proof.
  unfold last_opt. destruct (rev l) eqn:E; intros H; inv H.
  rewrite <- (rev_involutive l), E. auto.
Qed.
Lemma origin_iff p a : get_origin_opt p = Some a <-> iter_origins p = [a].
Proof.
  unfold get_origin_opt, iter_origins. destruct (last_opt p) as [[[] v]|]; try (split; discriminate).
  - destruct (last_opt v); split; intros H; inv H; auto.
  - destruct v as [|x [|y v]]; split; intros H; inv H; auto.
Qed.
Lemma is_route_app p q r s : is_route p r -> is_route q s -> is_route (p ++ q) (r ++ s).
Proof.
  induction 1; intros Hs; cbn [app]; auto.
  - rewrite <- app_assoc. constructor; auto.
  - constructor; auto.
  - constructor; auto.
Qed.
Lemma is_route_app_inv p q r : is_route (p ++ q) r -> exists r1 r2, r = r1 ++ r2 /\ is_route p r1 /\ is_route q r2.
Proof.
  revert r. induction p as [|[k l] p IH]; intros r H; cbn [app] in H.
  - exists [], r. repeat split; auto. constructor.
  - inversion H; subst.
    + destruct (IH _ H4) as (r1 & r2 & -> & H1 & H2). exists (l ++ r1), r2. rewrite app_assoc.
      repeat split; auto. constructor; auto.
    + destruct (IH _ H5) as (r1 & r2 & -> & H1 & H2). exists (a :: r1), r2.
      repeat split; auto. constructor; auto.
    + destruct (IH _ H5) as (r1 & r2 & -> & H1 & H2). exists r1, r2.
      repeat split; auto. constructor; auto.
Qed.
Lemma origins_sound p r : is_route p r -> iter_origins p <> [] ->
  exists a, last_opt r = Some a /\ In a (iter_origins p).
Proof.
  unfold iter_origins. intros Hr Ho.
  destruct (last_opt p) as [s|] eqn:E; [|congruence].
  apply last_opt_some in E as [p' ->].
  apply is_route_app_inv in Hr as (r1 & r2 & -> & _ & H2).
  destruct s as [[] v]; try congruence.
  - destruct (last_opt v) as [a|] eqn:Ev; [|congruence]. exists a. split; [|left; auto].
    apply last_opt_some in Ev as [v' ->].
    inversion H2; subst; [|match goal with Hk : _ \/ _ |- _ => destruct Hk; discriminate end].
    match goal with Hn : is_route [] _ |- _ => inversion Hn; subst end.
    rewrite app_nil_r, app_assoc. apply last_opt_snoc.
  - inversion H2; subst; [|match goal with Hk : _ \/ _ |- _ => destruct Hk; discriminate end].
    match goal with Hn : is_route [] _ |- _ => inversion Hn; subst end.
    exists a. split; auto. apply last_opt_snoc.
Qed.
Lemma some_route p : (forall l, In (Seg KSet l) p -> l <> []) -> exists r, is_route p r.
Proof.
  induction p as [|[k l] p IH]; intros H; [eexists; constructor|].
  destruct IH as [r Hr]. { intros; apply H; right; auto. }
  destruct k; try (eexists; constructor; eauto; fail).
  destruct l as [|a l]; [exfalso; apply (H []); auto; left; auto|].
  exists (a :: r). constructor; auto. left; auto.
Qed.
Lemma origins_complete p a : (forall l, In (Seg KSet l) p -> l <> []) -> In a (iter_origins p) ->
  exists r, is_route p r /\ last_opt r = Some a.
Proof.
  unfold iter_origins. intros Hne Ho.
  destruct (last_opt p) as [s|] eqn:E; [|destruct Ho].
  apply last_opt_some in E as [p' ->].
  destruct (some_route p') as [r Hr]. { intros; apply Hne, in_app_iff; auto. }
  destruct s as [[] v]; try (destruct Ho; fail).
  - destruct (last_opt v) as [b|] eqn:Ev; [|destruct Ho]. destruct Ho as [->|[]].
    apply last_opt_some in Ev as [v' ->]. exists (r ++ (v' ++ [a]) ++ []). split.
    + apply is_route_app; auto. constructor. constructor.
    + rewrite app_nil_r, app_assoc. apply last_opt_snoc.
  - exists (r ++ [a]). split; [|apply last_opt_snoc]. apply is_route_app; auto. constructor; auto. constructor.
Qed.
Lemma collector_first p a r : get_collector_opt p = Some a -> is_route p r -> exists r', r = a :: r'.
Proof.
  unfold get_collector_opt. destruct p as [|[[] l] p]; try discriminate.
  - destruct l as [|b l]; intros H Hr; inv H.
    inversion Hr; subst; [|match goal with Hk : _ \/ _ |- _ => destruct Hk; discriminate end].
    cbn [app]. eauto.
  - destruct l as [|b [|c l]]; intros H Hr; inv H.
    inversion Hr; subst; [|match goal with Hk : _ \/ _ |- _ => destruct Hk; discriminate end].
    match goal with Hi : In _ [_] |- _ => destruct Hi as [->|[]] end. eauto.
Qed.

Lemma u32_vec_rev_spec rs acc :
  u32_vec_rev false rs acc =
  if forallb (fun s => match seg_to_u32_vec_opt false s with Some _ => true | None => false end) rs
  then Some (acc ++ flat_map (fun s => rev (s_asns s)) rs) else None.
Proof.
  revert acc. induction rs as [|s rs IH]; intros acc; cbn [u32_vec_rev forallb flat_map].
  - rewrite app_nil_r; auto.
  - assert (E : forall v, seg_to_u32_vec_opt false s = Some v -> v = s_asns s).
    { unfold seg_to_u32_vec_opt. destruct s as [[] [|? [|]]]; simpl; intros v H; inv H; auto. }
    destruct (seg_to_u32_vec_opt false s) as [v|]; auto. rewrite (E v) by auto. cbn [andb].
    rewrite IH, <- app_assoc. auto.
Qed.
(** A segment with exactly one reading. *)
Definition plain_seg (s : seg) : Prop :=
  s_kind s = KSeq \/ (s_kind s = KSet /\ exists a, s_asns s = [a]).
Lemma plain_seg_iff s : (match seg_to_u32_vec_opt false s with Some _ => true | None => false end) = true <-> plain_seg s.
Proof.
  unfold plain_seg, seg_to_u32_vec_opt. destruct s as [[] [|a [|b l]]]; cbn [s_kind s_asns]; split; intros H; auto;
    try discriminate; try (right; eauto; fail); destruct H as [H|[H [x Hx]]]; discriminate.
Qed.
Lemma rev_flat_map_rev (p : aspath) : rev (flat_map (fun s => rev (s_asns s)) (rev p)) = asns p.
Proof.
  unfold asns. induction p as [|s p IH]; [reflexivity|]. cbn [rev]. rewrite flat_map_app, rev_app_distr, IH.
  cbn [flat_map]. rewrite app_nil_r, rev_involutive. auto.
Qed.
Lemma to_u32_iff p v : to_u32_vec_opt false p = Some v <-> v = asns p /\ v <> [] /\ Forall plain_seg p.
Proof.
  unfold to_u32_vec_opt. rewrite u32_vec_rev_spec. cbn [app]. rewrite <- (rev_flat_map_rev p).
  assert (Hf : forallb (fun s => match seg_to_u32_vec_opt false s with Some _ => true | None => false end) (rev p) = true
               <-> Forall plain_seg p).
  { rewrite forallb_forall, Forall_forall. split.
    - intros H x Hx. apply plain_seg_iff, H, in_rev. rewrite rev_involutive; auto.
    - intros H x Hx. apply plain_seg_iff, H, in_rev; auto. }
  destruct (forallb _ (rev p)).
  - destruct (flat_map _ (rev p)) as [|x l].
    + split; [discriminate|]. intros (-> & H & _). exfalso; apply H; auto.
    + split.
      * intros H. injection H as Hv. assert (Hv' : v = rev (x :: l)) by (symmetry; exact Hv). subst v.
        split; [reflexivity|]. split; [|tauto].
        intros H'. cbn [rev] in H'. apply app_eq_nil in H' as [_ H']. discriminate.
      * intros (-> & _). auto.
  - split; [discriminate|]. intros (_ & _ & H). apply Hf in H. discriminate.
Qed.
Lemma plain_routes p : Forall plain_seg p -> all_routes p = [asns p].
Proof.
  induction 1 as [|[k l] p H _ IH]; [reflexivity|]. destruct H as [H|[H [a Ha]]]; cbn [s_kind s_asns] in *; subst.
  - cbn [all_routes]. rewrite IH. reflexivity.
  - cbn [all_routes]. rewrite IH. reflexivity.
Qed.
Lemma contains_asn_iff p a : contains_asn p a = true <-> In a (asns p).
Proof.
  unfold contains_asn, asns. rewrite existsb_exists. split.
  - intros (x & Hx & E). apply N.eqb_eq in E. subst x. exact Hx.
  - intros H. exists a. rewrite N.eqb_refl; auto.
Qed.
Lemma required_len_iff p : required_asn_length p = Bits16 <-> Forall (fun a => a <= 65535) (asns p).
Proof.
  unfold required_asn_length, asns.
  assert (H32 : forall l, fold_left (fun a x => match a with
     | Bits16 => if x <=? 65535 then Bits16 else Bits32 | Bits32 => Bits32 end) l Bits32 = Bits32).
  { induction l; auto. }
  induction (flat_map s_asns p) as [|x l IH]; cbn [fold_left].
  - split; auto.
  - destruct (x <=? 65535) eqn:E.
    + rewrite IH. split; intros H; [constructor; auto; lia|inv H; auto].
    + rewrite H32. split; [discriminate|]. intros H; inv H. lia.
Qed.
