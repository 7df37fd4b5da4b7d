(** Proofs about recovery. *)
From Coq Require Import Lia ZifyBool ZifyNat ZifyN.
From Verif Require BodyErrFacts.
From Verif Require Import Base BaseFacts TableDumpFacts Reader ReaderFacts Net Community TableDump Stream Framing FramingFacts Bgp4mp MrtRecord MrtRecordFacts Elem ElemSpec ElemFacts Filter Iter IterSpec IterFacts Recovery RecoverySpec.

(** ** Sources *)
Lemma quiet_cons e s : quiet (e :: s) <-> (exists l, e = Data l) /\ quiet s.
Proof. unfold quiet. split; [intros H; split; [apply H; left; auto|intros; apply H; right; auto]|intros [A B] x [<-|I]; auto]. Qed.
Lemma quiet_no_fail s : quiet s -> no_fail s.
Proof. intros H I. destruct (H _ I) as (l & E). discriminate. Qed.
Lemma read_upto_split n s st g s' : read_upto n s = (st, g, s') ->
  match st with
  | Full => splitn n (sbytes s) = Some (g, sbytes s')
  | AtEof => splitn n (sbytes s) = None /\ g = sbytes s /\ sbytes s' = []
  | Failed => True
  end.
Proof.
  intros H. pose proof (read_upto_bytes _ _ _ _ _ H) as B. destruct st; [| |exact I].
  - pose proof (read_upto_full _ _ _ _ H) as L. rewrite B. apply splitn_app. exact L.
  - pose proof (read_upto_eof _ _ _ _ H) as (E & L). rewrite E, app_nil_r in B. rewrite B. split; [|auto].
    destruct (splitn n g) as [[a b]|] eqn:S; [|reflexivity]. apply splitn_some in S as (-> & S). rewrite app_length in L. lia.
Qed.
Lemma read_upto_fails n s st g s' : read_upto n s = (st, g, s') -> match st with Failed => (fails s' < fails s)%nat | _ => fails s' = fails s end.
Proof.
  revert n st g s'. induction s as [|e s IH]; intros n st g s' H; destruct n as [|n]; cbn [read_upto] in H; try (injection H as <- <- <-; reflexivity).
  destruct e.
  - destruct (Nat.leb (S n) (length l)). { injection H as <- <- <-. reflexivity. }
    destruct (read_upto (S n - length l) s) as [[st1 g1] s1] eqn:E. injection H as <- <- <-. apply IH in E. exact E.
  - apply IH in H. exact H.
  - injection H as <- <- <-. cbn [fails]. lia.
Qed.
Lemma read_upto_quiet n s st g s' : read_upto n s = (st, g, s') -> quiet s -> st <> Failed /\ quiet s'.
Proof.
  revert n st g s'. induction s as [|e s IH]; intros n st g s' H Q; destruct n as [|n]; cbn [read_upto] in H; try (injection H as <- <- <-; split; [discriminate|exact Q]).
  apply quiet_cons in Q as ((l & ->) & Q). destruct (Nat.leb (S n) (length l)). { injection H as <- <- <-. split; [discriminate|]. apply quiet_cons; eauto. }
  destruct (read_upto (S n - length l) s) as [[st1 g1] s1] eqn:E. injection H as <- <- <-. eapply IH; eauto.
Qed.
Lemma fill_split n s st g s' : fill n s = (st, g, s') ->
  match st with
  | Full => splitn n (sbytes s) = Some (g, sbytes s')
  | AtEof => (length g < n)%nat /\ g = sbytes s /\ sbytes s' = []
  | Failed => ~ quiet s /\ sbytes s = g ++ sbytes s'
  end /\ (quiet s -> quiet s').
Proof.
  assert (Z : forall l, splitn 0 l = Some ([], l)) by (destruct l; reflexivity).
  revert n st g s'. induction s as [|e s IH]; intros n st g s' H; destruct n as [|n]; cbn [fill] in H; try (injection H as <- <- <-; split; [apply Z|auto]).
  - injection H as <- <- <-. split; [|auto]. cbn. repeat split; lia.
  - destruct e.
    + destruct (Nat.leb_spec (S n) (length l)) as [L|L].
      * injection H as <- <- <-. split. 2: { intros Q. apply quiet_cons in Q as (_ & Q). apply quiet_cons; eauto. }
        cbn [sbytes]. rewrite splitn_ge by (rewrite app_length; lia). rewrite firstn_app, skipn_app. replace (S n - length l)%nat with 0%nat by lia. cbn [firstn skipn]. rewrite app_nil_r. reflexivity.
      * destruct (fill (S n - length l) s) as [[st1 g1] s1] eqn:E. injection H as <- <- <-. destruct (IH _ _ _ _ E) as (A & Q1). split. 2: { intros Q. apply quiet_cons in Q as (_ & Q). auto. }
        destruct st1; cbn [sbytes].
        -- apply splitn_some in A as (A1 & A2). rewrite A1, app_assoc. apply splitn_app. rewrite app_length. lia.
        -- destruct A as (A1 & -> & A2). rewrite app_length. repeat split; auto; lia.
        -- destruct A as (A1 & ->). rewrite app_assoc. split; auto. intros Q. apply quiet_cons in Q as (_ & Q). auto.
    + injection H as <- <- <-. split; [split; [|reflexivity]|]; intros Q; apply quiet_cons in Q as ((l & ?) & _); discriminate.
    + injection H as <- <- <-. split; [split; [|reflexivity]|]; intros Q; apply quiet_cons in Q as ((l & ?) & _); discriminate.
Qed.

(** Reading a header or a record is reading it from the bytes, unless the source failed. *)
Lemma header_flat s : match parse_common_header_s s with
  | HOk h hb s' => flat_header (sbytes s) = inl (h, hb, sbytes s') /\ fails s' = fails s /\ (quiet s -> quiet s')
  | HErr e c s' => (io_failure e s s' = false -> flat_header (sbytes s) = inr (e, c, sbytes s')) /\ (quiet s -> io_failure e s s' = false /\ quiet s') /\ (e = EEof -> io_failure e s s' = false)
  end.
Proof.
  unfold parse_common_header_s, flat_header, io_failure. destruct (read_upto 12 s) as [[st base] s1] eqn:E. pose proof (read_upto_split _ _ _ _ _ E) as A. pose proof (read_upto_fails _ _ _ _ _ E) as F. pose proof (read_upto_quiet _ _ _ _ _ E) as Q.
  destruct st.
  - rewrite A. destruct (split_header base) as [[[ts ty] sub] len]. destruct (negb (etype_known ty)); [split; [auto|split; [|discriminate]]; intros q; split; [reflexivity|apply Q; auto]|].
    destruct (ty =? ET_BGP4MP_ET); [|split; [auto|split; [auto|apply Q]]]. destruct (len <? 4); [split; [auto|split; [|discriminate]]; intros q; split; [reflexivity|apply Q; auto]|].
    destruct (read_upto 4 s1) as [[st us] s2] eqn:E2. pose proof (read_upto_split _ _ _ _ _ E2) as A2. pose proof (read_upto_fails _ _ _ _ _ E2) as F2. pose proof (read_upto_quiet _ _ _ _ _ E2) as Q2.
    assert (Qq : quiet s -> quiet s1) by (intros q; apply Q; auto).
    destruct st.
    + rewrite A2. split; [auto|split; [congruence|]]. intros q. apply Q2; auto.
    + destruct A2 as (A2 & A3 & A4). rewrite A2, A4. cbn [is_io andb]. rewrite F2, F, Nat.eqb_refl. split; [|split; [|reflexivity]].
      * intros _. f_equal. f_equal. f_equal. apply splitn_some in A as (A & _). rewrite A, A3. reflexivity.
      * intros q. split; [reflexivity|apply Q2; auto].
    + split. { intros H. cbn [is_io andb] in H. apply negb_false_iff, Nat.eqb_eq in H. lia. } split; [|discriminate]. intros q. destruct (Q2 (Qq q)). congruence.
  - destruct A as (A1 & A2 & A3). rewrite A1, A3, A2. cbn [is_io andb]. rewrite F, Nat.eqb_refl. split; [auto|split; [|reflexivity]]. intros q. split; [reflexivity|apply Q; auto].
  - split. { intros H. cbn [is_io andb] in H. apply negb_false_iff, Nat.eqb_eq in H. lia. } split; [|discriminate]. intros q. destruct (Q q). congruence.
Qed.
Lemma chunk_flat_any s : match chunk_mrt_record_s s with
  | CRec r s' => chunk_mrt_record (sbytes s) = FRec r (sbytes s') /\ (quiet s -> quiet s') /\ fails s' = fails s
  | CErr e h c s' => (io_failure e s s' = false -> chunk_mrt_record (sbytes s) = FErr e h c (sbytes s')) /\ (quiet s -> io_failure e s s' = false /\ quiet s')
  end.
Proof.
  unfold chunk_mrt_record_s. rewrite chunk_flat. unfold flat_chunk. pose proof (header_flat s) as H. pose proof (parse_header_bytes s _ eq_refl) as HB. destruct (parse_common_header_s s) as [h hb s1|e c s1].
  - destruct H as (-> & F1 & Q1). destruct HB as (HB & _). destruct (MAX_MRT_MESSAGE_LEN <? h_len h). { split; [auto|]. intros q. split; [reflexivity|auto]. }
    destruct (read_upto (N.to_nat (h_len h)) s1) as [[st body] s2] eqn:E. pose proof (read_upto_split _ _ _ _ _ E) as A. pose proof (read_upto_fails _ _ _ _ _ E) as F. pose proof (read_upto_quiet _ _ _ _ _ E) as Q. pose proof (read_upto_bytes _ _ _ _ _ E) as B.
    destruct st.
    + rewrite A. destruct (_ && _); [|split; [auto|split; [intros q; apply Q; auto|congruence]]].
      destruct (read_upto 4 s2) as [[st corr] s3] eqn:E2. pose proof (read_upto_split _ _ _ _ _ E2) as A2. pose proof (read_upto_fails _ _ _ _ _ E2) as F2. pose proof (read_upto_quiet _ _ _ _ _ E2) as Q2. pose proof (read_upto_bytes _ _ _ _ _ E2) as B2.
      assert (Qq : quiet s -> quiet s2) by (intros q; apply Q; auto).
      destruct st.
      * rewrite A2. split; [auto|split; [|congruence]]. intros q; apply Q2; auto.
      * destruct A2 as (A2 & A3 & A4). rewrite A2, A4. split; [intros _|].
        -- f_equal. rewrite HB, B, A3. rewrite <- ?app_assoc. reflexivity.
        -- intros q. split; [|apply Q2; auto]. unfold io_failure. cbn [is_io andb]. rewrite F2, F, F1, Nat.eqb_refl. reflexivity.
      * split. { unfold io_failure. intros H. cbn [is_io andb] in H. apply negb_false_iff, Nat.eqb_eq in H. lia. } intros q. destruct (Q2 (Qq q)). congruence.
    + destruct A as (A1 & A3 & A4). rewrite A1, A4. split; [intros _|].
      * f_equal. rewrite HB, A3. reflexivity.
      * intros q. split; [|apply Q; auto]. unfold io_failure. cbn [is_io andb]. rewrite F, F1, Nat.eqb_refl. reflexivity.
    + split. { unfold io_failure. intros H. cbn [is_io andb] in H. apply negb_false_iff, Nat.eqb_eq in H. lia. } intros q. destruct (Q (Q1 q)). congruence.
  - destruct H as (H & Q & X). destruct e; try (split; [intros K; rewrite (H K); reflexivity|exact Q]).
    specialize (X eq_refl). rewrite (H X). destruct c; (split; [reflexivity|]); [|exact Q]. intros q. split; [reflexivity|apply Q; auto].
Qed.
Lemma flat_err_some s e h c r : chunk_mrt_record s = FErr e h c r ->
  match c with
  | Some b => s = b ++ r /\ b <> [] /\ e <> EEofExpected
  | None => e = EEofExpected /\ s = [] /\ r = []
  end.
Proof.
  rewrite chunk_flat. unfold flat_chunk. pose proof (flat_header_bytes s) as HB. destruct (flat_header s) as [[[hd hb] s1]|[[e0 c0] r0]] eqn:E.
  - destruct HB as (-> & L). assert (hb <> []) by (destruct hb; cbn in L; [lia|discriminate]).
    destruct (_ <? _). { intros Q. injection Q as <- <- <- <-. split; [auto|split; [auto|discriminate]]. }
    assert (hb ++ s1 <> []) by (destruct hb; [congruence|discriminate]).
    destruct (splitn _ _) as [[body s2]|]. 2: { intros Q. injection Q as <- <- <- <-. rewrite app_nil_r. split; [auto|split; [auto|discriminate]]. }
    destruct (_ && _); [|discriminate]. destruct (splitn 4 s2) as [[corr s3]|]; [discriminate|]. intros Q. injection Q as <- <- <- <-. rewrite app_nil_r. split; [auto|split; [auto|discriminate]].
  - revert E. unfold flat_header. destruct (splitn 12 s) as [[base s1]|] eqn:E.
    + apply splitn_some in E as (-> & L). assert (base <> []) by (destruct base; cbn in L; [lia|discriminate]). assert (base ++ s1 <> []) by (destruct base; [congruence|discriminate]).
      destruct (split_header base) as [[[ts ty] sub] len]. destruct (negb _); [|destruct (_ =? _); [destruct (_ <? _); [|destruct (splitn 4 s1) as [[]|]; [discriminate|]]|discriminate]].
      all: intros Q; injection Q as <- <- <-.
      1,2: intros Q; injection Q as <- <- <- <-; split; [auto|split; [auto|discriminate]].
      destruct (base ++ s1) eqn:Z; [congruence|]. intros Q; injection Q as <- <- <- <-. rewrite app_nil_r. split; [auto|split; [auto|discriminate]].
    + intros Q; injection Q as <- <- <-. destruct s as [|b s].
      * intros Q. injection Q as <- <- <- <-. auto.
      * intros Q. injection Q as <- <- <- <-. rewrite app_nil_r. split; [auto|split; [discriminate|discriminate]].
Qed.

(** ** Windows *)
Lemma skipn_skipn {A} a b (l : list A) : skipn a (skipn b l) = skipn (a + b) l.
Proof. revert l. induction b as [|b IH]; intros l; [rewrite Nat.add_0_r; reflexivity|]. destruct l as [|x l]; [rewrite !skipn_nil; reflexivity|]. rewrite Nat.add_succ_r. cbn [skipn]. apply IH. Qed.
Definition content (w : window) : bytes := w_data w ++ sbytes (w_inner w).
Definition okw (w : window) : Prop := (w_cursor w <= length (w_data w))%nat.
Definition ahead (w : window) : bytes := skipn (w_cursor w) (content w).
Definition from (w : window) (o : N) : bytes := skipn (N.to_nat (o - w_base w)) (content w).
Definition same (w w' : window) : Prop :=
  content w' = content w /\ w_base w' = w_base w /\ okw w' /\ (length (w_data w) <= length (w_data w'))%nat /\ (quiet (w_inner w) -> quiet (w_inner w')).
Lemma same_refl w : okw w -> same w w. Proof. unfold same. auto. Qed.
Lemma same_trans a b c : same a b -> same b c -> same a c.
Proof. unfold same. intros (A1 & A2 & A3 & A4 & A5) (B1 & B2 & B3 & B4 & B5). repeat split; auto; try congruence; lia. Qed.
Lemma same_ok a b : same a b -> okw b. Proof. intros H. apply H. Qed.
Lemma same_from a b o : same a b -> from b o = from a o. Proof. intros (A & B & _). unfold from. rewrite A, B. reflexivity. Qed.
Lemma same_base a b : same a b -> w_base b = w_base a. Proof. intros H. apply H. Qed.
Lemma same_content a b : same a b -> content b = content a. Proof. intros H. apply H. Qed.
Lemma same_quiet a b : same a b -> quiet (w_inner a) -> quiet (w_inner b). Proof. intros H. apply H. Qed.
Lemma view_bytes w : okw w -> sbytes (w_view w) = ahead w.
Proof. unfold okw, ahead, content, w_view. intros H. cbn [sbytes]. rewrite skipn_app. replace (w_cursor w - length (w_data w))%nat with 0%nat by lia. reflexivity. Qed.
Lemma view_quiet w : quiet (w_inner w) -> quiet (w_view w).
Proof. intros Q. apply quiet_cons. eauto. Qed.
Lemma after_ok w s' X : okw w -> sbytes (w_view w) = X ++ sbytes s' -> (quiet (w_view w) -> quiet s') ->
  same w (w_after w s') /\ ahead (w_after w s') = sbytes s' /\ (w_cursor (w_after w s') = w_cursor w + length X)%nat.
Proof.
  intros K E Q. unfold w_after. rewrite E, app_length. replace (length X + length (sbytes s') - length (sbytes s'))%nat with (length X) by lia.
  assert (V : skipn (w_cursor w) (w_data w) ++ sbytes (w_inner w) = X ++ sbytes s') by exact E.
  assert (L : length (skipn (w_cursor w) (w_data w)) = (length (w_data w) - w_cursor w)%nat) by apply skipn_length.
  unfold okw in K. destruct (Nat.ltb_spec (length X) (length (w_data w) - w_cursor w)) as [C|C].
  - split; [|split; [|reflexivity]].
    + unfold same, content, okw. cbn. repeat split; auto; lia.
    + unfold ahead, content. cbn. rewrite skipn_app. replace (w_cursor w + length X - length (w_data w))%nat with 0%nat by lia. cbn [skipn].
      apply (f_equal (skipn (length X))) in V. rewrite !skipn_app in V. rewrite skipn_all in V. replace (length X - length X)%nat with 0%nat in V by lia. cbn [skipn app] in V. rewrite <- V, L, skipn_skipn.
      replace (length X - (length (w_data w) - w_cursor w))%nat with 0%nat by lia. rewrite (Nat.add_comm (w_cursor w)). reflexivity.
  - assert (S' : sbytes s' = skipn (length X - (length (w_data w) - w_cursor w)) (sbytes (w_inner w))).
    { apply (f_equal (skipn (length X))) in V. rewrite !skipn_app in V. rewrite skipn_all in V. replace (length X - length X)%nat with 0%nat in V by lia. cbn [skipn app] in V. rewrite <- V, L. rewrite skipn_all2 by lia. reflexivity. }
    assert (LL : (length X - (length (w_data w) - w_cursor w) <= length (sbytes (w_inner w)))%nat).
    { apply (f_equal (@length N)) in V. rewrite !app_length, L in V. lia. }
    split; [|split; [|reflexivity]].
    + unfold same, content, okw. cbn. rewrite <- app_assoc, S', firstn_skipn. repeat split; auto; try (rewrite app_length, ?firstn_length; lia). intros q. apply Q. apply view_quiet. exact q.
    + unfold ahead, content. cbn. rewrite skipn_app. rewrite skipn_all2 by (rewrite app_length, firstn_length; lia). rewrite app_length, firstn_length. replace (_ - _)%nat with 0%nat by lia. reflexivity.
Qed.
Lemma into_bytes w o : w_base w <= o -> o <= w_end w -> sbytes (Data (into_leftover w o) :: w_inner w) = from w o.
Proof.
  intros A B. unfold w_end, nlen in B. cbn [sbytes]. unfold into_leftover, from, content. rewrite skipn_app. rewrite Nat.min_l by lia. replace (N.to_nat (o - w_base w) - length (w_data w))%nat with 0%nat by lia. reflexivity.
Qed.
(** What an operation on a window must satisfy. *)
Definition runs {A} (w : window) (r : io A) (P : A -> window -> Prop) : Prop :=
  match r with
  | IOk a w' => same w w' /\ P a w'
  | IErr _ => ~ quiet (w_inner w)
  | IPanic => False
  end.
Lemma runs_bind {A B} w (r : io A) (k : A -> window -> io B) P Q : runs w r P ->
  (forall a w', same w w' -> P a w' -> runs w' (k a w') Q) -> runs w (ibind r k) Q.
Proof.
  unfold runs. destruct r as [a w'|w'|]; cbn [ibind]; auto. intros (S1 & H) K. specialize (K a w' S1 H). destruct (k a w') as [b w''|w''|]; auto.
  - destruct K as (S2 & K). split; auto. eapply same_trans; eauto.
  - intros q. apply K. eapply same_quiet; eauto.
Qed.
Lemma runs_ok {A} w (a : A) w' (P : A -> window -> Prop) : same w w' -> P a w' -> runs w (IOk a w') P.
Proof. split; auto. Qed.
Lemma runs_weaken {A} w (r : io A) (P Q : A -> window -> Prop) : runs w r P -> (forall a w', same w w' -> P a w' -> Q a w') -> runs w r Q.
Proof. unfold runs. destruct r; auto. intros (S1 & H) K. auto. Qed.
Lemma move_runs o w : okw w -> runs w (move_to o w) (fun ok w' =>
  if ok then w_base w <= o /\ ahead w' = from w o /\ o <= w_end w' /\ w_position w' = o
  else o < w_base w \/ (nlen (content w) < o - w_base w /\ w_end w' = w_base w + nlen (content w))).
Proof.
  intros K. unfold move_to. destruct (N.ltb_spec o (w_base w)) as [L|L]. { apply runs_ok; [apply same_refl; auto|]. left. auto. }
  destruct (fill _ _) as [[st g] s] eqn:F. apply fill_split in F as (F & Q). unfold okw in K.
  destruct st.
  - apply splitn_some in F as (F & G). apply runs_ok.
    + unfold same, content, okw. cbn. rewrite F, app_assoc. repeat split; auto; rewrite app_length; lia.
    + assert (C : content (Window (w_data w ++ g) (N.to_nat (o - w_base w)) (w_base w) s) = content w) by (unfold content; cbn; rewrite F, app_assoc; reflexivity).
      unfold ahead, from. rewrite C. split; [auto|split; [reflexivity|]]. unfold w_end, w_position, nlen. cbn. rewrite app_length. lia.
  - destruct F as (G & -> & S0). apply runs_ok.
    + unfold same, content, okw. cbn. rewrite S0, app_nil_r. repeat split; auto; rewrite app_length; lia.
    + right. unfold w_end, content, nlen. cbn. rewrite app_length. lia.
  - apply F.
Qed.
Lemma skipn_two i (l : bytes) a b : nth_error l i = Some a -> nth_error l (S i) = Some b -> skipn i l = a :: b :: skipn (2 + i) l.
Proof.
  revert l. induction i as [|i IH]; intros l A B.
  - destruct l as [|x [|y l]]; try discriminate. cbn in A, B. injection A as ->. injection B as ->. reflexivity.
  - destruct l as [|x l]; [discriminate|]. cbn [nth_error] in A, B. cbn [skipn Nat.add]. apply IH; auto.
Qed.
Definition flat_peek (d : bytes) : option N := match d with a :: b :: _ => Some (be_val [a; b]) | _ => None end.
Lemma peek_runs o w : okw w -> w_base w <= o -> runs w (peek_two_at o w) (fun t w' =>
  t = flat_peek (from w o) /\
  match t with
  | Some _ => o + 2 <= w_end w'
  | None => nlen (content w) < o + 2 - w_base w /\ w_end w' = w_base w + nlen (content w)
  end).
Proof.
  intros K B. unfold peek_two_at. eapply runs_bind; [apply move_runs; auto|]. intros ok w' S1 H. cbv beta in H.
  pose proof (same_ok _ _ S1) as K'. destruct ok; cbn [negb].
  - destruct H as (H1 & H2 & H3 & H4). rewrite (same_base _ _ S1). unfold w_end, nlen in H3. rewrite (same_base _ _ S1) in H3.
    set (i := N.to_nat (o - w_base w)) in *. assert (L : (S i < length (w_data w'))%nat) by lia.
    destruct (nth_error (w_data w') i) as [a|] eqn:A. 2: { apply nth_error_None in A. lia. } destruct (nth_error (w_data w') (S i)) as [b|] eqn:Bq. 2: { apply nth_error_None in Bq. lia. }
    apply runs_ok; [apply same_refl; auto|]. split. 2: { unfold w_end, nlen. rewrite (same_base _ _ S1). lia. }
    unfold from. fold i. rewrite <- (same_content _ _ S1). unfold content. rewrite skipn_app. rewrite (skipn_two _ _ _ _ A Bq). reflexivity.
  - destruct H as [H|(H1 & H2)]; [lia|]. apply runs_ok; [apply same_refl; auto|]. split; [|rewrite ?(same_content _ _ S1), ?(same_base _ _ S1); auto].
    unfold from. assert (L : (length (skipn (N.to_nat (o - w_base w)) (content w)) < 2)%nat) by (rewrite skipn_length; unfold nlen in H1; lia).
    destruct (skipn _ _) as [|x [|y l]]; try reflexivity. cbn in L. lia.
Qed.

(** ** The checks, on plain bytes *)
Fixpoint flat_confirm (n : nat) (k : N) (d : bytes) : option N :=
  match n with
  | O => Some k
  | S n' =>
      match chunk_mrt_record d with
      | FErr e _ _ _ => match e with EEofExpected => Some k | _ => None end
      | FRec r t => match parse_raw r with Ok _ => flat_confirm n' (k + 1) t | Err EEofExpected => Some k | _ => None end
      end
  end.
Lemma confirm_runs n : forall k w, okw w -> runs w (confirm_loop n k w) (fun v _ => v = flat_confirm n k (ahead w)).
Proof.
  induction n as [|n IH]; intros k w K; cbn [confirm_loop flat_confirm]. { apply runs_ok; [apply same_refl|]; auto. }
  unfold parse_mrt_record_s. pose proof (chunk_flat_any (w_view w)) as C. pose proof (chunk_bytes (w_view w)) as CB. rewrite (view_bytes w K) in C.
  destruct (chunk_mrt_record_s (w_view w)) as [r s|e h c s].
  - destruct C as (C & Q & F). destruct CB as (CB & _). rewrite C. destruct (after_ok w s _ K CB Q) as (A1 & A2 & A3).
    pose proof (raw_np r) as NP. destruct (parse_raw r) as [x|e|]; [| |exfalso; apply NP; reflexivity].
    + specialize (IH (k + 1) (w_after w s) (same_ok _ _ A1)). rewrite A2 in IH. unfold runs in *. destruct (confirm_loop n (k + 1) (w_after w s)); auto.
      * destruct IH as (I1 & I2). split; auto. eapply same_trans; eauto.
      * intros q. apply IH. eapply same_quiet; eauto.
    + replace (io_failure e (w_view w) s) with false by (unfold io_failure; rewrite F, Nat.eqb_refl, andb_comm; reflexivity). destruct e; apply runs_ok; auto.
  - destruct C as (C & Q). destruct (io_failure e (w_view w) s) eqn:I.
    + assert (e <> EEofExpected) by (intros ->; discriminate I). assert (~ quiet (w_inner w)) by (intros q; destruct (Q (view_quiet _ q)); congruence). destruct e; try congruence; exact H0.
    + specialize (C eq_refl). rewrite C. apply flat_err_some in C.
      assert (exists X, sbytes (w_view w) = X ++ sbytes s) as (X & EX). { rewrite (view_bytes w K). destruct c as [c|]; [exists c; apply C|exists []; destruct C as (_ & -> & ->); reflexivity]. }
      destruct (after_ok w s X K EX (fun q => proj2 (Q q))) as (A1 & A2 & A3). destruct e; apply runs_ok; auto.
Qed.
Definition flat_candidate (d : bytes) : option (family * evidence * bytes) :=
  match flat_header d with
  | inr _ => None
  | inl (h, hb, s) =>
      match header_family h with
      | None => None
      | Some f =>
          if match h_us h with Some u => 1000000 <=? u | None => false end then None else
          match splitn (N.to_nat (h_len h)) s with
          | None => None
          | Some (body, s') =>
              match (if f then Some LegacyMrtChain else strict_shape (Raw h hb body)) with
              | None => None
              | Some ev => match parse_raw (Raw h hb body) with Ok _ => Some (f, ev, s') | _ => None end
              end
          end
      end
  end.
Lemma candidate_runs w : okw w -> runs w (read_candidate w) (fun v w' =>
  match v with
  | None => flat_candidate (ahead w) = None
  | Some (f, ev) => flat_candidate (ahead w) = Some (f, ev, ahead w')
  end).
Proof.
  intros K. unfold read_candidate, flat_candidate. pose proof (header_flat (w_view w)) as C. pose proof (parse_header_bytes (w_view w) _ eq_refl) as HB. rewrite (view_bytes w K) in C, HB.
  pose proof (view_bytes w K) as V.
  destruct (parse_common_header_s (w_view w)) as [h hb s|e c s].
  - destruct C as (-> & F & Q). destruct HB as (HB & _). rewrite <- V in HB.
    destruct (after_ok w s _ K HB Q) as (A1 & A2 & A3).
    destruct (header_family h) as [f|]; [|apply runs_ok; auto].
    destruct (match h_us h with Some u => 1000000 <=? u | None => false end); [apply runs_ok; auto|].
    destruct (read_upto (N.to_nat (h_len h)) s) as [[st body] s'] eqn:E. pose proof (read_upto_split _ _ _ _ _ E) as A. pose proof (read_upto_quiet _ _ _ _ _ E) as Q'. pose proof (read_upto_bytes _ _ _ _ _ E) as B.
    assert (HB' : sbytes (w_view w) = (hb ++ body) ++ sbytes s') by (rewrite HB, B, app_assoc; reflexivity).
    destruct (after_ok w s' _ K HB' (fun q => proj2 (Q' (Q q)))) as (A1' & A2' & A3').
    destruct st.
    + rewrite A. destruct (if f then _ else _); [|apply runs_ok; auto]. pose proof (raw_np (Raw h hb body)) as NP. destruct (parse_raw (Raw h hb body)); [apply runs_ok; auto; rewrite A2'; auto|apply runs_ok; auto|apply NP; reflexivity].
    + destruct A as (-> & _). apply runs_ok; auto.
    + intros q. destruct (Q' (Q (view_quiet _ q))). congruence.
  - destruct C as (C & Q & _). destruct (io_failure e (w_view w) s) eqn:I.
    + intros q. destruct (Q (view_quiet _ q)). congruence.
    + rewrite (C eq_refl). assert (EX : sbytes (w_view w) = c ++ sbytes s) by (rewrite V; apply HB).
      destruct (after_ok w s _ K EX (fun q => proj2 (Q q))) as (A1 & A2 & A3). apply runs_ok; auto.
Qed.
Fixpoint flat_chain (n : nat) (fam : option family) (ev : option evidence) (k : N) (d : bytes) : option (evidence * N) :=
  match n with
  | O => match ev with Some e => Some (e, k) | None => None end
  | S n' =>
      match flat_candidate d with
      | None => None
      | Some (f, e, t) =>
          if match fam with Some x => negb (Bool.eqb x f) | None => false end then None
          else flat_chain n' (Some (match fam with Some x => x | None => f end)) (Some (match ev with Some x => x | None => e end)) (k + 1) t
      end
  end.
Lemma chain_runs n : forall fam ev k w, okw w -> runs w (chain_loop n fam ev k w) (fun v _ => v = flat_chain n fam ev k (ahead w)).
Proof.
  induction n as [|n IH]; intros fam ev k w K; cbn [chain_loop flat_chain]. { apply runs_ok; [apply same_refl|]; auto. }
  eapply runs_bind; [apply candidate_runs; auto|]. intros v w' S1 H. cbv beta in H. pose proof (same_ok _ _ S1) as K'. destruct v as [[f e]|].
  - rewrite H. destruct (match fam with Some x => negb (Bool.eqb x f) | None => false end). { apply runs_ok; [apply same_refl|]; auto. } apply IH. auto.
  - rewrite H. eapply runs_bind; [apply move_runs; auto|]. intros ok w'' S2 _. apply runs_ok; [apply same_refl; eapply same_ok; eauto|auto].
Qed.
Lemma validate_runs w o n : okw w -> w_base w <= o -> o <= w_base w + nlen (content w) -> runs w (validate_chain w o n) (fun v _ => v = flat_chain (N.to_nat n) None None 0 (from w o)).
Proof.
  intros K B L. unfold validate_chain. eapply runs_bind; [apply move_runs; auto|]. intros ok w' S1 H. cbv beta in H. pose proof (same_ok _ _ S1) as K'. destruct ok.
  - destruct H as (_ & <- & _). apply chain_runs. auto.
  - lia.
Qed.
Lemma flat_peek_len d t : flat_peek d = Some t -> (2 <= length d)%nat.
Proof. destruct d as [|a [|b d]]; try discriminate. cbn [length]. lia. Qed.
Fixpoint flat_scan (n : nat) (base candidate conf : N) (d : bytes) : scan_outcome :=
  match n with
  | O => Exhausted
  | S n' =>
      match flat_peek (skipn (N.to_nat (candidate + 4 - base)) d) with
      | None => AtEnd (base + nlen d)
      | Some ty =>
          if negb (is_anchor ty) then flat_scan n' base (candidate + 1) conf d
          else match flat_chain (N.to_nat conf) None None 0 (skipn (N.to_nat (candidate - base)) d) with
               | Some (ev, k) => Found candidate ev k
               | None => flat_scan n' base (candidate + 1) conf d
               end
      end
  end.
Lemma scan_runs n : forall c conf w, okw w -> w_base w <= c ->
  runs w (scan n c conf w) (fun v w' => v = flat_scan n (w_base w) c conf (content w) /\
    match v with Found o _ _ => w_base w <= o /\ o <= w_end w' | AtEnd o => w_base w <= o /\ o <= w_end w' | Exhausted => True end).
Proof.
  induction n as [|n IH]; intros c conf w K B; cbn [scan flat_scan]. { apply runs_ok; [apply same_refl|]; auto. }
  eapply runs_bind; [apply peek_runs; auto; lia|]. intros v w' S1 (H1 & H2). pose proof (same_ok _ _ S1) as K'. pose proof (same_base _ _ S1) as B'. pose proof (same_content _ _ S1) as C'.
  unfold from in H1. rewrite <- H1.
  destruct v as [ty|].
  - assert (NX : runs w' (scan n (c + 1) conf w') (fun v w'0 => v = flat_scan n (w_base w) (c + 1) conf (content w) /\
      match v with Found o _ _ => w_base w <= o /\ o <= w_end w'0 | AtEnd o => w_base w <= o /\ o <= w_end w'0 | Exhausted => True end)).
    { eapply runs_weaken; [apply IH; auto; lia|]. intros a w'' S2 (X1 & X2). rewrite X1, ?B', ?C' in *. split; auto. }
    destruct (negb (is_anchor ty)); [exact NX|].
    assert (LEN : (6 + N.to_nat (c - w_base w) <= length (content w))%nat). { symmetry in H1. apply flat_peek_len in H1. rewrite skipn_length in H1. lia. }
    eapply runs_bind; [apply validate_runs; auto; rewrite ?B', ?C'; unfold nlen; lia|].
    intros x w'' S2 X. cbv beta in X. rewrite (same_from _ _ _ S1) in X. unfold from in X. rewrite <- X. destruct x as [[ev k]|].
    + apply runs_ok; [apply same_refl; eapply same_ok; eauto|]. split; [reflexivity|]. split; [auto|]. unfold w_end in *. destruct S2 as (_ & S2 & _ & S3 & _). rewrite S2. unfold nlen in *. lia.
    + eapply runs_weaken; [apply IH; [eapply same_ok; eauto|rewrite (same_base _ _ S2); lia]|]. intros a w3 S3 (X1 & X2). rewrite X1, (same_base _ _ S2), (same_content _ _ S2), ?B', ?C' in *. split; auto.
  - apply runs_ok; [apply same_refl; auto|]. destruct H2 as (H2 & H3). rewrite H3. split; [reflexivity|]. lia.
Qed.

(** ** One recovery *)
Definition flat_search (c : recovery_config) (start : N) (e : perr) (d : bytes) : option gap :=
  match flat_scan (N.to_nat (rc_max_scan c)) start (start + 1) (N.max (rc_confirm c) 1) d with
  | Found o ev k => Some (RGap start o e ev k)
  | AtEnd o => Some (RGap start o e EndOfStream 0)
  | Exhausted => None
  end.
Definition flat_recover (c : recovery_config) (start : N) (framed : option N) (e : perr) (d : bytes) : option gap :=
  match framed with
  | None => flat_search c start e d
  | Some b =>
      match flat_confirm (N.to_nat (N.max (rc_confirm c) 1)) 0 (skipn (N.to_nat (b - start)) d) with
      | Some k => Some (RGap start b e AlignedRecordChain k)
      | None => flat_search c start e d
      end
  end.
Definition keeps (st st' : recovering) : Prop :=
  rs_config st' = rs_config st /\ rs_filters st' = rs_filters st /\ rs_el st' = rs_el st /\ rs_core st' = rs_core st /\ rs_unsupported st' = rs_unsupported st /\ rs_finished st' = rs_finished st.
Lemma recover_spec st start framed e c d :
  d = match c with Some b => b | None => [] end ++ sbytes (rs_stream st) ->
  start + nlen (match c with Some b => b | None => [] end) = rs_offset st ->
  match framed with Some b => b = rs_offset st | None => True end ->
  exists st', rs_dump st' = rs_dump (rs_write_dump st c) /\
  ((exists g, recover st start framed e c = Ok (Some (inl (Gap g)), st') /\ flat_recover (rs_config st) start framed e d = Some g /\
     keeps st st' /\ rs_offset st' = g_end g /\ sbytes (rs_stream st') = skipn (N.to_nat (g_end g - start)) d /\ (quiet (rs_stream st) -> quiet (rs_stream st'))) \/
   (exists x, recover st start framed e c = Ok (Some (inr x), st') /\ rs_finished st' = true /\ re_offset x = start /\
     (quiet (rs_stream st) -> flat_recover (rs_config st) start framed e d = None /\ x = RError start (rc_max_scan (rs_config st)) e c))).
Proof.
  intros D O1 FR. unfold recover. set (consumed := match c with Some b => b | None => [] end) in *.
  set (sw := rs_write_dump st c). change (rs_offset sw) with (rs_offset st). change (rs_config sw) with (rs_config st). change (rs_stream sw) with (rs_stream st).
  match goal with |- context [negb (?a =? ?b)] => replace (a =? b) with true by (symmetry; apply N.eqb_eq; exact O1) end. cbn [negb].
  set (required := N.max (rc_confirm (rs_config st)) 1).
  set (w0 := Window consumed 0 start (rs_stream st)).
  assert (K0 : okw w0) by (unfold okw; cbn; lia). assert (C0 : content w0 = d) by (symmetry; exact D).
  assert (Kp : forall s o, keeps st (rs_at sw s o)) by (intros; repeat split).
  assert (SE : forall w, same w0 w -> exists st', rs_dump st' = rs_dump sw /\
    ((exists g, search_gap sw start e c w = Ok (Some (inl (Gap g)), st') /\ flat_search (rs_config st) start e d = Some g /\
       keeps st st' /\ rs_offset st' = g_end g /\ sbytes (rs_stream st') = skipn (N.to_nat (g_end g - start)) d /\ (quiet (rs_stream st) -> quiet (rs_stream st'))) \/
     (exists x, search_gap sw start e c w = Ok (Some (inr x), st') /\ rs_finished st' = true /\ re_offset x = start /\
       (quiet (rs_stream st) -> flat_search (rs_config st) start e d = None /\ x = RError start (rc_max_scan (rs_config st)) e c)))).
  { intros w S1. unfold search_gap, flat_search, find_recovery. change (rs_config sw) with (rs_config st). fold required. pose proof (same_base _ _ S1) as Bw. cbn in Bw. pose proof (same_content _ _ S1) as Cw. rewrite C0 in Cw.
    pose proof (scan_runs (N.to_nat (rc_max_scan (rs_config st))) (start + 1) required w (same_ok _ _ S1) ltac:(lia)) as R. rewrite Bw, Cw in R.
    destruct (scan _ _ _ w) as [v w'|w'|].
    - destruct R as (S2 & R1 & R2). rewrite <- R1. pose proof (same_trans _ _ _ S1 S2) as S3. pose proof (same_base _ _ S3) as B3. cbn in B3.
      assert (Q3 : quiet (rs_stream st) -> quiet (w_inner w')) by (apply (same_quiet _ _ S3)).
      assert (IB : forall o, start <= o -> o <= w_end w' -> sbytes (Data (into_leftover w' o) :: w_inner w') = skipn (N.to_nat (o - start)) d).
      { intros o L1 L2. rewrite into_bytes by (rewrite ?B3; auto). unfold from. rewrite B3, (same_content _ _ S3), C0. reflexivity. }
      destruct v as [o ev k|o|].
      + exists (resume sw w' o). split; [reflexivity|]. left. eexists. split; [reflexivity|]. split; [reflexivity|]. split; [apply Kp|]. split; [reflexivity|]. split; [apply IB; apply R2|]. intros q. apply quiet_cons. split; eauto.
      + exists (resume sw w' o). split; [reflexivity|]. left. eexists. split; [reflexivity|]. split; [reflexivity|]. split; [apply Kp|]. split; [reflexivity|]. split; [apply IB; apply R2|]. intros q. apply quiet_cons. split; eauto.
      + eexists. split; [|right; eexists; split; [reflexivity|]; split; [reflexivity|]; split; [reflexivity|]; auto]. reflexivity.
    - eexists. split; [|right; eexists; split; [reflexivity|]; split; [reflexivity|]; split; [reflexivity|]]; [reflexivity|].
      intros q. exfalso. apply R. apply (same_quiet _ _ S1). exact q.
    - destruct R. }
  unfold flat_recover. fold required. destruct framed as [b|]; [|apply SE, same_refl; auto].
  match goal with |- context [confirm_aligned ?w b required] => change w with w0 end.
  assert (CR : runs w0 (confirm_aligned w0 b required) (fun v w' => v = flat_confirm (N.to_nat required) 0 (skipn (N.to_nat (b - start)) d) /\ b <= w_end w')).
  { unfold confirm_aligned. eapply runs_bind; [apply move_runs; auto|]. intros ok w' S1 H. cbv beta in H. destruct ok.
    - destruct H as (_ & H & E1 & _). pose proof (confirm_runs (N.to_nat required) 0 w' (same_ok _ _ S1)) as R. rewrite H in R. unfold from in R. rewrite C0 in R. cbn [w_base w0] in R. eapply runs_weaken; [exact R|]. intros a w'' S2 A. split; [exact A|].
      destruct S2 as (_ & S2 & _ & S3 & _). unfold w_end, nlen in *. rewrite S2. lia.
    - exfalso. cbn [w_base w0] in H. rewrite C0, D, nlen_app in H. lia. }
  destruct (confirm_aligned w0 b required) as [v w'|w'|].
  - destruct CR as (S1 & R & E1). rewrite <- R. destruct v as [k|].
    + exists (resume sw w' b). split; [reflexivity|]. left. eexists. split; [reflexivity|]. split; [reflexivity|]. split; [apply Kp|]. split; [reflexivity|]. pose proof (same_base _ _ S1) as B1. cbn in B1. split.
      * cbn [rs_stream resume rs_at g_end]. rewrite into_bytes by (rewrite ?B1; auto; lia). unfold from. rewrite B1, (same_content _ _ S1), C0. reflexivity.
      * intros q. apply quiet_cons. split; eauto. apply (same_quiet _ _ S1). exact q.
    + apply SE. exact S1.
  - eexists. split; [|right; eexists; split; [reflexivity|]; split; [reflexivity|]; split; [reflexivity|]]; [reflexivity|]. intros q. exfalso. apply CR. exact q.
  - destruct CR.
Qed.

(** ** What the checks mean *)
Lemma flat_rec d r t : chunk_mrt_record d = FRec r t -> d = raw_bytes r ++ t /\ framed r /\ (12 <= length (raw_bytes r))%nat.
Proof.
  intros H. pose proof (chunk_local _ _ _ H []) as F. rewrite app_nil_r in F. revert H. unfold chunk_mrt_record. pose proof (chunk_bytes [Data d]) as B. rewrite sbytes_data in B.
  destruct (chunk_mrt_record_s [Data d]); cbn [to_frame]; [|discriminate]. intros Q. injection Q as -> <-. destruct B. auto.
Qed.
Lemma framed_chunk r t : framed r -> chunk_mrt_record (raw_bytes r ++ t) = FRec r t.
Proof. intros F. apply (chunk_local _ _ _ F). Qed.
Lemma get_range_some i n s b : get_range i n s = Some b <-> exists x t, s = x ++ b ++ t /\ length x = i /\ length b = n.
Proof.
  unfold get_range. destruct (Nat.leb_spec (i + n) (length s)) as [L|L].
  - split.
    + intros Q. injection Q as <-. exists (firstn i s), (skipn n (skipn i s)). rewrite firstn_skipn, firstn_skipn. rewrite !firstn_length, skipn_length. split; [reflexivity|split; lia].
    + intros (x & t & -> & <- & <-). rewrite skipn_app, skipn_all, Nat.sub_diag. cbn [skipn app]. rewrite firstn_app, firstn_all, Nat.sub_diag. cbn [firstn]. rewrite app_nil_r. reflexivity.
  - split; [discriminate|]. intros (x & t & -> & <- & <-). rewrite !app_length in L. lia.
Qed.
Lemma be_val_two a b : be_val [a; b] = 256 * a + b. Proof. unfold be_val. cbn [fold_left]. lia. Qed.
Lemma addr_len_some i s n : mp_addr_len i s = Some n <-> exists x v t, s = x ++ 0 :: v :: t /\ length x = i /\ (v = 1 /\ n = 4%nat \/ v = 2 /\ n = 16%nat).
Proof.
  unfold mp_addr_len. destruct (get_range i 2 s) as [b|] eqn:G.
  - apply get_range_some in G as (x & t & -> & <- & L). destruct b as [|a [|b [|? ?]]]; try discriminate. rewrite be_val_two. split.
    + intros H. exists x, b, t. destruct (256 * a + b) as [|[p|[p|p|]|]] eqn:E; try discriminate; injection H as <-; assert (a = 0) by lia; assert (b = 2 \/ b = 1) by lia; subst a; (split; [reflexivity|split; [reflexivity|lia]]).
    + intros (x' & v & t' & E & L' & C). apply (f_equal (skipn (length x))) in E. rewrite <- L' in E at 2. rewrite !skipn_app, !skipn_all, !Nat.sub_diag in E. cbn in E. injection E as -> -> _. destruct C as [(-> & ->)|(-> & ->)]; reflexivity.
  - split; [discriminate|]. intros (x & v & t & -> & <- & _). assert (get_range (length x) 2 (x ++ 0 :: v :: t) = Some [0; v]) by (apply get_range_some; exists x, t; auto). congruence.
Qed.
Definition peers_opt (sub : N) (body : bytes) : option nat :=
  if uses_zebra_compat sub body then Some (two_asns sub)
  else match mp_addr_len (two_asns sub + 2) body with None => None | Some n => Some (two_asns sub + 4 + n * 2)%nat end.
Lemma peers_opt_iff sub body m : peers_opt sub body = Some m <-> peers_part sub body m.
Proof.
  unfold peers_opt, peers_part. destruct (uses_zebra_compat sub body). { split; [intros Q; injection Q as <-; reflexivity|intros ->; reflexivity]. }
  split.
  - destruct (mp_addr_len _ _) as [n|] eqn:E; [|discriminate]. intros Q. injection Q as <-. apply addr_len_some in E as (x & v & t & E & L & C). exists x, v, t. split; [exact E|split; [exact L|]]. destruct C as [(-> & ->)|(-> & ->)]; [left|right]; (split; [reflexivity|lia]).
  - intros (x & v & t & E & L & C). assert (exists n, mp_addr_len (two_asns sub + 2) body = Some n /\ (two_asns sub + 4 + n * 2)%nat = m) as (n & -> & <-); [|reflexivity].
    destruct C as [(-> & ->)|(-> & ->)]; [exists 4%nat|exists 16%nat]; (split; [apply addr_len_some; exists x; eauto 10|lia]).
Qed.
Definition message_opt (m : nat) (body : bytes) : bool :=
  match get_range m 19 body with
  | None => false
  | Some h =>
      let len := be_val (firstn 2 (skipn 16 h)) in
      let ty := nth 18 h 0 in
      if negb (forallb (N.eqb 255) (firstn 16 h)) then false else
      if negb ((19 <=? len) && (len <=? 65535)) || negb ((1 <=? ty) && (ty <=? 4)) || negb (N.of_nat m + len =? nlen body) then false else
      match ty with
      | 1 => if 4096 <? len then false else true
      | 2 => if len <? 23 then false else true
      | 3 => if len <? 21 then false else true
      | _ => if negb (len =? 19) then false else true
      end
  end.
Lemma app_eq_len (a b c d : bytes) : a ++ b = c ++ d -> length a = length c -> a = c /\ b = d.
Proof.
  revert c. induction a as [|x a IH]; intros [|y c] E L; try discriminate; [auto|]. cbn [app] in E. injection E as -> E. cbn in L. injection L as L. destruct (IH _ E L) as (-> & ->). auto.
Qed.
Lemma forall_255 l : forallb (N.eqb 255) l = true <-> l = repeat 255 (length l).
Proof.
  induction l as [|x l IH]; [split; reflexivity|]. cbn [forallb length repeat]. rewrite andb_true_iff, IH, N.eqb_eq. split; [intros (<- & H); f_equal; exact H|intros H; injection H as -> H; auto].
Qed.
Lemma message_opt_iff m body : message_opt m body = true <-> exists x s, body = x ++ s /\ length x = m /\ bgp_message s.
Proof.
  unfold message_opt. destruct (get_range m 19 body) as [h|] eqn:G.
  - apply get_range_some in G as (x & t & -> & <- & L).
    assert (exists mk a b ty, h = mk ++ [a; b; ty] /\ length mk = 16%nat) as (mk & a & b & ty & -> & LM).
    { do 20 (destruct h as [|? h]; try discriminate). exists [n; n0; n1; n2; n3; n4; n5; n6; n7; n8; n9; n10; n11; n12; n13; n14], n15, n16, n17. auto. }
    rewrite firstn_app, skipn_app, app_nth2 by (rewrite LM; auto 20). rewrite LM. rewrite (firstn_all2 mk) by (rewrite LM; auto 20). rewrite (skipn_all2 mk) by (rewrite LM; auto 20). change (firstn (16 - 16) [a; b; ty]) with (@nil N). change (firstn 2 ([] ++ skipn (16 - 16) [a; b; ty])) with [a; b]. change (nth (18 - 16) [a; b; ty] 0) with ty. rewrite app_nil_r.
    assert (NL : nlen (x ++ (mk ++ [a; b; ty]) ++ t) = N.of_nat (length x) + (19 + nlen t)) by (unfold nlen; rewrite !app_length, LM; cbn [length]; lia). rewrite NL.
    set (len := be_val [a; b]).
    split.
    + intros H. destruct (forallb _ mk) eqn:FM; [|discriminate H]. cbn [negb] in H. apply forall_255 in FM. rewrite LM in FM.
      destruct (negb ((19 <=? len) && _) || _ || _) eqn:C; [discriminate H|]. assert (LL : len = 19 + nlen t /\ len <= 65535) by lia. destruct LL as (LL & LL').
      assert (T : ty = 1 \/ ty = 2 \/ ty = 3 \/ ty = 4) by lia.
      exists x, ((mk ++ [a; b; ty]) ++ t). split; [reflexivity|split; [reflexivity|]]. exists [a; b], ty, t.
      assert (NL' : nlen ((mk ++ [a; b; ty]) ++ t) = len) by (unfold nlen in *; rewrite !app_length, LM in *; cbn [length] in *; lia). rewrite NL'.
      split. { rewrite FM. rewrite <- !app_assoc. reflexivity. } split; [reflexivity|]. split; [reflexivity|]. split; [lia|].
      destruct T as [->|[->|[->| ->]]].
      * left. split; [reflexivity|]. destruct (N.ltb_spec 4096 len); [discriminate H|lia].
      * right; left. split; [reflexivity|]. destruct (N.ltb_spec len 23); [discriminate H|lia].
      * right; right; left. split; [reflexivity|]. destruct (N.ltb_spec len 21); [discriminate H|lia].
      * right; right; right. split; [reflexivity|]. destruct (N.eqb_spec len 19); [lia|discriminate H].
    + intros (x' & s & E & LX & l & ty' & t' & E' & Ll & BV & N6 & T).
      assert (s = (mk ++ [a; b; ty]) ++ t /\ x' = x) as (E2 & ->).
      { assert (x = x') by (apply (f_equal (firstn (length x))) in E; rewrite <- LX in E at 2; rewrite !firstn_app, !firstn_all, !Nat.sub_diag in E; cbn [firstn] in E; rewrite !app_nil_r in E; exact E). subst x'. apply app_inv_head in E. auto. }
      destruct l as [|l1 [|l2 [|? ?]]]; try discriminate Ll. rewrite E' in E2.
      assert (mk = repeat 255 16 /\ l1 = a /\ l2 = b /\ ty' = ty /\ t' = t) as (M & -> & -> & -> & ->).
      { rewrite <- !app_assoc in E2. apply app_eq_len in E2 as (M & E2); [|rewrite LM; reflexivity]. cbn [app] in E2. injection E2 as -> -> -> ->. auto. }
      assert (NS : nlen s = 19 + nlen t). { rewrite E'. unfold nlen. rewrite !app_length. cbn [length repeat]. lia. }
      fold len in BV. rewrite NS in *. replace (forallb (N.eqb 255) mk) with true by (symmetry; apply forall_255; rewrite LM; exact M). cbn [negb].
      replace (negb ((19 <=? len) && (len <=? 65535)) || negb ((1 <=? ty) && (ty <=? 4)) || negb (N.of_nat (length x) + len =? N.of_nat (length x) + (19 + nlen t))) with false by lia.
      destruct T as [(-> & T)|[(-> & T)|[(-> & T)|(-> & T)]]].
      * destruct (N.ltb_spec 4096 len); [lia|reflexivity].
      * destruct (N.ltb_spec len 23); [lia|reflexivity].
      * destruct (N.ltb_spec len 21); [lia|reflexivity].
      * destruct (N.eqb_spec len 19); [reflexivity|lia].
  - split; [discriminate|]. intros (x & s & -> & <- & l & ty & t & -> & L & _).
    assert (get_range (length x) 19 (x ++ repeat 255 16 ++ l ++ ty :: t) = Some (repeat 255 16 ++ l ++ [ty])).
    { apply get_range_some. exists x, t. rewrite <- !app_assoc. split; [reflexivity|split; [reflexivity|]]. rewrite !app_length, repeat_length, L. reflexivity. }
    congruence.
Qed.
Lemma strict_iff r ev : strict_shape r = Some ev <->
  let sub := h_sub (r_hdr r) in let body := r_body r in
  (ev = StateChangeChain /\ In sub [0; 5] /\ exists m, peers_part sub body m /\ length body = (m + 4)%nat) \/
  (ev = BgpMarkerChain /\ In sub [1; 4; 6; 7; 8; 9; 10; 11] /\ exists x m, body = x ++ m /\ peers_part sub body (length x) /\ bgp_message m).
Proof.
  cbv zeta. unfold strict_shape. set (sub := h_sub (r_hdr r)). set (body := r_body r).
  assert (MK : mp_known sub = true <-> In sub [0; 5] \/ In sub [1; 4; 6; 7; 8; 9; 10; 11]).
  { unfold mp_known. rewrite existsb_exists. cbn [In]. split; [intros (z & H & E); apply N.eqb_eq in E; subst z; clear -H; lia|intros H; exists sub; rewrite N.eqb_refl; split; [clear -H; lia|reflexivity]]. }
  destruct (mp_known sub) eqn:K; cbn [negb].
  2: { split; [discriminate|]. intros [(_ & H & _)|(_ & H & _)]; assert (false = true) by (apply MK; auto); discriminate. }
  assert (MK' := proj1 MK eq_refl). clear MK. destruct ((sub =? 0) || (sub =? 5)) eqn:S05.
  - assert (I05 : In sub [0; 5]) by (cbn; lia).
    assert (Q : (if uses_zebra_compat sub body then if Nat.eqb (length body) 8 then Some StateChangeChain else None
       else match mp_addr_len ((if sub =? 0 then 4 else 8) + 2) body with
            | Some n => if Nat.eqb (length body) ((if sub =? 0 then 4 else 8) + 4 + n * 2 + 4) then Some StateChangeChain else None
            | None => None end) = match peers_opt sub body with Some m => if Nat.eqb (length body) (m + 4) then Some StateChangeChain else None | None => None end).
    { unfold peers_opt. destruct I05 as [<-|[<-|[]]].
      - change (two_asns 0) with 4%nat. change (if 0 =? 0 then 4%nat else 8%nat) with 4%nat. destruct (uses_zebra_compat 0 body); [reflexivity|]. destruct (mp_addr_len _ _); reflexivity.
      - change (two_asns 5) with 8%nat. change (if 5 =? 0 then 4%nat else 8%nat) with 8%nat. change (uses_zebra_compat 5 body) with false. destruct (mp_addr_len _ _); reflexivity. }
    cbv zeta. rewrite Q. clear Q. split.
    + destruct (peers_opt sub body) as [m|] eqn:P; [|discriminate]. apply peers_opt_iff in P. destruct (Nat.eqb_spec (length body) (m + 4)); [|discriminate]. intros H. injection H as <-. left. eauto.
    + intros [(-> & _ & m & P & L)|(_ & H & _)].
      * apply peers_opt_iff in P. rewrite P, L, Nat.eqb_refl. reflexivity.
      * exfalso. cbn in H, I05. clear -H I05. lia.
  - assert (IM : In sub [1; 4; 6; 7; 8; 9; 10; 11]) by (cbn in *; lia).
    match goal with |- ?a = _ <-> _ => assert (Q : a = match peers_opt sub body with Some m => if message_opt m body then Some BgpMarkerChain else None | None => None end) end.
    { unfold peers_opt. replace (if (sub =? 1) || (sub =? 6) || (sub =? 8) || (sub =? 10) then 4%nat else 8%nat) with (two_asns sub). 2: { cbn in IM. clear -IM. destruct IM as [<-|[<-|[<-|[<-|[<-|[<-|[<-|[<-|[]]]]]]]]]; reflexivity. }
      assert (G : forall m, match get_range m 19 body with
        | Some h => let len := be_val (firstn 2 (skipn 16 h)) in let ty := nth 18 h 0 in
          if negb (forallb (N.eqb 255) (firstn 16 h)) then None else
          if negb ((19 <=? len) && (len <=? 65535)) || negb ((1 <=? ty) && (ty <=? 4)) || negb (N.of_nat m + len =? nlen body) then None else
          match ty with
          | 1 => if 4096 <? len then None else Some BgpMarkerChain
          | 2 => if len <? 23 then None else Some BgpMarkerChain
          | 3 => if len <? 21 then None else Some BgpMarkerChain
          | _ => if negb (len =? 19) then None else Some BgpMarkerChain
          end
        | None => None end = if message_opt m body then Some BgpMarkerChain else None).
      { intros m. unfold message_opt. destruct (get_range m 19 body); [|reflexivity]. cbv zeta. destruct (negb (forallb _ _)); [reflexivity|]. destruct (negb _ || negb _ || negb _); [reflexivity|].
        destruct (nth 18 _ 0) as [|[[?|?|]|[?|[?|?|]|]|]]; repeat match goal with |- context [if ?b then _ else _] => destruct b end; reflexivity. }
      destruct (uses_zebra_compat sub body); [apply G|]. destruct (mp_addr_len _ _); [apply G|reflexivity]. }
    rewrite Q. clear Q. split.
    + destruct (peers_opt sub body) as [m|] eqn:P; [|discriminate]. apply peers_opt_iff in P. destruct (message_opt m body) eqn:M; [|discriminate]. intros H. injection H as <-. apply message_opt_iff in M as (x & s & E & <- & B). right. eauto 10.
    + intros [(_ & H & _)|(-> & _ & x & s & E & P & B)].
      * exfalso. cbn in H, S05. clear -H S05. lia.
      * apply peers_opt_iff in P. rewrite P. replace (message_opt (length x) body) with true; [reflexivity|]. symmetry. apply message_opt_iff. eauto.
Qed.
Lemma legacy_iff sub len : legacy_plausible sub len = true <-> legacy_size sub len.
Proof. unfold legacy_plausible, legacy_size. split; destruct sub as [|[[[?|?|]|[?|?|]|]|[[?|?|]|[?|?|]|]|]]; lia. Qed.
Lemma types_differ : ET_BGP <> ET_BGP4MP /\ ET_BGP <> ET_BGP4MP_ET /\ ET_BGP <> ET_TABLE_DUMP /\ ET_BGP4MP <> ET_TABLE_DUMP /\ ET_BGP4MP_ET <> ET_TABLE_DUMP.
Proof. repeat split; discriminate. Qed.
Lemma family_small h f : header_family h = Some f -> h_len h <= 65599 /\ (h_type h =? ET_TABLE_DUMP) = false.
Proof.
  pose proof types_differ as T. unfold header_family. destruct (N.eqb_spec (h_type h) ET_BGP) as [E|E].
  - destruct (legacy_plausible _ _) eqn:L; [|discriminate]. intros _. apply legacy_iff in L. unfold legacy_size in L. split; [lia|]. apply N.eqb_neq. rewrite E. tauto.
  - destruct (N.eqb_spec (h_type h) ET_BGP4MP) as [E1|E1]; [|destruct (N.eqb_spec (h_type h) ET_BGP4MP_ET) as [E2|E2]; [|discriminate]]; cbn [orb]; (destruct (mp_known _ && _) eqn:K; [|discriminate]); intros _; (split; [lia|]); apply N.eqb_neq; [rewrite E1|rewrite E2]; tauto.
Qed.
Lemma candidate_iff d f ev t : flat_candidate d = Some (f, ev, t) <-> exists r, d = raw_bytes r ++ t /\ readable r /\ anchor r ev /\ (if f then is_legacy r else is_bgp4mp r).
Proof.
  pose proof types_differ as T. split.
  - unfold flat_candidate. destruct (flat_header d) as [[[h hb] s]|] eqn:FH; [|discriminate]. destruct (header_family h) as [f'|] eqn:HF; [|discriminate].
    destruct (match h_us h with Some u => 1000000 <=? u | None => false end) eqn:US; [discriminate|]. destruct (splitn (N.to_nat (h_len h)) s) as [[body s']|] eqn:SP; [|discriminate].
    set (r := Raw h hb body). destruct (if f' then Some LegacyMrtChain else strict_shape r) as [ev'|] eqn:SH; [|discriminate]. destruct (parse_raw r) as [x| |] eqn:PR; [|discriminate|discriminate].
    intros Q. injection Q as <- <- <-. pose proof (family_small _ _ HF) as (SM & NT).
    assert (C : chunk_mrt_record d = FRec r s'). { rewrite chunk_flat. unfold flat_chunk. rewrite FH. unfold MAX_MRT_MESSAGE_LEN. destruct (N.ltb_spec 16777216 (h_len h)); [lia|]. rewrite SP, NT. reflexivity. }
    apply flat_rec in C as (-> & C & _). exists r. split; [reflexivity|]. split; [split; eauto|].
    assert (NB : h_len h = nlen body). { apply splitn_some in SP as (_ & SP). unfold nlen. lia. }
    assert (U : match h_us (r_hdr r) with Some u => u < 1000000 | None => True end) by (cbn; destruct (h_us h); [lia|auto]).
    unfold header_family in HF. rewrite NB in *. destruct (N.eqb_spec (h_type h) ET_BGP) as [E|E].
    + destruct (legacy_plausible _ _) eqn:L; [|discriminate]. injection HF as <-. injection SH as <-. apply legacy_iff in L. split; [|exact E]. split; [|exact U]. split; [exact E|exact L].
    + destruct ((h_type h =? ET_BGP4MP) || (h_type h =? ET_BGP4MP_ET)) eqn:E2; [|discriminate]. destruct (mp_known _ && _) eqn:K; [|discriminate]. injection HF as <-.
      assert (IM : is_bgp4mp r) by (unfold is_bgp4mp; cbn [r r_hdr]; clear -E2; apply orb_true_iff in E2; rewrite !N.eqb_eq in E2; exact E2).
      split; [|exact IM]. apply strict_iff in SH. cbv zeta in SH. cbn [r r_hdr r_body] in SH. unfold anchor. split; [|exact U]. destruct SH as [(-> & I & m & P & Lm)|(-> & I & x' & m & Ex & P & B)]; (split; [exact IM|split; [exact I|split; [cbn [r r_body]; lia|]]]); eauto.
  - intros (r & -> & (F & x & PR) & (A & U) & FM). pose proof (framed_chunk r t F) as C. rewrite chunk_flat in C. unfold flat_chunk in C. unfold flat_candidate.
    destruct (flat_header (raw_bytes r ++ t)) as [[[h hb] s]|[[e c] rr]] eqn:FH. 2: { destruct e, c; discriminate C. }
    destruct (MAX_MRT_MESSAGE_LEN <? h_len h); [discriminate C|]. destruct (splitn (N.to_nat (h_len h)) s) as [[body s2]|] eqn:SP; [|discriminate C].
    assert (TY : h_type h = h_type (r_hdr r)). { destruct (_ && _); [destruct (splitn 4 s2) as [[? ?]|]; [|discriminate C]|]; injection C as <- _; reflexivity. }
    assert (NT : (h_type h =? ET_TABLE_DUMP) = false). { apply N.eqb_neq. rewrite TY. destruct f; [unfold is_legacy in FM; rewrite FM; tauto|]. destruct FM as [->| ->]; tauto. }
    rewrite NT in C. cbn [andb] in C. injection C as <- <-. cbn [r_hdr r_body] in *.
    assert (NB : h_len h = nlen body). { apply splitn_some in SP as (_ & SP). unfold nlen. lia. }
    assert (header_family h = Some f /\ (if f then Some LegacyMrtChain else strict_shape (Raw h hb body)) = Some ev) as (HF & SH).
    { unfold header_family. unfold anchor in A. cbn [r_hdr r_body] in A. destruct f.
      - unfold is_legacy in FM. cbn in FM. rewrite FM, N.eqb_refl. destruct ev; try contradiction; try (destruct A as (A & _); destruct A as [A|A]; cbn in A; rewrite A in FM; exfalso; destruct T as (T1 & T2 & _); congruence).
        destruct A as (_ & A). rewrite NB. apply legacy_iff in A. rewrite A. auto.
      - assert (NL : h_type h <> ET_BGP) by (destruct FM as [FM|FM]; cbn in FM; rewrite FM; intros X; destruct T as (T1 & T2 & _); congruence).
        apply N.eqb_neq in NL. rewrite NL. replace ((h_type h =? ET_BGP4MP) || (h_type h =? ET_BGP4MP_ET)) with true by (symmetry; apply orb_true_iff; rewrite !N.eqb_eq; exact FM).
        assert (K : In (h_sub h) [0; 5] \/ In (h_sub h) [1; 4; 6; 7; 8; 9; 10; 11] -> mp_known (h_sub h) = true).
        { intros H. unfold mp_known. apply existsb_exists. exists (h_sub h). rewrite N.eqb_refl. split; [cbn in *; clear -H; lia|reflexivity]. }
        destruct ev; try contradiction; [exfalso; apply N.eqb_neq in NL; apply NL, A| |].
        + destruct A as (_ & I & SZ & A). rewrite (K (or_intror I)), NB. destruct (N.leb_spec (nlen body) 65599); [|lia]. split; [reflexivity|]. apply strict_iff. right. cbn. auto.
        + destruct A as (_ & I & SZ & A). rewrite (K (or_introl I)), NB. destruct (N.leb_spec (nlen body) 65599); [|lia]. split; [reflexivity|]. apply strict_iff. left. cbn. auto. }
    rewrite HF, SH, PR. replace (match h_us h with Some u => 1000000 <=? u | None => false end) with false; [reflexivity|]. symmetry. destruct (h_us h); [lia|reflexivity].
Qed.
Lemma anchor_family r ev : anchor r ev -> is_legacy r \/ is_bgp4mp r.
Proof. intros (A & _). destruct ev; try contradiction; destruct A; auto. Qed.
Lemma chain_tail n : forall f ev k d v, flat_chain n (Some f) (Some ev) k d = Some v <-> v = (ev, k + N.of_nat n) /\ exists rs t, d = concat (map raw_bytes rs) ++ t /\ length rs = n /\ Forall readable rs /\ Forall (fun x => exists ev', anchor x ev') rs /\ Forall (fun r => if f then is_legacy r else is_bgp4mp r) rs.
Proof.
  induction n as [|n IH]; intros f ev k d v; cbn [flat_chain].
  - split.
    + intros Q. injection Q as <-. split; [f_equal; lia|]. exists [], d. repeat split; constructor.
    + intros (-> & _). repeat f_equal. lia.
  - split.
    + destruct (flat_candidate d) as [[[f' e'] t']|] eqn:C; [|discriminate]. destruct (Bool.eqb f f') eqn:BE; [|discriminate]. apply eqb_prop in BE. subst f'. cbn [negb]. intros H. apply IH in H as (-> & rs & t & -> & L & A & B & D). split; [f_equal; lia|].
      apply candidate_iff in C as (r & -> & R1 & R2 & R3). exists (r :: rs), t. split; [cbn [map concat]; rewrite app_assoc; reflexivity|]. split; [cbn; lia|]. repeat split; constructor; eauto.
    + intros (-> & rs & t & -> & L & A & B & D). destruct rs as [|r rs]; [discriminate|]. inversion A; subst. inversion B; subst. inversion D; subst. cbn in L. injection L as L.
      match goal with H : exists ev', anchor r ev' |- _ => destruct H as (e' & AN) end.
      assert (C : flat_candidate (concat (map raw_bytes (r :: rs)) ++ t) = Some (f, e', concat (map raw_bytes rs) ++ t)). { apply candidate_iff. exists r. cbn [map concat]. rewrite app_assoc. auto. }
      rewrite C. rewrite eqb_reflx. cbn [negb]. apply IH. split; [f_equal; lia|]. exists rs, t. auto.
Qed.
Lemma chain_iff n ev k d : (0 < n)%nat -> flat_chain n None None 0 d = Some (ev, k) <-> k = N.of_nat n /\ chain (N.of_nat n) ev d.
Proof.
  destruct n as [|n]; [lia|]. intros _. cbn [flat_chain]. split.
  - destruct (flat_candidate d) as [[[f e'] t']|] eqn:C; [|discriminate]. intros H. apply chain_tail in H as (Q & rs & t & -> & L & A & B & D). assert (k = 0 + 1 + N.of_nat n) by congruence. assert (ev = e') by congruence. subst e'. clear Q. split; [lia|].
    apply candidate_iff in C as (r & -> & R1 & R2 & R3). exists r, rs, t. split; [cbn [map concat]; rewrite app_assoc; reflexivity|]. split; [unfold nlen; cbn [length]; lia|]. split; [constructor; auto|]. split; [auto|]. split; [auto|]. destruct f; [left|right]; constructor; auto.
  - intros (-> & r & rs & t & -> & L & A & AN & B & D). inversion A; subst.
    assert (exists f : bool, Forall (fun r => if f then is_legacy r else is_bgp4mp r) (r :: rs)) as (f & FF) by (destruct D; [exists true|exists false]; auto). inversion FF; subst.
    assert (C : flat_candidate (concat (map raw_bytes (r :: rs)) ++ t) = Some (f, ev, concat (map raw_bytes rs) ++ t)). { apply candidate_iff. exists r. cbn [map concat]. rewrite app_assoc. auto. }
    rewrite C. apply chain_tail. split; [f_equal; lia|]. exists rs, t. unfold nlen in L. cbn [length] in L. repeat split; auto. lia.
Qed.
Lemma header_peek d h hb s : flat_header d = inl (h, hb, s) -> flat_peek (skipn 4 d) = Some (h_type h).
Proof.
  unfold flat_header. destruct (splitn 12 d) as [[base s1]|] eqn:S; [|discriminate]. apply splitn_some in S as (-> & L).
  assert (P : flat_peek (skipn 4 (base ++ s1)) = Some (be_val (firstn 2 (skipn 4 base)))). { do 13 (destruct base as [|? base]; try discriminate). reflexivity. }
  rewrite P. unfold split_header. destruct (negb _); [discriminate|]. destruct (N.eqb_spec (be_val (firstn 2 (skipn 4 base))) ET_BGP4MP_ET) as [E|E].
  - destruct (_ <? 4); [discriminate|]. destruct (splitn 4 s1) as [[? ?]|]; [|discriminate]. intros Q. injection Q as <- <- <-. reflexivity.
  - intros Q. injection Q as <- <- <-. reflexivity.
Qed.
Lemma framed_header r t : framed r -> exists s, flat_header (raw_bytes r ++ t) = inl (r_hdr r, r_hbytes r, s).
Proof.
  intros F. pose proof (framed_chunk r t F) as C. rewrite chunk_flat in C. unfold flat_chunk in C.
  destruct (flat_header (raw_bytes r ++ t)) as [[[h hb] s]|[[e c] rr]] eqn:FH. 2: { destruct e, c; discriminate C. }
  destruct (_ <? _); [discriminate C|]. destruct (splitn _ s) as [[body s2]|]; [|discriminate C]. exists s.
  destruct (_ && _); [destruct (splitn 4 s2) as [[? ?]|]; [|discriminate C]|]; injection C as <- _; reflexivity.
Qed.
Lemma chain_peek n ev d : chain n ev d -> exists ty, flat_peek (skipn 4 d) = Some ty /\ is_anchor ty = true.
Proof.
  intros (r & rs & t & -> & _ & R & A & _). inversion R as [|? ? (F & _) _]; subst. cbn [map concat]. rewrite <- app_assoc. destruct (framed_header r (concat (map raw_bytes rs) ++ t) F) as (s & FH).
  apply header_peek in FH. exists (h_type (r_hdr r)). split; [exact FH|]. unfold is_anchor. apply anchor_family in A as [A|[A|A]]; rewrite A; reflexivity.
Qed.
Lemma flat_peek_none d : flat_peek d = None -> (length d < 2)%nat.
Proof. destruct d as [|a [|b d]]; try discriminate; cbn [length]; lia. Qed.
Lemma scan_sound n base conf d : 0 < conf -> forall c, base <= c ->
  match flat_scan n base c conf d with
  | Found o ev k => c <= o /\ o < c + N.of_nat n /\ o < base + nlen d /\ k = conf /\ chain conf ev (skipn (N.to_nat (o - base)) d) /\
      forall o' ev', c <= o' -> o' < o -> ~ chain conf ev' (skipn (N.to_nat (o' - base)) d)
  | AtEnd o => o = base + nlen d /\ base + nlen d < c + N.of_nat n + 5 /\ forall o' ev', c <= o' -> ~ chain conf ev' (skipn (N.to_nat (o' - base)) d)
  | Exhausted => (n = 0%nat \/ c + N.of_nat n + 5 <= base + nlen d) /\ forall o' ev', c <= o' -> o' < c + N.of_nat n -> ~ chain conf ev' (skipn (N.to_nat (o' - base)) d)
  end.
Proof.
  intros CF. assert (CI : forall ev k s, flat_chain (N.to_nat conf) None None 0 s = Some (ev, k) <-> k = conf /\ chain conf ev s).
  { intros ev k s. rewrite (chain_iff (N.to_nat conf) ev k s) by lia. rewrite N2Nat.id. reflexivity. }
  induction n as [|n IH]; intros c B; cbn [flat_scan]. { split; [auto|]. intros. lia. }
  assert (SK : skipn 4 (skipn (N.to_nat (c - base)) d) = skipn (N.to_nat (c + 4 - base)) d) by (rewrite skipn_skipn; f_equal; lia).
  destruct (flat_peek (skipn (N.to_nat (c + 4 - base)) d)) as [ty|] eqn:P.
  - pose proof (flat_peek_len _ _ P) as PL. rewrite skipn_length in PL.
    assert (NEXT : (forall ev, ~ chain conf ev (skipn (N.to_nat (c - base)) d)) -> match flat_scan n base (c + 1) conf d with
      | Found o ev k => c <= o /\ o < c + N.of_nat (S n) /\ o < base + nlen d /\ k = conf /\ chain conf ev (skipn (N.to_nat (o - base)) d) /\
          forall o' ev', c <= o' -> o' < o -> ~ chain conf ev' (skipn (N.to_nat (o' - base)) d)
      | AtEnd o => o = base + nlen d /\ base + nlen d < c + N.of_nat (S n) + 5 /\ forall o' ev', c <= o' -> ~ chain conf ev' (skipn (N.to_nat (o' - base)) d)
      | Exhausted => (S n = 0%nat \/ c + N.of_nat (S n) + 5 <= base + nlen d) /\ forall o' ev', c <= o' -> o' < c + N.of_nat (S n) -> ~ chain conf ev' (skipn (N.to_nat (o' - base)) d)
      end).
    { intros NC. assert (NC' : forall o' ev, o' = c -> ~ chain conf ev (skipn (N.to_nat (o' - base)) d)) by (intros ? ? ->; apply NC).
      specialize (IH (c + 1) ltac:(lia)). destruct (flat_scan n base (c + 1) conf d) as [o ev k|o|].
      - destruct IH as (I1 & I2 & I3 & I4 & I5 & I6). split; [lia|split; [lia|split; [lia|split; [auto|split; [auto|]]]]]. intros o' ev' L1 L2. destruct (N.eq_dec o' c) as [E|E]; [apply NC'; auto|apply I6; lia].
      - destruct IH as (I1 & I2 & I6). split; [lia|split; [lia|]]. intros o' ev' L1. destruct (N.eq_dec o' c) as [E|E]; [apply NC'; auto|apply I6; lia].
      - destruct IH as (I1 & I6). split. { unfold nlen in *. lia. } intros o' ev' L1 L2. destruct (N.eq_dec o' c) as [E|E]; [apply NC'; auto|apply I6; lia]. }
    destruct (is_anchor ty) eqn:AN; cbn [negb].
    + destruct (flat_chain _ _ _ _ _) as [[ev k]|] eqn:FC.
      * apply CI in FC as (-> & FC). split; [lia|split; [lia|]]. split; [unfold nlen; lia|]. split; [auto|split; [auto|]]. intros; lia.
      * apply NEXT. intros ev H. assert (flat_chain (N.to_nat conf) None None 0 (skipn (N.to_nat (c - base)) d) = Some (ev, conf)) by (apply CI; auto). congruence.
    + apply NEXT. intros ev H. apply chain_peek in H as (ty' & H1 & H2). rewrite SK in H1. congruence.
  - apply flat_peek_none in P. rewrite skipn_length in P. split; [auto|]. split; [unfold nlen; lia|]. intros o' ev' L H. apply chain_peek in H as (ty' & H1 & _). apply flat_peek_len in H1. rewrite !skipn_length in H1. lia.
Qed.
Lemma confirm_sound n : forall k d v, flat_confirm n k d = Some v -> exists rs t, d = concat (map raw_bytes rs) ++ t /\ Forall readable rs /\ v = k + nlen rs /\ (length rs = n \/ (length rs < n)%nat /\ t = []).
Proof.
  induction n as [|n IH]; intros k d v; cbn [flat_confirm]. { intros Q. injection Q as <-. exists [], d. repeat split; auto. unfold nlen. cbn. lia. }
  destruct (chunk_mrt_record d) as [r t|e h c t] eqn:C.
  - pose proof (flat_rec _ _ _ C) as (-> & F & _). destruct (parse_raw r) as [x|e|] eqn:PR; [| |discriminate].
    + intros H. apply IH in H as (rs & t' & -> & R & -> & L). exists (r :: rs), t'. split; [cbn [map concat]; rewrite app_assoc; reflexivity|]. split; [constructor; [split; eauto|auto]|]. unfold nlen. cbn [length]. split; [lia|]. destruct L as [L|(L & O)]; [left; lia|right; split; [lia|auto]].
    + apply BodyErrFacts.raw_kind in PR. destruct e; discriminate.
  - destruct e; try discriminate. intros Q. injection Q as <-. apply flat_err_some in C. destruct c as [c|]; [destruct C as (_ & _ & C); congruence|]. destruct C as (_ & -> & _).
    exists [], []. split; [reflexivity|split; [constructor|]]. unfold nlen. cbn [length]. split; [lia|]. right. split; [lia|]. reflexivity.
Qed.
Lemma confirm_complete rs : forall n k t, Forall readable rs -> (length rs = n \/ (length rs < n)%nat /\ t = []) -> flat_confirm n k (concat (map raw_bytes rs) ++ t) = Some (k + nlen rs).
Proof.
  induction rs as [|r rs IH]; intros n k t R L; unfold nlen; cbn [length] in *.
  - destruct n as [|n]; cbn [flat_confirm]; [f_equal; lia|]. destruct L as [L|(_ & ->)]; [lia|]. cbn [map concat app]. change (chunk_mrt_record []) with (FErr EEofExpected None None []). cbv iota beta. f_equal; lia.
  - destruct n as [|n]; [lia|]. inversion R as [|? ? (F & x & PR) R']; subst. cbn [flat_confirm map concat]. rewrite <- app_assoc, (framed_chunk r _ F), PR, (IH n (k + 1) t R') by (destruct L as [L|(L & L')]; [left; lia|right; split; [lia|auto]]). f_equal. unfold nlen. lia.
Qed.
(** The search gives up only when no chain begins within the limit. *)
Definition search_fails (c : recovery_config) (rest : bytes) : Prop :=
  (rc_max_scan c = 0 \/ rc_max_scan c + 6 <= nlen rest) /\
  forall k ev, (0 < k)%nat -> N.of_nat k <= rc_max_scan c -> ~ chain (required c) ev (skipn k rest).
(** The gap reported is true; when none is, the search has failed. *)
Lemma recover_true c start framed_end e d r t0 (FE : match framed_end with Some b => d = raw_bytes r ++ t0 /\ framed r /\ parse_raw r = Err e /\ b = start + nlen (raw_bytes r) | None => True end) :
  d <> [] -> damaged d e ->
  match flat_recover c start framed_end e d with
  | Some g => exists skipped rest, d = skipped ++ rest /\ skipped <> [] /\ g_start g = start /\ g_end g = start + nlen skipped /\ skipn (N.to_nat (g_end g - start)) d = rest /\ g_cause g = e /\ gap_true c skipped rest g
  | None => search_fails c d
  end.
Proof.
  intros NE DM. assert (SE : match flat_search c start e d with
    | Some g => exists skipped rest, d = skipped ++ rest /\ skipped <> [] /\ g_start g = start /\ g_end g = start + nlen skipped /\ skipn (N.to_nat (g_end g - start)) d = rest /\ g_cause g = e /\ gap_true c skipped rest g
    | None => search_fails c d end).
  { unfold flat_search. fold (required c). assert (RQ : 0 < required c) by (unfold required; lia). pose proof (scan_sound (N.to_nat (rc_max_scan c)) start (required c) d RQ (start + 1) ltac:(lia)) as S.
    destruct (flat_scan _ _ _ _ _) as [o ev k|o|].
    - destruct S as (S1 & S2 & S3 & S4 & S5 & S6). set (i := N.to_nat (o - start)) in *. assert (Ii : N.of_nat i = o - start) by (unfold i; lia). exists (firstn i d), (skipn i d). unfold nlen in S3. assert (LF : length (firstn i d) = i) by (rewrite firstn_length; lia).
      split; [symmetry; apply firstn_skipn|]. split. { destruct (firstn i d); [cbn in LF; lia|discriminate]. } split; [reflexivity|]. cbn [g_end g_cause]. split; [unfold nlen; rewrite LF; lia|]. split; [reflexivity|]. split; [reflexivity|]. unfold gap_true. cbn [g_evidence g_confirmed g_cause].
      split; [rewrite firstn_skipn; exact DM|]. split.
      + assert (nlen (firstn i d) <= rc_max_scan c) by (unfold nlen; rewrite LF; lia).
        assert (exists r, anchor r ev) as (r' & A') by (destruct S5 as (r' & _ & _ & _ & _ & _ & A' & _); eauto). destruct ev; try (destruct A' as ([] & _)); auto.
      + right. intros k' ev' L. rewrite firstn_skipn. rewrite LF in L. specialize (S6 (start + N.of_nat k') ev' ltac:(lia) ltac:(lia)). replace (N.to_nat (start + N.of_nat k' - start)) with k' in S6 by lia. exact S6.
    - destruct S as (S1 & S2 & S6). exists d, []. split; [rewrite app_nil_r; reflexivity|]. split; [exact NE|]. split; [reflexivity|]. cbn [g_end g_cause]. split; [exact S1|]. split; [apply skipn_all2; unfold nlen in S1; lia|]. split; [reflexivity|]. unfold gap_true. cbn [g_evidence g_confirmed g_cause]. split; [rewrite app_nil_r; exact DM|]. split; [split; [reflexivity|split; [reflexivity|lia]]|].
      right. intros k' ev' L. rewrite app_nil_r. specialize (S6 (start + N.of_nat k') ev' ltac:(lia)). replace (N.to_nat (start + N.of_nat k' - start)) with k' in S6 by lia. exact S6.
    - destruct S as (S1 & S6). split; [lia|]. intros k' ev' L1 L2. specialize (S6 (start + N.of_nat k') ev' ltac:(lia) ltac:(lia)). replace (N.to_nat (start + N.of_nat k' - start)) with k' in S6 by lia. exact S6. }
  unfold flat_recover. destruct framed_end as [b|]; [|exact SE]. destruct FE as (ED & F & PR & EB).
  destruct (flat_confirm _ _ _) as [k|] eqn:FC; [|exact SE]. fold (required c) in FC.
  assert (SK : skipn (N.to_nat (b - start)) d = t0). { rewrite EB, ED. unfold nlen. replace (N.to_nat (start + N.of_nat (length (raw_bytes r)) - start)) with (length (raw_bytes r)) by lia. rewrite skipn_app, skipn_all, Nat.sub_diag. reflexivity. }
  rewrite SK in FC. apply confirm_sound in FC as (rs & t & -> & R & -> & L). exists (raw_bytes r), (concat (map raw_bytes rs) ++ t). split; [exact ED|]. split. { pose proof (flat_rec _ _ _ F) as (_ & _ & L12). destruct (raw_bytes r); [cbn in L12; lia|discriminate]. }
  split; [reflexivity|]. split; [exact EB|]. split; [exact SK|]. split; [reflexivity|]. unfold gap_true. cbn [g_evidence g_confirmed g_cause]. split; [rewrite ED in DM; exact DM|]. split; [|left; reflexivity]. split; [eauto|]. exists rs, t. split; [reflexivity|split; [exact R|split; [lia|]]]. unfold nlen. destruct L as [L|(L & O)]; [left; lia|right; split; [lia|exact O]].
Qed.

(** ** The iterators *)
Fixpoint seg_table (t : option peer_table) (l : list seg) : option peer_table :=
  match l with [] => t | SRec _ x :: l' => seg_table (table_after t x) l' | SGap _ _ :: l' => seg_table t l' end.
Lemma seg_all_app a b : seg_all (a ++ b) = seg_all a ++ seg_all b.
Proof. unfold seg_all. rewrite map_app, concat_app. reflexivity. Qed.
Lemma shown_app show fs t a b : shown show fs t (a ++ b) = shown show fs t a ++ shown show fs (seg_table t a) b.
Proof. revert t. induction a as [|[r x|b0 g] a IH]; intros t; cbn [app shown seg_table]; [reflexivity| |]; rewrite IH; [apply app_assoc|reflexivity]. Qed.
Lemma shown_nil show t t' l : shown show [] t l = shown show [] t' l.
Proof. revert t t'. induction l as [|[r x|b0 g] l IH]; intros t t'; cbn [shown passes]; [reflexivity| |]; f_equal; apply IH. Qed.
Lemma tiled_app c a b tail : forall pos, tiled c pos (a ++ b) tail <-> tiled c pos a (seg_all b ++ tail) /\ tiled c (pos + nlen (seg_all a)) b tail.
Proof.
  induction a as [|[r x|b0 g] a IH]; intros pos; cbn [app tiled].
  - change (nlen (seg_all [])) with 0. rewrite N.add_0_r. tauto.
  - rewrite IH. replace (pos + nlen (seg_all (SRec r x :: a))) with (pos + nlen (raw_bytes r) + nlen (seg_all a)) by (unfold seg_all; cbn [map concat seg_bytes]; rewrite nlen_app; lia). tauto.
  - split.
    + intros (H1 & H2 & H3 & H4 & H5). apply IH in H5 as (H5 & H6). rewrite seg_all_app, <- app_assoc in H4. split; [auto|]. rewrite H3 in H6. replace (pos + nlen (seg_all (SGap b0 g :: a))) with (pos + nlen b0 + nlen (seg_all a)) by (unfold seg_all; cbn [map concat seg_bytes]; rewrite nlen_app; lia). exact H6.
    + intros ((H1 & H2 & H3 & H4 & H5) & H6). split; [auto|split; [auto|split; [auto|split]]]. { rewrite seg_all_app, <- app_assoc. exact H4. }
      apply IH. split; [exact H5|]. rewrite H3. replace (pos + nlen b0 + nlen (seg_all a)) with (pos + nlen (seg_all (SGap b0 g :: a))) by (unfold seg_all; cbn [map concat seg_bytes]; rewrite nlen_app; lia). exact H6.
Qed.
Lemma tiled_small c l tail : forall pos, tiled c pos l tail -> (length l <= length (seg_all l))%nat.
Proof.
  induction l as [|[r x|b0 g] l IH]; intros pos; cbn [tiled]; [cbn; lia| |]; unfold seg_all; cbn [map concat seg_bytes length]; rewrite app_length.
  - intros (F & _ & H). apply IH in H. unfold seg_all in H. apply flat_rec in F as (_ & _ & F). lia.
  - intros (N0 & _ & _ & _ & H). apply IH in H. unfold seg_all in H. destruct b0; [congruence|]. cbn [length]. lia.
Qed.
Lemma shown_small show fs l : forall t, (length (shown show fs t l) <= length l)%nat.
Proof. induction l as [|[r x|b0 g] l IH]; intros t; cbn [shown length]; [lia| |]. - rewrite app_length. specialize (IH (table_after t x)). destruct (passes _ _ _); cbn [length]; lia. - specialize (IH t). lia. Qed.


Definition rok (show : meta_community -> bytes) (st : recovering) (o : option (event mrt_record + rerror)) (st' : recovering) : Prop :=
  let s := sbytes (rs_stream st) in let c := rs_config st in let fs := rs_filters st in
  exists segs tail, s = seg_all segs ++ tail /\ tiled c (rs_offset st) segs tail /\
  match o with
  | None => tail = [] /\ shown show fs (rs_el st) segs = [] /\ rs_finished st' = true
  | Some (inr x) => shown show fs (rs_el st) segs = [] /\ rs_finished st' = true /\ re_offset x = rs_offset st + nlen (seg_all segs) /\ (quiet (rs_stream st) -> gives_up c tail x)
  | Some (inl ev) => segs <> [] /\ shown show fs (rs_el st) segs = [ev] /\ sbytes (rs_stream st') = tail /\ rs_offset st' = rs_offset st + nlen (seg_all segs) /\
      rs_config st' = c /\ rs_filters st' = fs /\ rs_finished st' = false /\ rs_unsupported st' = false /\ (fs = [] \/ rs_el st' = seg_table (rs_el st) segs) /\ (quiet (rs_stream st) -> quiet (rs_stream st'))
  end.
Lemma read_offset st s r : sbytes (rs_stream st) = r ++ sbytes s -> rs_offset (rs_read st s) = rs_offset st + nlen r.
Proof. intros E. cbn [rs_read rs_at rs_offset]. rewrite E, nlen_app. lia. Qed.
Lemma damaged_nonempty s e : damaged s e -> s <> [].
Proof.
  intros [(h & c & t & C & N0)|(r & t & C & _)] ->.
  - change (chunk_mrt_record []) with (FErr EEofExpected None None []) in C. congruence.
  - discriminate C.
Qed.
Lemma recover_rok show st st1 framed_end e c r t0 d :
  d = sbytes (rs_stream st) -> keeps st st1 -> rs_finished st = false -> rs_unsupported st = false ->
  d = match c with Some b => b | None => [] end ++ sbytes (rs_stream st1) ->
  rs_offset st1 = rs_offset st + nlen (match c with Some b => b | None => [] end) ->
  (quiet (rs_stream st) -> quiet (rs_stream st1)) -> damaged d e ->
  match framed_end with Some b => d = raw_bytes r ++ t0 /\ framed r /\ parse_raw r = Err e /\ b = rs_offset st + nlen (raw_bytes r) /\ b = rs_offset st1 | None => True end ->
  exists o st', recover st1 (rs_offset st) framed_end e c = Ok (o, st') /\ rok show st o st' /\ o <> None.
Proof.
  intros D (KC & KF & KE & KO & KU & KD) FI UN D1 O1 Q DM FE.
  pose proof (recover_true (rs_config st) (rs_offset st) framed_end e d r t0 ltac:(destruct framed_end; [tauto|exact I]) (damaged_nonempty _ _ DM) DM) as RT.
  destruct (recover_spec st1 (rs_offset st) framed_end e c d D1 (eq_sym O1) ltac:(destruct framed_end; [tauto|exact I])) as (st' & _ & [(g & R & FR & (C1 & C2 & C3 & C4 & C5 & C6) & O2 & B2 & Q2)|(x & R & F2 & X1 & X2)]).
  - rewrite KC in FR. rewrite FR in RT. destruct RT as (sk & rest & ED & NE & G1 & G2 & G3 & G4 & G5).
    exists (Some (inl (Gap g))), st'. split; [exact R|]. split; [|discriminate]. exists [SGap sk g], rest. unfold seg_all. cbn [map concat seg_bytes]. rewrite app_nil_r. split; [congruence|]. split.
    { cbn [tiled]. split; [exact NE|split; [exact G1|split; [exact G2|split; [exact G5|exact I]]]]. }
    split; [discriminate|]. split; [reflexivity|]. split; [congruence|]. split; [congruence|]. repeat split; try congruence. { right. cbn [seg_table]. congruence. } auto.
  - exists (Some (inr x)), st'. split; [exact R|]. split; [|discriminate]. exists [], d. unfold seg_all. cbn [map concat app]. split; [auto|]. split; [exact I|]. split; [reflexivity|]. split; [exact F2|]. split; [unfold nlen; cbn; lia|].
    intros q. destruct (X2 (Q q)) as (FR & ->). rewrite KC in *. rewrite FR in RT. split; [exact DM|]. split; [reflexivity|exact RT].
Qed.
Lemma rloop_ok show fuel : forall st, (length (sbytes (rs_stream st)) < fuel)%nat -> rs_finished st = false -> rs_unsupported st = false ->
  exists o st', rnext_loop show fuel st = Ok (o, st') /\ rok show st o st'.
Proof.
  induction fuel as [|fuel IH]; intros st L FI UN; [lia|]. cbn [rnext_loop].
  pose proof (chunk_flat_any (rs_stream st)) as C. pose proof (chunk_bytes (rs_stream st)) as CB.
  destruct (chunk_mrt_record_s (rs_stream st)) as [r s|e h c s].
  - destruct C as (C & Q & _). destruct CB as (CB & L12). pose proof (flat_rec _ _ _ C) as (_ & F & _).
    pose proof (raw_np r) as NP. destruct (parse_raw r) as [x|e|] eqn:PR; [| |exfalso; apply NP; reflexivity].
    + destruct (matches_rec show x (rs_filters st) (rs_el st)) as (el' & M & EL). change (rs_filters (rs_read st s)) with (rs_filters st). change (rs_el (rs_read st s)) with (rs_el st). rewrite M. cbn [rbind].
      assert (EL' : rs_filters st = [] \/ el' = table_after (rs_el st) x) by (destruct EL as [(-> & _)|EL]; auto).
      assert (TI : forall tl, tiled (rs_config st) (rs_offset st) [SRec r x] tl) by (intros; cbn [tiled]; auto).
      assert (O1 := read_offset st s (raw_bytes r) CB).
      match goal with |- context [if ?b then Ok _ else _] => destruct b eqn:P end; unfold elementor in P.
      * eexists; eexists. split; [reflexivity|]. exists [SRec r x], (sbytes s). unfold seg_all. cbn [map concat seg_bytes]. rewrite app_nil_r. split; [exact CB|]. split; [apply TI|]. split; [discriminate|]. split; [cbn [shown]; rewrite P; reflexivity|]. split; [reflexivity|]. split; [exact O1|]. repeat split; auto.
      * assert (LL : (length (sbytes (rs_stream (rs_with_el (rs_read st s) el'))) < fuel)%nat). { cbn. rewrite CB, app_length in L. lia. }
        destruct (IH (rs_with_el (rs_read st s) el') LL FI UN) as (o & st' & R & segs & tail & H1 & H2 & H3). exists o, st'. split; [exact R|].
        change (rs_offset (rs_with_el (rs_read st s) el')) with (rs_offset (rs_read st s)) in *. rewrite O1 in *. cbn [rs_with_el rs_read rs_at rs_config rs_filters rs_el rs_stream] in H1, H2, H3.
        exists (SRec r x :: segs), tail. change (SRec r x :: segs) with ([SRec r x] ++ segs).
        assert (ALL : seg_all ([SRec r x] ++ segs) = raw_bytes r ++ seg_all segs) by reflexivity.
        assert (SH : shown show (rs_filters st) (rs_el st) ([SRec r x] ++ segs) = shown show (rs_filters st) el' segs).
        { rewrite shown_app. cbn [shown seg_table]. rewrite P. cbn [app]. destruct EL' as [->| ->]; [apply shown_nil|reflexivity]. }
        rewrite ALL, SH. split; [rewrite CB, H1, app_assoc; reflexivity|]. split. { apply tiled_app. split; [apply TI|]. replace (rs_offset st + nlen (seg_all [SRec r x])) with (rs_offset st + nlen (raw_bytes r)) by (unfold seg_all; cbn [map concat seg_bytes]; rewrite app_nil_r; reflexivity). exact H2. }
        destruct o as [[ev|x']|].
        -- destruct H3 as (H3 & H4 & H5 & H6 & H7 & H8 & H9 & H10 & H11 & H12). split; [discriminate|]. repeat split; auto. { rewrite nlen_app. lia. } destruct H11 as [H11|H11]; [auto|]. destruct EL' as [EL'|EL']; [auto|]. right. rewrite H11, EL'. reflexivity.
        -- destruct H3 as (H3 & H4 & H5 & H6). repeat split; auto. { rewrite nlen_app. lia. } apply H6; auto. apply H6; auto. all: apply H6; auto.
        -- exact H3.
    + assert (DM : damaged (sbytes (rs_stream st)) e) by (right; eauto).
      assert (O1 := read_offset st s (raw_bytes r) CB).
      destruct (recover_rok show st (rs_read st s) (Some (rs_offset (rs_read st s))) e (Some (raw_bytes r)) r (sbytes s) (sbytes (rs_stream st)) eq_refl) as (o & st' & R & K & _); auto; try (repeat split; auto; fail). eauto.
  - destruct C as (C & Q). destruct (io_failure e (rs_stream st) s) eqn:IO.
    + assert (NE : e <> EEofExpected) by (intros ->; discriminate IO).
      assert (G : exists o st', Ok (Some (inr (RError (rs_offset st) 0 e c)), rs_finish (rs_read st s)) = Ok (o, st') /\ rok show st o st').
      { eexists; eexists. split; [reflexivity|]. exists [], (sbytes (rs_stream st)). split; [reflexivity|]. split; [exact I|]. split; [reflexivity|]. split; [reflexivity|]. split; [cbn; lia|]. intros q. destruct (Q q). congruence. }
      destruct e; try congruence; exact G.
    + specialize (C eq_refl). pose proof (flat_err_some _ _ _ _ _ C) as FS. destruct c as [c|].
      * destruct FS as (B & NB & NE). assert (DM : damaged (sbytes (rs_stream st)) e) by (left; eauto 10).
        assert (O1 := read_offset st s c B).
        destruct (recover_rok show st (rs_read st s) None e (Some c) (Raw (Hdr 0 None 0 0 0) [] []) [] (sbytes (rs_stream st)) eq_refl) as (o & st' & R & K & _); auto; try (repeat split; auto; fail). { intros q. apply Q. exact q. } destruct e; try congruence; eauto.
      * destruct FS as (-> & B & B'). eexists; eexists. split; [reflexivity|]. exists [], []. split; [exact B|]. split; [exact I|]. split; [reflexivity|]. split; reflexivity.
Qed.
Lemma rnext_finished show st : rs_finished st = true -> rnext show st = Ok (None, st).
Proof. intros F. unfold rnext. rewrite F. reflexivity. Qed.
Lemma rall_ok show n : forall st, length (sbytes (rs_stream st)) = n -> rs_finished st = false -> rs_unsupported st = false ->
  let s := sbytes (rs_stream st) in let c := rs_config st in let fs := rs_filters st in
  exists segs out tail, yields (fun _ => True) (rnext show) st (map inl (shown show fs (rs_el st) segs) ++ map inr out) /\
    s = seg_all segs ++ tail /\ tiled c (rs_offset st) segs tail /\
    (out = [] /\ tail = [] \/ exists x, out = [x] /\ re_offset x = rs_offset st + nlen (seg_all segs) /\ (quiet (rs_stream st) -> gives_up c tail x)).
Proof.
  cbv zeta. induction n as [n IH] using (well_founded_induction lt_wf). intros st LN FI UN.
  destruct (rloop_ok show (S (length (sbytes (rs_stream st)))) st ltac:(lia) FI UN) as (o & st' & R & segs & tail & E & T & K).
  assert (RN : rnext show st = Ok (o, st')) by (unfold rnext; rewrite FI, UN; exact R).
  destruct o as [[ev|x]|].
  - destruct K as (N0 & SH & B & O & C' & F' & FI' & UN' & EL & QQ).
    assert (LT : (length (sbytes (rs_stream st')) < n)%nat). { pose proof (tiled_small _ _ _ _ T) as TS. rewrite <- LN, E, app_length, B. destruct segs; [congruence|]. cbn [length] in TS. lia. }
    destruct (IH _ LT st' eq_refl FI' UN') as (segs' & out & tail' & Y & E' & T' & X). exists (segs ++ segs'), out, tail'.
    rewrite C', F', O in *. assert (SH' : shown show (rs_filters st) (rs_el st) (segs ++ segs') = ev :: shown show (rs_filters st) (rs_el st') segs').
    { rewrite shown_app, SH. cbn [app]. f_equal. destruct EL as [->| ->]; [apply shown_nil|reflexivity]. }
    rewrite SH'. split. { cbn [map app]. econstructor; [exact I|exact RN|]. exact Y. } rewrite seg_all_app. split; [rewrite E, <- B, E', <- app_assoc; reflexivity|]. split. { apply tiled_app. split; [|exact T']. rewrite <- E', B. exact T. }
    destruct X as [X|(x & X1 & X2 & X3)]; [auto|]. right. exists x. split; [exact X1|]. rewrite nlen_app. split; [lia|]. auto.
  - destruct K as (SH & F' & O & G). exists segs, [x], tail. rewrite SH. cbn [map app]. split. { econstructor; [exact I|exact RN|]. econstructor; [exact I|]. apply rnext_finished. exact F'. } split; [exact E|]. split; [exact T|]. right. exists x. auto.
  - destruct K as (-> & SH & F'). exists segs, [], []. rewrite SH. cbn [map app]. split. { econstructor; [exact I|exact RN]. } auto.
Qed.
Lemma recovered_spec show p c : pr_text p = None -> exists segs out tail,
  (forall fuel, (length (sbytes (pr_stream p)) + 1 < fuel)%nat -> collect (rnext show) fuel (into_recovering p c) = Ok (map inl (shown show (pr_filters p) None segs) ++ map inr out)) /\
  yields (fun _ => True) (rnext show) (into_recovering p c) (map inl (shown show (pr_filters p) None segs) ++ map inr out) /\
  sbytes (pr_stream p) = seg_all segs ++ tail /\ tiled c 0 segs tail /\
  (out = [] /\ tail = [] \/ exists x, out = [x] /\ re_offset x = nlen (seg_all segs) /\ (quiet (pr_stream p) -> gives_up c tail x)).
Proof.
  intros T. destruct (rall_ok show _ (into_recovering p c) eq_refl eq_refl) as (segs & out & tail & Y & E & TI & X). { cbn. rewrite T. reflexivity. }
  cbn [into_recovering rs_stream rs_config rs_filters rs_el rs_offset] in *. exists segs, out, tail. split; [|split; [exact Y|split; [exact E|split; [exact TI|exact X]]]].
  intros fuel L. eapply yields_collect; [exact Y|]. rewrite app_length, !map_length. pose proof (shown_small show (pr_filters p) segs None). pose proof (tiled_small _ _ _ _ TI). rewrite E, app_length in L.
  assert ((length out <= 1)%nat) by (destruct X as [(-> & _)|(x & -> & _)]; cbn; lia). lia.
Qed.
(** Elements. *)
Fixpoint expand (show : meta_community -> bytes) (fs : list filter) (t : option peer_table) (l : list (event mrt_record + rerror)) : list (event elem + rerror) :=
  match l with
  | [] => []
  | inl (Item r) :: l' => map (fun e => inl (Item e)) (List.filter (fun e => match_filters show (VElem e) fs) (elems_of (t, r))) ++ expand show fs (table_after t r) l'
  | inl (Gap g) :: l' => inl (Gap g) :: expand show fs t l'
  | inr x :: l' => inr x :: expand show fs t l'
  end.
Lemma relem_step show fs rs l : yields (fun _ => True) (rnext show) rs l -> forall (el : option peer_table) cache fuel, (length l + 1 < fuel)%nat ->
  exists o st', relem_next show fuel (rs, el, fs, cache) = Ok (o, st') /\
  match o with
  | None => cache = [] /\ expand show fs el l = []
  | Some x => exists rs' (el' : option peer_table) cache' l', st' = (rs', el', fs, cache') /\ yields (fun _ => True) (rnext show) rs' l' /\ (length l' <= length l)%nat /\
      map (fun e => inl (Item e)) cache ++ expand show fs el l = x :: map (fun e => inl (Item e)) cache' ++ expand show fs el' l'
  end.
Proof.
  induction 1 as [rs rs' _ E|rs a rs' l _ E H IH]; intros el cache fuel L; (destruct fuel as [|fuel]; [lia|]); cbn [relem_next].
  - destruct cache as [|e cache].
    + rewrite E. cbn [rbind]. eexists; eexists. split; [reflexivity|]. split; reflexivity.
    + eexists; eexists. split; [reflexivity|]. exists rs, el, cache, []. repeat split; auto. econstructor; eauto.
  - destruct cache as [|e cache].
    + rewrite E. cbn [rbind]. cbn [length] in L. destruct a as [[r|g]|x].
      * rewrite elems_rec. cbn [rbind]. destruct (IH (table_after el r) (List.filter (fun e => match_filters show (VElem e) fs) (elems_of (el, r))) fuel ltac:(lia)) as (o & st' & R & K). exists o, st'. split; [exact R|].
        cbn [map app expand]. destruct o as [x|].
        -- destruct K as (rs2 & el2 & c2 & l2 & K1 & K2 & K3 & K4). exists rs2, el2, c2, l2. split; [exact K1|split; [exact K2|split; [cbn [length]; lia|exact K4]]].
        -- destruct K as (K1 & K2). split; [reflexivity|]. unfold elementor in *. rewrite K1, K2. reflexivity.
      * eexists; eexists. split; [reflexivity|]. exists rs', el, [], l. repeat split; auto. cbn [length]. lia.
      * eexists; eexists. split; [reflexivity|]. exists rs', el, [], l. repeat split; auto. cbn [length]. lia.
    + eexists; eexists. split; [reflexivity|]. exists rs, el, cache, (a :: l). repeat split; auto. econstructor; eauto.
Qed.
Lemma relem_yields show fs fuel n : forall rs l (el : option peer_table) cache, yields (fun _ => True) (rnext show) rs l -> (length l + 1 < fuel)%nat ->
  length (map (fun e => inl (Item e) : event elem + rerror) cache ++ expand show fs el l) = n ->
  yields (fun _ => True) (relem_next show fuel) (rs, el, fs, cache) (map (fun e => inl (Item e)) cache ++ expand show fs el l).
Proof.
  induction n as [n IH] using (well_founded_induction lt_wf). intros rs l el cache Y L LN. destruct (relem_step show fs rs l Y el cache fuel L) as (o & st' & R & K). destruct o as [x|].
  - destruct K as (rs' & el' & cache' & l' & -> & Y' & L' & E). rewrite E in *. econstructor; [exact I|exact R|]. apply (IH _ ltac:(cbn [length] in LN; apply Nat.lt_succ_r; rewrite <- LN; apply le_n)); auto; lia.
  - destruct K as (-> & K). cbn [map app]. rewrite K. econstructor; [exact I|exact R].
Qed.
Lemma expand_shown show fs segs out : forall t, expand show fs t (map inl (shown show [] t segs) ++ map inr out) = map inl (shown_elems show fs t segs) ++ map inr out.
Proof.
  induction segs as [|[r x|b g] segs IH]; intros t; cbn [shown shown_elems map app passes].
  - induction out as [|x out IH]; [reflexivity|]. cbn [map expand]. f_equal. exact IH.
  - cbn [expand]. rewrite IH. rewrite !map_app, map_map, app_assoc. reflexivity.
  - cbn [expand]. f_equal. apply IH.
Qed.
Lemma recovered_elems_spec show p c : pr_text p = None -> exists segs out tail fuel0,
  recovered show (unfiltered p) c = Ok (map inl (shown show [] None segs) ++ map inr out) /\
  (forall fuel, (fuel0 <= fuel)%nat -> recovered_elems show fuel p c = Ok (map inl (shown_elems show (pr_filters p) None segs) ++ map inr out)) /\
  sbytes (pr_stream p) = seg_all segs ++ tail /\ tiled c 0 segs tail /\
  (out = [] /\ tail = [] \/ exists x, out = [x] /\ re_offset x = nlen (seg_all segs) /\ (quiet (pr_stream p) -> gives_up c tail x)).
Proof.
  intros T. destruct (recovered_spec show (unfiltered p) c T) as (segs & out & tail & C & Y & E & TI & X). cbn [unfiltered pr_filters pr_stream] in *.
  set (l := map inl (shown show [] None segs) ++ map inr out) in *. set (le := map inl (shown_elems show (pr_filters p) None segs) ++ map inr out).
  exists segs, out, tail, (2 + length l + length le)%nat. split; [apply C; cbn [unfiltered pr_stream]; lia|]. split; [|auto]. intros fuel L. unfold recovered_elems.
  apply (yields_collect (fun _ => True) _ _ le); [|lia]. unfold le. rewrite <- expand_shown. fold l.
  eapply (relem_yields show (pr_filters p) fuel _ (into_recovering (unfiltered p) c) l None []); [exact Y|lia|reflexivity].
Qed.

(** ** Undamaged streams *)
Definition reads_to (r : raw) (x : mrt_record) : Prop := framed r /\ parse_raw r = Ok x.
Lemma quiet_chunk s : no_fail s ->
  match chunk_mrt_record (sbytes s) with
  | FRec r t => exists s', chunk_mrt_record_s s = CRec r s' /\ sbytes s' = t /\ no_fail s'
  | FErr e h c t => exists s', chunk_mrt_record_s s = CErr e h c s' /\ sbytes s' = t /\ no_fail s'
  end.
Proof.
  intros NF. rewrite <- (chunk_stream_flat s NF). pose proof (chunk_agree s s NF NF eq_refl) as R.
  destruct (chunk_mrt_record_s s) as [r s'|e h c s']; cbn [to_frame]; exists s'; repeat split; auto; apply R.
Qed.
Lemma undamaged_loop show rs : forall xs, Forall2 reads_to rs xs -> forall st fuel, no_fail (rs_stream st) -> sbytes (rs_stream st) = concat (map raw_bytes rs) -> rs_finished st = false -> rs_unsupported st = false -> (length (sbytes (rs_stream st)) < fuel)%nat ->
  exists o st', rnext_loop show fuel st = Ok (o, st') /\
  match o with
  | None => kept show (rs_filters st) (rs_el st) xs = [] /\ rs_finished st' = true
  | Some x => exists r rs' xs', x = inl (Item r) /\ no_fail (rs_stream st') /\ sbytes (rs_stream st') = concat (map raw_bytes rs') /\ Forall2 reads_to rs' xs' /\ (length rs' < length rs)%nat /\ kept show (rs_filters st) (rs_el st) xs = r :: kept show (rs_filters st) (rs_el st') xs' /\
      rs_filters st' = rs_filters st /\ rs_finished st' = false /\ rs_unsupported st' = false
  end.
Proof.
  induction rs as [|r rs IH]; intros xs R st fuel NF ES FI UN L; (destruct fuel as [|fuel]; [lia|]); cbn [rnext_loop]; inversion R; subst; pose proof (quiet_chunk _ NF) as C; rewrite ES in C.
  - change (chunk_mrt_record (concat (map raw_bytes []))) with (FErr EEofExpected None None []) in C. destruct C as (s' & -> & _). eexists; eexists. split; [reflexivity|]. split; reflexivity.
  - rename y into x, l' into xs. match goal with H : reads_to r x |- _ => destruct H as (F & PR) end. cbn [map concat] in C, ES. rewrite (framed_chunk r _ F) in C. destruct C as (s' & CS & B & NF'). rewrite CS, PR.
    pose proof (chunk_bytes (rs_stream st)) as CB. rewrite CS in CB. destruct CB as (CB & L12).
    destruct (matches_rec show x (rs_filters st) (rs_el st)) as (el' & M & EL). change (rs_filters (rs_read st s')) with (rs_filters st). change (rs_el (rs_read st s')) with (rs_el st). rewrite M. cbn [rbind].
    assert (KE : kept show (rs_filters st) (table_after (rs_el st) x) xs = kept show (rs_filters st) el' xs) by (destruct EL as [(-> & _)| ->]; [rewrite !kept_nil; reflexivity|reflexivity]).
    rewrite kept_cons. match goal with |- context [if ?b then Ok _ else _] => destruct b eqn:P end; unfold elementor in P; rewrite ?P, KE.
    + eexists; eexists. split; [reflexivity|]. exists x, rs, xs. cbn [length]. repeat split; auto.
    + assert (LL : (length (sbytes s') < fuel)%nat) by (rewrite CB, app_length in L; lia).
      match goal with H : Forall2 reads_to rs xs |- _ => destruct (IH xs H (rs_with_el (rs_read st s') el') fuel NF' B FI UN LL) as (o & st' & RR & K) end. exists o, st'. split; [exact RR|]. cbn [app]. destruct o as [y|]; [|exact K]. destruct K as (r' & rs' & xs' & K1 & K2 & K3 & K4 & K5 & K6). exists r', rs', xs'. repeat (split; [assumption|]). split; [cbn [length]; lia|exact K6].
Qed.
Lemma undamaged_yields show n : forall rs xs st, length rs = n -> Forall2 reads_to rs xs -> no_fail (rs_stream st) -> sbytes (rs_stream st) = concat (map raw_bytes rs) -> rs_finished st = false -> rs_unsupported st = false ->
  yields (fun _ => True) (rnext show) st (map (fun r => inl (Item r)) (kept show (rs_filters st) (rs_el st) xs)).
Proof.
  induction n as [n IH] using (well_founded_induction lt_wf). intros rs xs st LN R NF ES FI UN.
  destruct (undamaged_loop show rs xs R st (S (length (sbytes (rs_stream st)))) NF ES FI UN ltac:(lia)) as (o & st' & RR & K).
  assert (RN : rnext show st = Ok (o, st')) by (unfold rnext; rewrite FI, UN; exact RR).
  destruct o as [x|].
  - destruct K as (r & rs' & xs' & -> & N' & E' & R' & L' & KK & F' & FI' & UN'). rewrite KK. cbn [map]. econstructor; [exact I|exact RN|]. rewrite <- F'. eapply IH; [|reflexivity| | | | |]; eauto. lia.
  - destruct K as (K & _). rewrite K. cbn [map]. econstructor; [exact I|exact RN].
Qed.
Lemma undamaged_reads rs xs : Forall2 reads_to rs xs -> forall s, no_fail s -> sbytes s = concat (map raw_bytes rs) -> reads s (map inl xs).
Proof.
  induction 1 as [|r x rs xs (F & PR) R IH]; intros s NF ES; pose proof (quiet_chunk _ NF) as C; rewrite ES in C.
  - change (chunk_mrt_record (concat (map raw_bytes []))) with (FErr EEofExpected None None []) in C. destruct C as (s' & C & _). eapply reads_end. unfold parse_mrt_record_s. rewrite C. reflexivity.
  - cbn [map concat] in C. rewrite (framed_chunk r _ F) in C. destruct C as (s' & CS & B & NF'). eapply reads_rec; [unfold parse_mrt_record_s; rewrite CS, PR; reflexivity|]. apply IH; auto.
Qed.
Lemma reads_to_len rs xs : Forall2 reads_to rs xs -> (length xs <= length (concat (map raw_bytes rs)))%nat.
Proof. induction 1 as [|r x rs xs (F & PR) R IH]; cbn [map concat length]; [lia|]. apply flat_rec in F as (_ & _ & F). rewrite app_length. lia. Qed.
Lemma undamaged_usable core (xs : list mrt_record) : usable core (map inl xs : list (item mrt_record)) = xs.
Proof. induction xs as [|x xs IH]; [reflexivity|]. cbn [map usable]. f_equal. exact IH. Qed.
Lemma undamaged_records show p c rs xs : pr_text p = None -> no_fail (pr_stream p) -> sbytes (pr_stream p) = concat (map raw_bytes rs) -> Forall2 reads_to rs xs ->
  record_list show p = Ok (kept show (pr_filters p) None xs) /\ recovered show p c = Ok (map (fun r => inl (Item r)) (kept show (pr_filters p) None xs)).
Proof.
  intros T NF ES R. split.
  - rewrite (record_list_ok show p _ T (undamaged_reads rs xs R _ NF ES)), undamaged_usable. reflexivity.
  - unfold recovered. eapply yields_collect.
    + apply (undamaged_yields show _ rs xs (into_recovering p c) eq_refl R NF ES eq_refl). cbn. rewrite T. reflexivity.
    + rewrite map_length. pose proof (kept_length show (pr_filters p) None xs). pose proof (reads_to_len _ _ R). cbn [into_recovering rs_filters rs_el]. rewrite ES. lia.
Qed.
Lemma undamaged_elems show p c rs xs : pr_text p = None -> no_fail (pr_stream p) -> sbytes (pr_stream p) = concat (map raw_bytes rs) -> Forall2 reads_to rs xs ->
  exists n l, forall fuel, (n <= fuel)%nat -> elem_list show fuel p = Ok l /\ recovered_elems show fuel p c = Ok (map (fun e => inl (Item e)) l).
Proof.
  intros T NF ES R. destruct (elem_list_ok show p _ T (undamaged_reads rs xs R _ NF ES)) as (n & H). rewrite undamaged_usable in H.
  set (l := List.filter _ _) in H.
  assert (Y : yields (fun _ => True) (rnext show) (into_recovering (unfiltered p) c) (map (fun r => inl (Item r)) xs)).
  { pose proof (undamaged_yields show _ rs xs (into_recovering (unfiltered p) c) eq_refl R NF ES eq_refl) as Y. cbn [into_recovering rs_unsupported unfiltered pr_text rs_filters rs_el pr_filters] in Y. rewrite T in Y. specialize (Y eq_refl). rewrite kept_nil in Y. exact Y. }
  assert (EX : forall t, expand show (pr_filters p) t (map (fun r => inl (Item r)) xs) = map (fun e => inl (Item e)) (List.filter (fun e => match_filters show (VElem e) (pr_filters p)) (flat_map elems_of (annotate t xs)))).
  { clear. induction xs as [|x xs IH]; intros t; [reflexivity|]. cbn [map expand annotate flat_map]. rewrite IH, filter_app_, map_app. reflexivity. }
  exists (n + 2 + length xs + length l)%nat, l. intros fuel L. split; [apply H; lia|]. unfold recovered_elems.
  apply (yields_collect (fun _ => True) _ _ (map (fun e => inl (Item e)) l)); [|rewrite map_length; lia]. unfold l. rewrite <- EX.
  eapply (relem_yields show (pr_filters p) fuel _ (into_recovering (unfiltered p) c) _ None []); [exact Y|rewrite map_length; lia|reflexivity].
Qed.

(** ** How the source cuts its data does not matter *)
Definition sim (a b : recovering) : Prop :=
  rs_config a = rs_config b /\ rs_filters a = rs_filters b /\ rs_el a = rs_el b /\ rs_core a = rs_core b /\ rs_unsupported a = rs_unsupported b /\ rs_finished a = rs_finished b /\ rs_dump a = rs_dump b /\
  (rs_finished a = true \/ rs_offset a = rs_offset b /\ sbytes (rs_stream a) = sbytes (rs_stream b) /\ quiet (rs_stream a) /\ quiet (rs_stream b)).
Lemma chunk_quiet s : quiet s ->
  match chunk_mrt_record (sbytes s) with
  | FRec r t => exists s', chunk_mrt_record_s s = CRec r s' /\ sbytes s' = t /\ quiet s'
  | FErr e h c t => exists s', chunk_mrt_record_s s = CErr e h c s' /\ sbytes s' = t /\ quiet s' /\ io_failure e s s' = false
  end.
Proof.
  intros Q. pose proof (chunk_flat_any s) as C. destruct (chunk_mrt_record_s s) as [r s'|e h c s'].
  - destruct C as (-> & C & _). eauto.
  - destruct C as (C & C'). destruct (C' Q) as (I1 & I2). rewrite (C I1). eauto 10.
Qed.
Lemma recover_finished st start fe e c st' x : recover st start fe e c = Ok (Some (inr x), st') -> rs_finished st' = true /\ keeps (rs_finish st) st'.
Proof.
  unfold recover. destruct (negb _); [discriminate|].
  assert (S : forall w, search_gap (rs_write_dump st c) start e c w = Ok (Some (inr x), st') -> rs_finished st' = true /\ keeps (rs_finish st) st').
  { intros w. unfold search_gap. destruct (find_recovery _ _ _ _) as [[| |] ?|?|]; try discriminate; intros H; apply ok_inj in H; injection H as <- <-; repeat split. }
  destruct fe as [b|]; [|apply S]. destruct (confirm_aligned _ _ _) as [[k|] w|w|]; [discriminate|apply S| |discriminate].
  intros H; apply ok_inj in H; injection H as <- <-; repeat split.
Qed.
Lemma sim_recover a b start fe e c : sim a b -> rs_finished a = false ->
  start + nlen (match c with Some b => b | None => [] end) = rs_offset a -> match fe with Some b => b = rs_offset a | None => True end ->
  exists o a' b', recover a start fe e c = Ok (o, a') /\ recover b start fe e c = Ok (o, b') /\ sim a' b'.
Proof.
  intros (S1 & S2 & S3 & S4 & S5 & S6 & S7 & S8) FI O1 FE. destruct S8 as [S8|(S8 & S9 & S10 & S11)]; [congruence|].
  set (d := match c with Some b => b | None => [] end ++ sbytes (rs_stream a)).
  destruct (recover_spec a start fe e c d eq_refl O1 FE) as (a' & DA & CA).
  destruct (recover_spec b start fe e c d ltac:(unfold d; rewrite S9; reflexivity) ltac:(rewrite <- S8; exact O1) ltac:(destruct fe; [rewrite <- S8; exact FE|exact I])) as (b' & DB & CB).
  rewrite <- S1 in CB. assert (DD : rs_dump a' = rs_dump b') by (rewrite DA, DB; unfold rs_write_dump; cbn; rewrite S4, S7; reflexivity).
  destruct CA as [(g & RA & FA & (A1 & A2 & A3 & A4 & A5 & A6) & A7 & A8 & A9)|(x & RA & A1 & A2 & A3)]; destruct CB as [(g' & RB & FB & (B1 & B2 & B3 & B4 & B5 & B6) & B7 & B8 & B9)|(x' & RB & B1 & B2 & B3)].
  - assert (g' = g) by congruence. subst g'. exists (Some (inl (Gap g))), a', b'. split; [exact RA|split; [exact RB|]]. repeat split; try congruence. right. repeat split; try congruence; auto.
  - destruct (B3 S11). congruence.
  - destruct (A3 S10). congruence.
  - destruct (A3 S10) as (_ & ->). destruct (B3 S11) as (_ & ->). eexists; exists a', b'. split; [exact RA|split; [exact RB|]].
    apply recover_finished in RA as (FA & KA1 & KA2 & KA3 & KA4 & KA5 & KA6). apply recover_finished in RB as (FB & KB1 & KB2 & KB3 & KB4 & KB5 & KB6). cbn in *. repeat split; try congruence. left. exact FA.
Qed.
Lemma sim_read a b s s' : sim a b -> rs_finished a = false -> sbytes s = sbytes s' -> quiet s -> quiet s' -> sim (rs_read a s) (rs_read b s').
Proof.
  intros (S1 & S2 & S3 & S4 & S5 & S6 & S7 & S8) FI E Q Q'. destruct S8 as [S8|(S8 & S9 & _)]; [congruence|]. repeat split; auto. right. repeat split; auto. cbn. rewrite S8, S9, E. reflexivity.
Qed.
Lemma sim_finish a b : sim a b -> sim (rs_finish a) (rs_finish b).
Proof. intros (S1 & S2 & S3 & S4 & S5 & S6 & S7 & S8). repeat split; auto. Qed.
Lemma sim_loop show fuel : forall a b, sim a b -> rs_finished a = false ->
  rnext_loop show fuel a = Panic /\ rnext_loop show fuel b = Panic \/
  exists o a' b', rnext_loop show fuel a = Ok (o, a') /\ rnext_loop show fuel b = Ok (o, b') /\ sim a' b'.
Proof.
  induction fuel as [|fuel IH]; intros a b SM FI; cbn [rnext_loop]; [auto|].
  pose proof SM as (S1 & S2 & S3 & S4 & S5 & S6 & S7 & S8). destruct S8 as [S8|(S8 & S9 & S10 & S11)]; [congruence|].
  pose proof (chunk_quiet _ S10) as CA. pose proof (chunk_quiet _ S11) as CB. rewrite <- S9 in CB. pose proof (chunk_bytes (rs_stream a)) as BA.
  destruct (chunk_mrt_record (sbytes (rs_stream a))) as [r t|e h c t].
  - destruct CA as (sa & CA & EA & QA). destruct CB as (sb & CB & EB & QB). rewrite CA in *. rewrite CB. destruct BA as (BA & _).
    assert (SM' := sim_read a b sa sb SM FI ltac:(congruence) QA QB).
    destruct (parse_raw r) as [x|e|]; [| |auto].
    + destruct (matches_rec show x (rs_filters a) (rs_el a)) as (el' & M & _). change (rs_filters (rs_read a sa)) with (rs_filters a). change (rs_el (rs_read a sa)) with (rs_el a). change (rs_filters (rs_read b sb)) with (rs_filters b). change (rs_el (rs_read b sb)) with (rs_el b). rewrite <- S2, <- S3, M. cbn [rbind].
      assert (SM2 : sim (rs_with_el (rs_read a sa) el') (rs_with_el (rs_read b sb) el')) by (destruct SM' as (T1 & T2 & T3 & T4 & T5 & T6 & T7 & T8); repeat split; auto).
      match goal with |- context [if ?b then Ok _ else _] => destruct b end.
      * right. eauto 10.
      * apply IH; auto.
    + right. rewrite <- S8. assert (O1 := read_offset a sa _ BA). replace (rs_offset (rs_read b sb)) with (rs_offset (rs_read a sa)) by (cbn; rewrite S8, S9, EA, EB; reflexivity). apply sim_recover; auto.
  - destruct CA as (sa & CA & EA & QA & IA). destruct CB as (sb & CB & EB & QB & IB). rewrite CA in *. rewrite CB, IA, IB.
    assert (SM' := sim_read a b sa sb SM FI ltac:(congruence) QA QB). right.
    assert (G : e <> EEofExpected -> exists o a' b', recover (rs_read a sa) (rs_offset a) None e c = Ok (o, a') /\ recover (rs_read b sb) (rs_offset b) None e c = Ok (o, b') /\ sim a' b').
    { intros NE. rewrite <- S8. apply sim_recover; auto. destruct c as [c|]; [|destruct BA; congruence]. destruct BA as (BA & _). symmetry. apply read_offset. exact BA. }
    destruct e; try (apply G; discriminate). exists None. eexists; eexists. split; [reflexivity|split; [reflexivity|]]. apply sim_finish. exact SM'.
Qed.
Lemma sim_next show a b : sim a b ->
  rnext show a = Panic /\ rnext show b = Panic \/ exists o a' b', rnext show a = Ok (o, a') /\ rnext show b = Ok (o, b') /\ sim a' b'.
Proof.
  intros SM. pose proof SM as (S1 & S2 & S3 & S4 & S5 & S6 & S7 & S8). unfold rnext. rewrite <- S5, <- S6. destruct (rs_finished a) eqn:FI. { right. eauto 10. }
  destruct (rs_unsupported a). { right. eexists; eexists; eexists. split; [reflexivity|split; [reflexivity|]]. apply sim_finish. exact SM. }
  destruct S8 as [S8|(S8 & S9 & _)]; [congruence|]. rewrite <- S9. apply sim_loop; auto.
Qed.
Lemma collect_sim {S A} (R : S -> S -> Prop) (next : S -> res (option A * S)) :
  (forall a b, R a b -> next a = Panic /\ next b = Panic \/ exists o a' b', next a = Ok (o, a') /\ next b = Ok (o, b') /\ R a' b') ->
  forall fuel a b, R a b -> collect next fuel a = collect next fuel b.
Proof.
  intros H. induction fuel as [|fuel IH]; intros a b K; [reflexivity|]. cbn [collect]. destruct (H a b K) as [(-> & ->)|(o & a' & b' & -> & -> & K')]; [reflexivity|]. cbn [rbind]. destruct o; [|reflexivity]. rewrite (IH _ _ K'). reflexivity.
Qed.
Lemma sim_elem show fuel fs : forall a b el cache, sim a b ->
  relem_next show fuel (a, el, fs, cache) = Panic /\ relem_next show fuel (b, el, fs, cache) = Panic \/
  exists o a' b' el' cache', relem_next show fuel (a, el, fs, cache) = Ok (o, (a', el', fs, cache')) /\ relem_next show fuel (b, el, fs, cache) = Ok (o, (b', el', fs, cache')) /\ sim a' b'.
Proof.
  induction fuel as [|fuel IH]; intros a b el cache SM; cbn [relem_next]; [auto|]. destruct cache as [|e cache]; [|right; eauto 10].
  destruct (sim_next show a b SM) as [(-> & ->)|(o & a' & b' & -> & -> & SM')]; [auto|]. cbn [rbind]. destruct o as [[[r|g]|x]|]; try (right; eauto 10; fail).
  rewrite elems_rec. cbn [rbind]. apply IH. exact SM'.
Qed.
Lemma sim_into p p' c : same_source p p' -> sim (into_recovering p c) (into_recovering p' c).
Proof. intros (Q & Q' & E & F & C & T & D). repeat split; auto. cbn. rewrite T. reflexivity. Qed.
Lemma recovered_sim show p p' c : same_source p p' -> recovered show p c = recovered show p' c.
Proof.
  intros S. unfold recovered. replace (length (sbytes (pr_stream p'))) with (length (sbytes (pr_stream p))) by (f_equal; apply S). apply (collect_sim sim); [apply sim_next|apply sim_into; exact S].
Qed.
Lemma recovered_elems_sim show fuel p p' c : same_source p p' -> recovered_elems show fuel p c = recovered_elems show fuel p' c.
Proof.
  intros S. unfold recovered_elems. apply (collect_sim (fun x y : relem_state => match x, y with (a, el, fs, ca), (b, el', fs', cb) => sim a b /\ el = el' /\ fs = fs' /\ ca = cb end)).
  - intros [[[a el] fs] ca] [[[b el'] fs'] cb] (SM & <- & <- & <-). destruct (sim_elem show fuel fs a b el ca SM) as [H|(o & a' & b' & el' & ca' & H1 & H2 & H3)]; [auto|]. right. exists o, (a', el', fs, ca'), (b', el', fs, ca'). split; [exact H1|split; [exact H2|]]. split; [exact H3|auto].
  - unfold into_recovering_elems. destruct S as (Q & Q' & E & F & C & T & D). split; [apply sim_into; repeat split; auto|]. auto.
Qed.

(** ** Records that cannot be read, one by one *)
Lemma bad_recover st start s bad e post t : rs_offset st = start -> quiet s -> sbytes (rs_stream st) = raw_bytes bad ++ sbytes s -> sbytes s = concat (map raw_bytes post) ++ t ->
  Forall readable post -> (nlen post = required (rs_config st) \/ nlen post < required (rs_config st) /\ t = []) ->
  exists st', recover (rs_read st s) start (Some (rs_offset (rs_read st s))) e (Some (raw_bytes bad)) =
      Ok (Some (inl (Gap (RGap start (start + nlen (raw_bytes bad)) e AlignedRecordChain (nlen post)))), st') /\
    quiet (rs_stream st') /\ sbytes (rs_stream st') = sbytes s /\ keeps st st' /\ rs_offset st' = start + nlen (raw_bytes bad).
Proof.
  intros <- Q' CB ES R LP. assert (O1 := read_offset st s _ CB).
  assert (SK : skipn (N.to_nat (rs_offset st + nlen (raw_bytes bad) - rs_offset st)) (sbytes (rs_stream st)) = sbytes s).
  { rewrite CB. replace (N.to_nat (rs_offset st + nlen (raw_bytes bad) - rs_offset st)) with (length (raw_bytes bad)) by (unfold nlen; lia). rewrite skipn_app, skipn_all, Nat.sub_diag. reflexivity. }
  assert (FC : flat_recover (rs_config st) (rs_offset st) (Some (rs_offset (rs_read st s))) e (sbytes (rs_stream st)) = Some (RGap (rs_offset st) (rs_offset st + nlen (raw_bytes bad)) e AlignedRecordChain (nlen post))).
  { unfold flat_recover. fold (required (rs_config st)). rewrite O1, SK, ES. rewrite confirm_complete; [reflexivity|exact R|]. unfold nlen in LP. destruct LP as [LP|(LP & ->)]; [left; lia|right; split; [lia|reflexivity]]. }
  destruct (recover_spec (rs_read st s) (rs_offset st) (Some (rs_offset (rs_read st s))) e (Some (raw_bytes bad)) (sbytes (rs_stream st)) CB (eq_sym O1) eq_refl) as (st' & _ & [(g & RA & FA & K & A7 & A8 & A9)|(x & RA & A1 & A2 & A3)]).
  - change (rs_config (rs_read st s)) with (rs_config st) in FA. rewrite FC in FA. injection FA as <-. exists st'. split; [exact RA|]. cbn [g_end] in *. split; [apply A9, Q'|]. split; [rewrite A8, SK; reflexivity|]. split; [exact K|exact A7].
  - destruct (A3 Q') as (A4 & _). change (rs_config (rs_read st s)) with (rs_config st) in A4. congruence.
Qed.
(** The pieces of a stream of framed records. *)
Fixpoint pieces (c : recovery_config) (pos : N) (rs : list raw) : list seg :=
  match rs with
  | [] => []
  | r :: rs' =>
      match parse_raw r with
      | Ok x => SRec r x
      | Err e => SGap (raw_bytes r) (RGap pos (pos + nlen (raw_bytes r)) e AlignedRecordChain (N.min (required c) (nlen rs')))
      | Panic => SGap (raw_bytes r) (RGap pos (pos + nlen (raw_bytes r)) EParse EndOfStream 0)
      end :: pieces c (pos + nlen (raw_bytes r)) rs'
  end.
Fixpoint apart (n : nat) (rs : list raw) : Prop :=
  match rs with
  | [] => True
  | r :: rs' => (readable r \/ Forall readable (firstn n rs')) /\ apart n rs'
  end.
Lemma apart_loop show rs : forall st fuel, Forall framed rs -> apart (N.to_nat (required (rs_config st))) rs -> quiet (rs_stream st) -> sbytes (rs_stream st) = concat (map raw_bytes rs) -> rs_finished st = false -> rs_unsupported st = false -> (length (sbytes (rs_stream st)) < fuel)%nat ->
  let sh := shown show (rs_filters st) (rs_el st) (pieces (rs_config st) (rs_offset st) rs) in
  exists o st', rnext_loop show fuel st = Ok (o, st') /\
  match o with
  | None => sh = []
  | Some x => exists ev rs', x = inl ev /\ quiet (rs_stream st') /\ sbytes (rs_stream st') = concat (map raw_bytes rs') /\ Forall framed rs' /\ apart (N.to_nat (required (rs_config st))) rs' /\ (length rs' < length rs)%nat /\
      rs_config st' = rs_config st /\ rs_filters st' = rs_filters st /\ rs_finished st' = false /\ rs_unsupported st' = false /\
      sh = ev :: shown show (rs_filters st) (rs_el st') (pieces (rs_config st) (rs_offset st') rs')
  end.
Proof.
  cbv zeta. induction rs as [|r rs IH]; intros st fuel FR AP Q ES FI UN L; (destruct fuel as [|fuel]; [lia|]); cbn [rnext_loop]; pose proof (chunk_quiet _ Q) as C; rewrite ES in C.
  - change (chunk_mrt_record (concat (map raw_bytes []))) with (FErr EEofExpected None None []) in C. destruct C as (s' & -> & _). eexists; eexists. split; [reflexivity|]. reflexivity.
  - inversion FR as [|? ? F FR']; subst. cbn [map concat] in C, ES. rewrite (framed_chunk r _ F) in C. destruct C as (s' & CS & B & Q'). rewrite CS.
    pose proof (chunk_bytes (rs_stream st)) as CB. rewrite CS in CB. destruct CB as (CB & L12). assert (O1 := read_offset st s' _ CB).
    cbn [apart] in AP. destruct AP as (AP & AP'). pose proof (raw_np r) as NP. cbn [pieces]. destruct (parse_raw r) as [x|e|] eqn:PR; [| |exfalso; apply NP; reflexivity].
    + destruct (matches_rec show x (rs_filters st) (rs_el st)) as (el' & M & EL). change (rs_filters (rs_read st s')) with (rs_filters st). change (rs_el (rs_read st s')) with (rs_el st). rewrite M. cbn [rbind].
      assert (KE : forall pc, shown show (rs_filters st) (table_after (rs_el st) x) pc = shown show (rs_filters st) el' pc) by (intros; destruct EL as [(-> & _)| ->]; [apply shown_nil|reflexivity]).
      cbn [shown]. match goal with |- context [if ?b then Ok _ else _] => destruct b eqn:P end; unfold elementor in P; rewrite ?P, KE; cbn [app].
      * eexists; eexists. split; [reflexivity|]. exists (Item x), rs. split; [reflexivity|]. cbn [length]. split; [exact Q'|]. split; [exact B|]. split; [exact FR'|]. split; [exact AP'|]. split; [lia|]. repeat (split; [auto; fail|]). f_equal. change (rs_offset (rs_with_el (rs_read st s') el')) with (rs_offset (rs_read st s')). rewrite O1. reflexivity.
      * assert (LL : (length (sbytes s') < fuel)%nat) by (rewrite CB, app_length in L; lia).
        destruct (IH (rs_with_el (rs_read st s') el') fuel FR' AP' Q' B FI UN LL) as (o & st' & RR & K). exists o, st'. split; [exact RR|]. change (rs_offset (rs_with_el (rs_read st s') el')) with (rs_offset (rs_read st s')) in K. rewrite O1 in K. destruct o as [y|]; [|exact K]. destruct K as (ev & rs' & K1 & K2 & K3 & K4 & K5 & K6 & K7). exists ev, rs'. repeat (split; [assumption|]). split; [cbn [length]; lia|exact K7].
    + set (n := N.to_nat (required (rs_config st))) in *. assert (RD : Forall readable (firstn n rs)) by (destruct AP as [(_ & x & AP)|AP]; [congruence|exact AP]).
      assert (EP : sbytes s' = concat (map raw_bytes (firstn n rs)) ++ concat (map raw_bytes (skipn n rs))) by (rewrite B, <- concat_app, <- map_app, firstn_skipn; reflexivity).
      assert (LP : nlen (firstn n rs) = required (rs_config st) \/ nlen (firstn n rs) < required (rs_config st) /\ concat (map raw_bytes (skipn n rs)) = []).
      { unfold nlen. rewrite firstn_length. destruct (Nat.le_gt_cases n (length rs)); [left; unfold n in *; lia|]. right. rewrite skipn_all2 by lia. split; [unfold n in *; lia|reflexivity]. }
      destruct (bad_recover st (rs_offset st) s' r e (firstn n rs) _ eq_refl Q' CB EP RD LP) as (st' & RC & Q2 & B2 & (K1 & K2 & K3 & K4 & K5 & K6) & O2).
      eexists; exists st'. split; [exact RC|]. eexists; exists rs. split; [reflexivity|]. cbn [length]. split; [exact Q2|]. split; [congruence|]. split; [exact FR'|]. split; [exact AP'|]. split; [lia|]. repeat (split; [congruence|]). cbn [shown]. rewrite O2, K3. f_equal. f_equal. f_equal. unfold nlen. rewrite firstn_length. unfold n. lia.
Qed.
Lemma apart_yields show n : forall rs st, length rs = n -> Forall framed rs -> apart (N.to_nat (required (rs_config st))) rs -> quiet (rs_stream st) -> sbytes (rs_stream st) = concat (map raw_bytes rs) -> rs_finished st = false -> rs_unsupported st = false ->
  yields (fun _ => True) (rnext show) st (map inl (shown show (rs_filters st) (rs_el st) (pieces (rs_config st) (rs_offset st) rs))).
Proof.
  induction n as [n IH] using (well_founded_induction lt_wf). intros rs st LN FR AP Q ES FI UN.
  destruct (apart_loop show rs st (S (length (sbytes (rs_stream st)))) FR AP Q ES FI UN ltac:(lia)) as (o & st' & RR & K).
  assert (RN : rnext show st = Ok (o, st')) by (unfold rnext; rewrite FI, UN; exact RR).
  destruct o as [x|].
  - destruct K as (ev & rs' & -> & K1 & K2 & K3 & K4 & K5 & K6 & K7 & K8 & K9 & K10). rewrite K10. cbn [map]. econstructor; [exact I|exact RN|]. rewrite <- K7, <- K6. eapply IH; [|reflexivity| | | | | |]; auto; [lia|]. rewrite K6. exact K4.
  - rewrite K. cbn [map]. econstructor; [exact I|exact RN].
Qed.
Lemma pieces_small c rs : forall pos, Forall framed rs -> (length (pieces c pos rs) <= length (concat (map raw_bytes rs)))%nat.
Proof. induction rs as [|r rs IH]; intros pos F; cbn [pieces map concat length]; [lia|]. inversion F as [|? ? F1 F2]; subst. apply flat_rec in F1 as (_ & _ & F1). specialize (IH (pos + nlen (raw_bytes r)) F2). rewrite app_length. lia. Qed.
Lemma apart_records show p c rs : pr_text p = None -> quiet (pr_stream p) -> sbytes (pr_stream p) = concat (map raw_bytes rs) -> Forall framed rs -> apart (N.to_nat (required c)) rs ->
  recovered show p c = Ok (map inl (shown show (pr_filters p) None (pieces c 0 rs))).
Proof.
  intros T Q ES FR AP. unfold recovered. eapply yields_collect.
  - apply (apart_yields show _ rs (into_recovering p c) eq_refl FR AP Q ES eq_refl). cbn. rewrite T. reflexivity.
  - rewrite map_length. pose proof (shown_small show (pr_filters p) (pieces c 0 rs) None). pose proof (pieces_small c rs 0 FR). cbn [into_recovering rs_filters rs_el rs_config rs_offset]. rewrite ES. lia.
Qed.
Lemma pieces_match c rs : forall pos, Forall2 (fun r s => match s with SRec r' x => r' = r /\ parse_raw r = Ok x | SGap b g => b = raw_bytes r /\ parse_raw r = Err (g_cause g) /\ g_evidence g = AlignedRecordChain end) rs (pieces c pos rs).
Proof. induction rs as [|r rs IH]; intros pos; cbn [pieces]; constructor; [|apply IH]. pose proof (raw_np r) as NP. destruct (parse_raw r); cbn; auto. exfalso; apply NP; reflexivity. Qed.
Lemma apart_spec n rs : apart n rs <-> forall a bad b, rs = a ++ bad :: b -> readable bad \/ Forall readable (firstn n b).
Proof.
  induction rs as [|r rs IH]; cbn [apart].
  - split; [intros _ a bad b H; destruct a; discriminate|auto].
  - rewrite IH. split.
    + intros (A & B) [|x a] bad b E; cbn in E; injection E as <- E; [subst; auto|]. eapply B; eauto.
    + intros H. split; [apply (H [] r rs eq_refl)|]. intros a bad b ->. apply (H (r :: a) bad b eq_refl).
Qed.
