(** Proofs about text dumps: the preamble, the header line, the rows. *)
From Coq Require Import String Lia Floats.SpecFloat ZifyBool ZifyNat ZifyN.
From Verif Require Import Base BaseFacts Net AsPath Attr Elem Text Filter FilterFacts Utf8 TableDumpSpec TableDumpFacts Stream Framing Iter TextDump TextDumpSpec TextDumpFacts.

(** * Searching *)
Lemma strip_prefix_app p s : strip_prefix p (p ++ s) = Some s.
Proof. induction p as [|x p IH]; cbn [app strip_prefix]; [destruct s; reflexivity|]. rewrite N.eqb_refl. exact IH. Qed.
Lemma strip_prefix_inv p s r : strip_prefix p s = Some r -> s = p ++ r.
Proof.
  revert s; induction p as [|x p IH]; intros s H; [destruct s; cbn [strip_prefix] in H; injection H as <-; reflexivity|]. destruct s as [|y s]; cbn [strip_prefix] in H; [discriminate|].
  destruct (N.eqb_spec x y) as [->|]; [|discriminate]. cbn [app]. f_equal. auto.
Qed.
Lemma split_once_skip x p u s : ~ In x u -> split_once (x :: p) (u ++ s) = match split_once (x :: p) s with Some (a, b) => Some (u ++ a, b) | None => None end.
Proof.
  induction u as [|y u IH]; intros H; cbn [app]; [destruct (split_once (x :: p) s) as [[? ?]|]; reflexivity|].
  cbn [split_once strip_prefix]. destruct (N.eqb_spec x y) as [->|E]; [exfalso; apply H; left; reflexivity|].
  rewrite IH by (intros G; apply H; right; exact G). destruct (split_once (x :: p) s) as [[? ?]|]; reflexivity.
Qed.
Lemma split_once_here p s : split_once p (p ++ s) = Some ([], s).
Proof. destruct (p ++ s) as [|y l] eqn:E; cbn [split_once]; rewrite <- E, strip_prefix_app; reflexivity. Qed.
Lemma split_once_none x p s : ~ In x s -> split_once (x :: p) s = None.
Proof. intros H. rewrite <- (app_nil_r s), split_once_skip by exact H. reflexivity. Qed.
Lemma split_once_inv p s a b : split_once p s = Some (a, b) -> s = a ++ p ++ b.
Proof.
  revert a b; induction s as [|x s IH]; intros a b H; cbn [split_once] in H; destruct (strip_prefix p _) as [r|] eqn:E.
  - injection H as <- <-. apply strip_prefix_inv in E. exact E.
  - discriminate.
  - injection H as <- <-. apply strip_prefix_inv in E. exact E.
  - destruct (split_once p s) as [[a1 b1]|]; [|discriminate]. injection H as <- <-. cbn [app]. f_equal. auto.
Qed.
Lemma split_once_occurs p s : occurs p s -> split_once p s <> None.
Proof.
  intros (a & b & ->). induction a as [|x a IH]; cbn [app]; [rewrite split_once_here; discriminate|].
  cbn [split_once]. destruct (strip_prefix p _); [discriminate|]. destruct (split_once p (a ++ p ++ b)) as [[? ?]|]; congruence.
Qed.
Lemma has_text_iff p s : has_text p s = true <-> occurs p s.
Proof.
  unfold has_text. split.
  - destruct (split_once p s) as [[a b]|] eqn:E; [|discriminate]. intros _. exists a, b. apply split_once_inv. exact E.
  - intros H. apply split_once_occurs in H. destruct (split_once p s); congruence.
Qed.

(** * Pieces of a line *)
Definition eol (e : bytes) : Prop := e = [] \/ e = [10] \/ e = [13; 10].
Lemma occurs_eol p l e : eol e -> p <> [] -> ~ In 10 p -> ~ In 13 p -> occurs p (l ++ e) -> occurs p l.
Proof.
  intros E N P1 P2 (a & b & H). destruct (split_last p N) as (p' & x & ->).
  assert (L : (length (a ++ p' ++ [x]) <= length l)%nat \/ (length l < length (a ++ p' ++ [x]))%nat) by lia. destruct L as [L|L].
  - exists a, (skipn (length (a ++ p' ++ [x])) l). rewrite !app_assoc, <- (app_assoc a). rewrite <- (firstn_skipn (length (a ++ p' ++ [x])) l) at 1. f_equal.
    transitivity (firstn (length (a ++ p' ++ [x])) (l ++ e)). { rewrite firstn_app. replace (length (a ++ p' ++ [x]) - length l)%nat with 0%nat by lia. cbn [firstn]. rewrite app_nil_r. reflexivity. }
    rewrite H. replace (a ++ (p' ++ [x]) ++ b) with ((a ++ p' ++ [x]) ++ b) by (rewrite <- !app_assoc; reflexivity). rewrite firstn_app, Nat.sub_diag, firstn_all. cbn [firstn]. apply app_nil_r.
  - exfalso. assert (I : In x e).
    { assert (K : nth_error (l ++ e) (length (a ++ p')) = Some x).
      { rewrite H, <- !app_assoc. cbn [app]. rewrite app_assoc. rewrite nth_error_app2, Nat.sub_diag by lia. reflexivity. }
      rewrite !app_length in L. cbn [length] in L. rewrite nth_error_app2 in K by (rewrite app_length; lia). apply nth_error_In in K. exact K. }
    assert (In x (p' ++ [x])) by (apply in_or_app; right; left; reflexivity).
    destruct E as [->|[->| ->]]; cbn in I; [destruct I| |]; intuition subst; auto.
Qed.
Lemma prefix_eol p l e r : eol e -> p <> [] -> ~ In 10 p -> ~ In 13 p -> l ++ e = p ++ r -> exists r', l = p ++ r'.
Proof.
  intros E N P1 P2 H. assert (L : (length p <= length l)%nat \/ (length l < length p)%nat) by lia. destruct L as [L|L].
  - exists (skipn (length p) l). rewrite <- (firstn_skipn (length p) l) at 1. f_equal.
    transitivity (firstn (length p) (l ++ e)). { rewrite firstn_app. replace (length p - length l)%nat with 0%nat by lia. cbn [firstn]. rewrite app_nil_r. reflexivity. }
    rewrite H, firstn_app, Nat.sub_diag, firstn_all. cbn [firstn]. apply app_nil_r.
  - exfalso. destruct (split_last p N) as (p' & x & ->). assert (I : In x e).
    { assert (K : nth_error (l ++ e) (length p') = Some x).
      { rewrite H, <- !app_assoc. cbn [app]. rewrite nth_error_app2, Nat.sub_diag by lia. reflexivity. }
      rewrite app_length in L. cbn [length] in L. rewrite nth_error_app2 in K by lia. apply nth_error_In in K. exact K. }
    assert (In x (p' ++ [x])) by (apply in_or_app; right; left; reflexivity).
    destruct E as [->|[->| ->]]; cbn in I; [destruct I| |]; intuition subst; auto.
Qed.
Lemma eol_sp e : eol e -> forallb sp e = true /\ ascii e = true.
Proof. intros [->|[->| ->]]; split; reflexivity. Qed.
Lemma printable_ascii l : forallb printable l = true -> ascii l = true.
Proof. unfold ascii. rewrite !forallb_forall. intros H x I. apply H in I. unfold printable in I. lia. Qed.
Lemma utf8_app a b : utf8_ok a = true -> utf8_ok b = true -> utf8_ok (a ++ b) = true.
Proof.
  rewrite !utf8_ok_iff. intros (l & F & ->) (m & G & ->). exists (l ++ m). split; [apply Forall_app; auto|]. symmetry. apply flat_map_app.
Qed.
Lemma utf8_ascii l : ascii l = true -> utf8_ok l = true.
Proof.
  induction l as [|x l IH]; intros H; [reflexivity|]. unfold ascii in *. cbn [forallb] in H. apply andb_true_iff in H as [X H]. cbn [utf8_ok].
  replace (x <? 0x80) with true by (symmetry; exact X). auto.
Qed.
Lemma ascii_in l : (forall x, In x l -> x < 128) -> ascii l = true.
Proof. intros H. unfold ascii. apply forallb_forall. intros x I. specialize (H x I). lia. Qed.
Lemma in_ascii l x : ascii l = true -> In x l -> x < 128.
Proof. unfold ascii. rewrite forallb_forall. intros H I. apply H in I. lia. Qed.
Lemma lines_plines ls text : lines ls text -> Forall (fun l => ~ In 10 l) ls -> Forall2 (fun l p => exists e, eol e /\ p = l ++ e) ls (plines text).
Proof.
  unfold eol. induction 1 as [|l N|l ls t H IH|l ls t H IH]; intros F.
  - constructor.
  - rewrite plines_last by (auto; exact (Forall_inv F)). repeat constructor. exists []. rewrite app_nil_r. auto.
  - cbn [app]. rewrite plines_line by exact (Forall_inv F). constructor; [exists [10]; auto|]. apply IH. exact (Forall_inv_tail F).
  - replace (l ++ [13; 10] ++ t) with ((l ++ [13]) ++ 10 :: t) by (rewrite <- app_assoc; reflexivity). rewrite plines_line.
    + constructor; [exists [13; 10]; rewrite <- app_assoc; auto|]. apply IH. exact (Forall_inv_tail F).
    + intros G. apply in_app_or in G as [G|[G|[]]]; [exact (Forall_inv F G)|discriminate].
Qed.
(** The end of a line is not looked at. *)
Lemma trim_line l x z e : ascii (l ++ [x] ++ z) = true -> sp x = false -> forallb sp z = true -> eol e -> trim_end ((l ++ [x] ++ z) ++ e) = l ++ [x].
Proof.
  intros A X Z E. apply eol_sp in E as [E1 E2]. rewrite <- !app_assoc. apply trim_end_tail; [|exact X|rewrite forallb_app, Z, E1; reflexivity].
  rewrite !ascii_app, !andb_true_iff in *. tauto.
Qed.
Lemma dec_solid n : solid (dec n).
Proof.
  split; [apply forallb_forall|apply ascii_in]; intros x I; apply dec_chars in I; [|lia]. destruct (sp x) eqn:E; [|reflexivity]. apply sp_iff in E. lia.
Qed.
Lemma addr_solid t : forallb addr_char t = true -> solid t.
Proof.
  rewrite forallb_forall. intros H. split; [apply forallb_forall|apply ascii_in]; intros x I; apply H in I; unfold addr_char in I; [|lia].
  destruct (sp x) eqn:E; [|reflexivity]. apply sp_iff in E. lia.
Qed.
Lemma dec_nonempty n : dec n <> [].
Proof. unfold dec. cbn [dec_digits]. destruct (n / 10 =? 0); [discriminate|]. assert (G : forall f m acc, acc <> [] -> dec_digits f m acc <> []) by (induction f; intros m acc N; cbn [dec_digits]; [exact N|]; destruct (m / 10 =? 0); [discriminate|apply IHf; discriminate]). apply G. discriminate. Qed.

(** * The column header *)
Lemma tokens_occur s : forall pos p t, In (p, t) (tokens pos s) -> occurs t s.
Proof.
  induction s as [|b s IH]; intros pos p t H; [destruct H|]. cbn [tokens] in H.
  assert (K : forall p t, In (p, t) (tokens (S pos) s) -> occurs t (b :: s)) by (intros p' t' G; apply IH in G as (x & y & ->); exists (b :: x), y; reflexivity).
  destruct (ascii_space b); [exact (K _ _ H)|]. destruct s as [|x s'].
  { destruct H as [H|[]]. injection H as <- <-. exists [], []. reflexivity. }
  destruct (ascii_space x) eqn:X. { destruct H as [H|H]; [injection H as <- <-; exists [], (x :: s'); reflexivity|exact (K _ _ H)]. }
  destruct (tokens (S pos) (x :: s')) as [|[q u] r] eqn:T.
  { destruct H as [H|[]]. injection H as <- <-. exists [], (x :: s'). reflexivity. }
  destruct H as [H|H]; [|apply (K p t); right; exact H]. injection H as <- <-.
  assert (Z : forall s pos q u r, tokens pos s = (q, u) :: r -> match s with y :: _ => ascii_space y = false -> exists z, s = u ++ z | [] => True end).
  { clear. induction s as [|y s IH]; intros pos q u r H; [exact I|]. intros Y. cbn [tokens] in H. rewrite Y in H. destruct s as [|x s]; [injection H as <- <- <-; exists []; reflexivity|].
    destruct (ascii_space x) eqn:X; [injection H as <- <- <-; exists (x :: s); reflexivity|].
    destruct (tokens (S pos) (x :: s)) as [|[q' u'] r'] eqn:T; [injection H as <- <- <-; exists (x :: s); reflexivity|]. injection H as <- <- <-.
    destruct (IH _ _ _ _ T eq_refl) as (z & E). exists z. rewrite E. reflexivity. }
  destruct (Z _ _ _ _ _ T X) as (z & E). exists [], z. rewrite E. reflexivity.
Qed.
Lemma merge_in l : forall p t, In (p, t) (merge_names l) -> In (p, t) l \/ (t = str "Next Hop" /\ exists q, In (q, str "Hop") l).
Proof.
  assert (G : forall n l, (length l <= n)%nat -> forall p t, In (p, t) (merge_names l) -> In (p, t) l \/ (t = str "Next Hop" /\ exists q, In (q, str "Hop") l)).
  { clear l. induction n as [|n IH]; intros [|[p0 t0] l] L p t H; try (destruct H; fail); cbn [length] in L; try lia.
    cbn [merge_names] in H. destruct l as [|[q u] l']; [left; exact H|].
    destruct (bytes_eqb t0 (str "Next") && bytes_eqb u (str "Hop")) eqn:E.
    - apply andb_true_iff in E as [_ E]. apply bytes_eqb_eq in E. subst u. destruct H as [H|H].
      + injection H as <- <-. right. split; [reflexivity|]. exists q. right; left; reflexivity.
      + cbn [length] in L. destruct (IH l' ltac:(lia) _ _ H) as [G|(-> & q' & G)]; [left; right; right; exact G|right; split; [reflexivity|]; exists q'; right; right; exact G].
    - destruct H as [H|H]; [left; left; exact H|]. destruct (IH ((q, u) :: l') ltac:(cbn [length] in *; lia) _ _ H) as [G|(-> & q' & G)]; [left; right; exact G|right; split; [reflexivity|]; exists q'; right; exact G]. }
  apply (G (length l) l). lia.
Qed.
Lemma column_in name l p : column_of name l = Some p -> In (p, name) l.
Proof.
  induction l as [|[q t] l IH]; intros H; cbn [column_of] in H; [discriminate|]. destruct (column_of name l); [right; apply IH; exact H|].
  destruct (bytes_eqb t name) eqn:E; [|discriminate]. apply bytes_eqb_eq in E. injection H as ->. left. congruence.
Qed.
Lemma column_occurs name line p : column_of name (merge_names (tokens 0 line)) = Some p ->
  occurs (if bytes_eqb name (str "Next Hop") then str "Hop" else name) line.
Proof.
  intros H. apply column_in, merge_in in H as [H|(-> & q & H)].
  - destruct (bytes_eqb name (str "Next Hop")) eqn:E; [|eapply tokens_occur; eauto]. apply bytes_eqb_eq in E. subst name. apply tokens_occur in H as (a & b & ->).
    exists (a ++ str "Next "), b. rewrite <- app_assoc. reflexivity.
  - rewrite bytes_eqb_refl. eapply tokens_occur; eauto.
Qed.
Lemma occurs_trim p l : occurs p (trim_end l) -> occurs p l.
Proof. intros (a & b & H). destruct (trim_end_prefix l) as [z Z]. exists a, (b ++ z). rewrite Z, H, <- !app_assoc. reflexivity. Qed.
Lemma unlike_none l e : eol e -> unlike_header l -> parse_column_header (trim_end (l ++ e)) = None.
Proof.
  intros E (name & I & N). unfold parse_column_header. cbn zeta.
  assert (K : forall w, occurs w (trim_end (l ++ e)) -> w <> name \/ In 10 name \/ In 13 name \/ name = []).
  { intros w O. apply occurs_trim in O. destruct (list_eq_dec N.eq_dec w name) as [D|D]; [|left; exact D]. subst w.
    destruct (in_dec N.eq_dec 10 name); [auto|]. destruct (in_dec N.eq_dec 13 name); [auto|]. destruct name; [auto|]. exfalso. apply N. eapply occurs_eol; eauto. discriminate. }
  assert (M : forall q, (if bytes_eqb q (str "Next Hop") then str "Hop" else q) = name -> column_of q (merge_names (tokens 0 (trim_end (l ++ e)))) = None).
  { intros q D. destruct (column_of q _) as [p|] eqn:C; [|reflexivity]. exfalso. apply column_occurs in C. destruct (K _ C) as [G|[G|[G|G]]]; [congruence|..];
    cbn in I; repeat (destruct I as [I|I]; [subst name; vm_compute in G; try discriminate G; intuition discriminate|]); destruct I. }
  cbn [In] in I. destruct I as [<-|[<-|[<-|[<-|[<-|[]]]]]].
  - rewrite (M (str "Next Hop") eq_refl). reflexivity.
  - rewrite (M (str "Metric") eq_refl). repeat match goal with |- context [column_of ?x ?y] => destruct (column_of x y) end; reflexivity.
  - rewrite (M (str "LocPrf") eq_refl). repeat match goal with |- context [column_of ?x ?y] => destruct (column_of x y) end; reflexivity.
  - rewrite (M (str "Weight") eq_refl). repeat match goal with |- context [column_of ?x ?y] => destruct (column_of x y) end; reflexivity.
  - rewrite (M (str "Path") eq_refl). repeat match goal with |- context [column_of ?x ?y] => destruct (column_of x y) end; reflexivity.
Qed.
Lemma tokens_gap n : forall pos s, tokens pos (gap n ++ s) = tokens (pos + n) s.
Proof. induction n as [|n IH]; intros pos s; [cbn; f_equal; lia|]. cbn [gap repeat app tokens]. change (ascii_space 32) with true. cbn match. unfold gap in IH. rewrite IH. f_equal. lia. Qed.
Lemma tokens_word w : forall pos s, w <> [] -> forallb (fun b => negb (ascii_space b)) w = true -> s = [] \/ (exists s', s = 32 :: s') -> tokens pos (w ++ s) = (pos, w) :: tokens (pos + length w) s.
Proof.
  induction w as [|x w IH]; intros pos s N F D; [congruence|]. cbn [forallb] in F. apply andb_true_iff in F as [X F]. cbn [app tokens length].
  destruct (ascii_space x); [discriminate|]. destruct w as [|y w].
  - cbn [app length]. destruct D as [->|(s' & ->)]; [reflexivity|]. change (ascii_space 32) with true. cbn match. f_equal. f_equal. lia.
  - cbn [app]. cbn [forallb] in F. apply andb_true_iff in F as [Y F]. destruct (ascii_space y) eqn:YE; [discriminate|].
    change (y :: w ++ s) with ((y :: w) ++ s). rewrite (IH (S pos) s) by (try discriminate; auto; cbn [forallb]; rewrite YE, F; reflexivity). f_equal. f_equal. cbn [length]. lia.
Qed.
Lemma header_columns c h e : eol e -> header_line c h -> parse_column_header (trim_end (h ++ e)) = Some c /\ utf8_ok (h ++ e) = true /\ ~ In 10 h.
Proof.
  intros E (a & b & d & e0 & f & g & -> & C1 & C2 & C3 & C4 & C5).
  assert (W : forall s, ascii (str s) = true -> True) by auto. clear W.
  set (X := gap a ++ str "Network" ++ gap (S b) ++ str "Next Hop" ++ gap (S d) ++ str "Metric" ++ gap (S e0) ++ str "LocPrf" ++ gap (S f) ++ str "Weight" ++ gap (S g) ++ str "Path").
  assert (A : ascii X = true) by (unfold X; rewrite !ascii_app, !gap_ascii; reflexivity).
  assert (T : trim_end (X ++ e) = X).
  { assert (K : exists y, X = y ++ [104] ++ []). { unfold X. exists (gap a ++ str "Network" ++ gap (S b) ++ str "Next Hop" ++ gap (S d) ++ str "Metric" ++ gap (S e0) ++ str "LocPrf" ++ gap (S f) ++ str "Weight" ++ gap (S g) ++ str "Pat"). rewrite <- !app_assoc. reflexivity. }
    destruct K as (y & K). rewrite K in *. rewrite (trim_line y 104 []); auto. }
  rewrite T. split; [|split].
  - unfold parse_column_header. cbn zeta. unfold X. rewrite tokens_gap.
    rewrite tokens_word; [|discriminate|reflexivity|right; eexists; reflexivity]. rewrite tokens_gap.
    match goal with |- context [tokens _ (str "Next Hop" ++ ?R)] => change (str "Next Hop" ++ R) with (str "Next" ++ gap 1 ++ str "Hop" ++ R) end.
    rewrite tokens_word; [|discriminate|reflexivity|right; eexists; reflexivity]. rewrite tokens_gap.
    rewrite tokens_word; [|discriminate|reflexivity|right; eexists; reflexivity]. rewrite tokens_gap.
    rewrite tokens_word; [|discriminate|reflexivity|right; eexists; reflexivity]. rewrite tokens_gap.
    rewrite tokens_word; [|discriminate|reflexivity|right; eexists; reflexivity]. rewrite tokens_gap.
    rewrite tokens_word; [|discriminate|reflexivity|right; eexists; reflexivity]. rewrite tokens_gap.
    rewrite <- (app_nil_r (str "Path")). rewrite tokens_word; [|discriminate|reflexivity|left; reflexivity].
    set (p0 := (0 + a)%nat). set (p1 := (p0 + length (str "Network") + S b)%nat). set (p2 := (p1 + length (str "Next") + 1)%nat).
    set (p3 := (p2 + length (str "Hop") + S d)%nat). set (p4 := (p3 + length (str "Metric") + S e0)%nat). set (p5 := (p4 + length (str "LocPrf") + S f)%nat). set (p6 := (p5 + length (str "Weight") + S g)%nat).
    cbn -[p0 p1 p2 p3 p4 p5 p6 Nat.ltb].
    assert (L : Nat.ltb p1 p3 && Nat.ltb p3 p4 && Nat.ltb p4 p5 && Nat.ltb p5 p6 = true) by (unfold p6, p5, p4, p3, p2; rewrite !andb_true_iff, !Nat.ltb_lt; lia).
    rewrite L. f_equal. destruct c as [h m p w pa]. cbn [c_hop c_metric c_pref c_weight c_path] in *.
    cbn [length str] in *. unfold p6, p5, p4, p3, p2, p1, p0. cbn. f_equal; lia.
  - apply utf8_ascii. rewrite ascii_app, A. apply eol_sp in E as [_ E]. exact E.
  - unfold X. intros I. rewrite !in_app_iff in I. assert (G : forall n, ~ In 10 (gap n)) by (intros n K; apply repeat_spec in K; discriminate).
    repeat (destruct I as [I|I]; [first [exact (G _ I)|vm_compute in I; intuition discriminate]|]). vm_compute in I; intuition discriminate.
Qed.

(** * The preamble *)
Lemma parse_dec64 n : n < 2 ^ 64 -> parse_u64 (dec n) = Some n.
Proof.
  intros H. destruct (dec_ok n) as (A & B & C).
  assert (P : forall s acc, all_digits s -> digits_val acc s < 2 ^ 64 -> parse_digits64 acc s = Some (digits_val acc s)).
  { change (2 ^ 64) with 18446744073709551616. induction s as [|c s IH]; intros acc F L; cbn [parse_digits64 digits_val] in *; [reflexivity|].
    pose proof (Forall_inv F) as D. cbn beta in D. replace ((48 <=? c) && (c <=? 57)) with true by lia. cbn zeta.
    pose proof (digits_mono s (acc * 10 + (c - 48))). destruct (N.ltb_spec 18446744073709551615 (acc * 10 + (c - 48))) as [K|K]; [lia|]. apply IH; [exact (Forall_inv_tail F)|exact L]. }
  rewrite <- C in H. specialize (P _ 0 B H). rewrite C in P. destruct (dec n) as [|c s] eqn:E; [congruence|].
  pose proof (Forall_inv B) as D. cbn beta in D. rewrite <- P. unfold parse_u64. assert (c <> 43) by lia. destruct c as [|q]; auto. do 6 (destruct q as [q|q|]; auto). lia.
Qed.
Definition pre_effect (p : pre) (h : text_header) : text_header :=
  match p with
  | PVersion v i => TextHeader (Some v) (Some i) (th_as h) (th_columns h)
  | PLocal a => TextHeader (th_version h) (th_router h) (Some a) (th_columns h)
  | POther => h
  end.
Lemma trim_solid t : solid t -> trim t = t.
Proof. intros S. pose proof (trim_field 0 t 0 S) as H. cbn [gap repeat app] in H. rewrite app_nil_r in H. exact H. Qed.
Lemma solid_no x t : sp x = true -> solid t -> ~ In x t.
Proof. intros X [S _] I. rewrite forallb_forall in S. apply S in I. rewrite X in I. discriminate. Qed.
Lemma addr_no x t : addr_char x = false -> forallb addr_char t = true -> ~ In x t.
Proof. intros X S I. rewrite forallb_forall in S. apply S in I. congruence. Qed.
Lemma dec_no x n : x < 48 \/ 57 < x -> ~ In x (dec n).
Proof. intros X I. apply dec_chars in I. lia. Qed.
Lemma trim_back l e : ascii l = true -> eol e -> exists z, l = trim_end (l ++ e) ++ z /\ forallb sp z = true.
Proof.
  intros A E. destruct (eol_sp _ E) as [E1 E2].
  assert (G : forall m, exists z, m = z ++ dropw m /\ forallb sp z = true).
  { induction m as [|x m (z & I1 & I2)]; [exists []; auto|]. cbn [dropw]. destruct (sp x) eqn:X; [exists (x :: z); cbn [app forallb]; rewrite X, <- I1; auto|exists []; auto]. }
  rewrite trim_end_ascii by (rewrite ascii_app, A, E2; reflexivity). rewrite rev_app_distr, dropw_spaces by (rewrite forallb_rev; exact E1).
  destruct (G (rev l)) as (z & I1 & I2). exists (rev z). rewrite <- rev_app_distr, <- I1, rev_involutive, forallb_rev. auto.
Qed.
Lemma trim_keep u x v e : ascii (u ++ [x] ++ v) = true -> sp x = false -> eol e -> exists v', trim_end ((u ++ [x] ++ v) ++ e) = u ++ [x] ++ v'.
Proof.
  intros A X E. destruct (trim_back _ e A E) as (z & H & Z). set (T := trim_end ((u ++ [x] ++ v) ++ e)) in *. clearbody T.
  assert (L : (length u < length T)%nat).
  { destruct (Nat.lt_ge_cases (length u) (length T)) as [L|L]; [exact L|exfalso].
    assert (K : nth_error (u ++ [x] ++ v) (length u) = Some x) by (rewrite nth_error_app2, Nat.sub_diag by lia; reflexivity).
    rewrite H, nth_error_app2 in K by exact L. apply nth_error_In in K. rewrite forallb_forall in Z. apply Z in K. congruence. }
  exists (skipn (S (length u)) T). rewrite app_assoc. rewrite <- (firstn_skipn (S (length u)) T) at 1. f_equal.
  transitivity (firstn (S (length u)) (T ++ z)). { rewrite firstn_app. replace (S (length u) - length T)%nat with 0%nat by lia. rewrite firstn_O, app_nil_r. reflexivity. }
  rewrite <- H. rewrite app_assoc, firstn_app, app_length. cbn [length]. replace (S (length u) - (length u + 1))%nat with 0%nat by lia. rewrite firstn_O, app_nil_r.
  apply firstn_all2. rewrite app_length. cbn [length]. lia.
Qed.
Lemma starts_with_false p l : (forall r, l <> p ++ r) -> starts_with p l = false.
Proof. intros H. unfold starts_with. destruct (strip_prefix p l) eqn:E; [|reflexivity]. apply strip_prefix_inv in E. exfalso. exact (H _ E). Qed.
Lemma pre_step ps p l e h : sane ps -> eol e -> pre_line ps p l ->
  utf8_ok (l ++ e) = true /\ ~ In 10 l /\ parse_column_header (trim_end (l ++ e)) = None /\ preamble_line ps (trim_end (l ++ e)) h = pre_effect p h.
Proof.
  intros [_ SI] E [U H]. destruct (eol_sp _ E) as [E1 E2]. pose proof (unlike_none l e E U) as N.
  destruct p as [v i|a|].
  - destruct H as (V & r & tail & R & T & ->). destruct (SI _ _ R) as [Rn Ra]. apply addr_solid in Ra as Rs.
    assert (A : ascii (str "BGP table version is " ++ dec v ++ str ", local router ID is " ++ r ++ str "," ++ tail) = true) by (rewrite !ascii_app, (proj2 (dec_solid v)), (proj2 Rs), (printable_ascii _ T); reflexivity).
    split; [apply utf8_app; apply utf8_ascii; auto|]. split; [|split; [exact N|]].
    { rewrite !in_app_iff. intros [I|[I|[I|[I|[I|I]]]]].
      - vm_compute in I; intuition discriminate.
      - revert I. apply dec_no. lia.
      - vm_compute in I; intuition discriminate.
      - revert I. apply solid_no; auto.
      - vm_compute in I; intuition discriminate.
      - rewrite forallb_forall in T. apply T in I. discriminate. }
    destruct (trim_keep (str "BGP table version is " ++ dec v ++ str ", local router ID is " ++ r) 44 tail e) as (tail' & K); [rewrite <- !app_assoc; exact A|reflexivity|exact E|].
    rewrite <- !app_assoc in K. change (str ",") with [44]. rewrite <- !app_assoc. rewrite K. clear K N A U.
    unfold preamble_line. rewrite strip_prefix_app.
    change (str ", local router ID is " ++ r ++ [44] ++ tail') with ([44] ++ (str " local router ID is " ++ r ++ [44] ++ tail')).
    rewrite split_once_skip by (apply dec_no; lia). rewrite split_once_here. rewrite app_nil_r, (trim_solid (dec v)) by apply dec_solid. rewrite parse_dec64 by exact V.
    assert (S2 : second_part (str "local router ID is ") (str " local router ID is " ++ r ++ [44] ++ tail') = Some (r ++ [44] ++ match split_once (str "local router ID is ") tail' with Some (a, _) => a | None => tail' end)).
    { unfold second_part. change (str " local router ID is " ++ r ++ [44] ++ tail') with ([32] ++ str "local router ID is " ++ r ++ [44] ++ tail').
      change (str "local router ID is ") with (108 :: str "ocal router ID is ") at 1. rewrite split_once_skip by (intros [I|[]]; discriminate).
      change (108 :: str "ocal router ID is ") with (str "local router ID is "). rewrite split_once_here. f_equal.
      rewrite (app_assoc r). change (str "local router ID is ") with (108 :: str "ocal router ID is "). rewrite split_once_skip.
      - destruct (split_once (108 :: str "ocal router ID is ") tail') as [[a b]|]; rewrite <- app_assoc; reflexivity.
      - intros I. apply in_app_or in I as [I|[I|[]]]; [|discriminate]. revert I. apply addr_no; [reflexivity|exact Ra]. }
    rewrite S2. rewrite split_once_skip by (apply addr_no; [reflexivity|exact Ra]). rewrite split_once_here, app_nil_r, trim_solid by exact Rs. rewrite R. cbn [pre_effect].
    assert (D : starts_with (str "Default local pref") (str "BGP table version is " ++ dec v ++ [44] ++ str " local router ID is " ++ r ++ [44] ++ tail') = false) by reflexivity.
    rewrite D. reflexivity.
  - destruct H as (V & n & ->).
    assert (A : ascii (str "Default local pref " ++ dec n ++ str ", local AS " ++ dec a) = true) by (rewrite !ascii_app, !(proj2 (dec_solid _)); reflexivity).
    split; [apply utf8_app; apply utf8_ascii; auto|]. split; [|split; [exact N|]].
    { rewrite !in_app_iff. intros [I|[I|[I|I]]]; try (vm_compute in I; intuition discriminate); revert I; apply dec_no; lia. }
    assert (K : trim_end ((str "Default local pref " ++ dec n ++ str ", local AS " ++ dec a) ++ e) = str "Default local pref " ++ dec n ++ str ", local AS " ++ dec a).
    { destruct (split_last (dec a) (dec_nonempty a)) as (d & x & D). assert (X : sp x = false).
      { pose proof (proj1 (dec_solid a)) as S. rewrite D, forallb_app, andb_true_iff in S. destruct S as [_ S]. cbn [forallb] in S. destruct (sp x); [discriminate|reflexivity]. }
      rewrite D in *. pose proof (trim_line (str "Default local pref " ++ dec n ++ str ", local AS " ++ d) x [] e) as T. rewrite <- !app_assoc in *. cbn [app] in T. apply T; auto. }
    rewrite K. unfold preamble_line.
    assert (D1 : strip_prefix (str "BGP table version is ") (str "Default local pref " ++ dec n ++ str ", local AS " ++ dec a) = None) by reflexivity. rewrite D1.
    assert (D2 : starts_with (str "Default local pref") (str "Default local pref " ++ dec n ++ str ", local AS " ++ dec a) = true) by reflexivity. rewrite D2.
    assert (S2 : second_part (str "local AS ") (str "Default local pref " ++ dec n ++ str ", local AS " ++ dec a) = Some (dec a)).
    { assert (F : split_once (str "local AS ") (str "Default local pref " ++ dec n ++ str ", local AS " ++ dec a) = Some (str "Default local pref " ++ dec n ++ str ", ", dec a)).
      { assert (G : split_once (str "local AS ") (dec n ++ str ", local AS " ++ dec a) = Some (dec n ++ str ", ", dec a)).
        { change (str "local AS ") with (108 :: str "ocal AS "). rewrite split_once_skip by (apply dec_no; lia).
          change (str ", local AS " ++ dec a) with ([44; 32] ++ (108 :: str "ocal AS ") ++ dec a). rewrite split_once_skip by (intros [I|[I|[]]]; discriminate).
          rewrite split_once_here. reflexivity. }
        set (D := dec n ++ str ", local AS " ++ dec a) in *. set (D' := dec n ++ str ", ") in *. clearbody D D'. revert G.
        change (str "Default local pref " ++ D) with (68 :: 101 :: 102 :: 97 :: 117 :: 108 :: 116 :: 32 :: 108 :: 111 :: 99 :: 97 :: 108 :: 32 :: 112 :: 114 :: 101 :: 102 :: 32 :: D).
        change (str "local AS ") with [108; 111; 99; 97; 108; 32; 65; 83; 32]. intros G. cbn [split_once strip_prefix N.eqb Pos.eqb]. cbn [split_once strip_prefix] in G. rewrite G. reflexivity. }
      unfold second_part. rewrite F. f_equal. change (str "local AS ") with (108 :: str "ocal AS "). rewrite split_once_none by (apply dec_no; lia). reflexivity. }
    rewrite S2, trim_solid by apply dec_solid. rewrite parse_dec by exact V. reflexivity.
  - destruct H as (U8 & T & B & D). split; [apply utf8_app; [exact U8|apply utf8_ascii; exact E2]|]. split; [exact T|]. split; [exact N|].
    destruct (trim_end_prefix (l ++ e)) as [z Z]. unfold preamble_line.
    assert (S1 : strip_prefix (str "BGP table version is ") (trim_end (l ++ e)) = None).
    { destruct (strip_prefix _ (trim_end (l ++ e))) as [r|] eqn:S; [|reflexivity]. exfalso. apply strip_prefix_inv in S. rewrite S, <- app_assoc in Z.
      apply prefix_eol in Z as (r' & Z); [exact (B _ Z)|exact E|discriminate|vm_compute; intuition discriminate|vm_compute; intuition discriminate]. }
    rewrite S1. rewrite starts_with_false; [reflexivity|]. intros r S. rewrite S, <- app_assoc in Z.
    apply prefix_eol in Z as (r' & Z); [exact (D _ Z)|exact E|discriminate|vm_compute; intuition discriminate|vm_compute; intuition discriminate].
Qed.
Lemma pheader_ok ps ls : forall pl c h rl pls hd n, sane ps -> Forall2 (pre_line ps) ls pl -> header_line c h ->
  Forall2 (fun l p => exists e, eol e /\ p = l ++ e) (pl ++ h :: rl) pls -> (length ls < n)%nat ->
  exists rls, pheader ps n hd pls = Ok (let h' := fold_left (fun x p => pre_effect p x) ls hd in TextHeader (th_version (preamble_line ps h h')) (th_router (preamble_line ps h h')) (th_as (preamble_line ps h h')) (Some c), rls)
  /\ Forall2 (fun l p => exists e, eol e /\ p = l ++ e) rl rls.
Proof.
  induction ls as [|p ls IH]; intros pl c h rl pls hd n S F H L K.
  - inversion F; subst. cbn [app] in L. inversion L as [|? q ? rls (e & E & ->) L']; subst. destruct n as [|n]; [cbn in K; lia|]. cbn [pheader].
    destruct (header_columns c h e E H) as (C & U & _). rewrite U, C. exists rls. split; [|exact L'].
    assert (T : trim_end (h ++ e) = h). { destruct H as (a & b & d & e0 & f & g & -> & _).
      set (X := gap a ++ str "Network" ++ gap (Datatypes.S b) ++ str "Next Hop" ++ gap (Datatypes.S d) ++ str "Metric" ++ gap (Datatypes.S e0) ++ str "LocPrf" ++ gap (Datatypes.S f) ++ str "Weight" ++ gap (Datatypes.S g) ++ str "Path").
      assert (A : ascii X = true) by (unfold X; rewrite !ascii_app, !gap_ascii; reflexivity).
      assert (Y : exists y, X = y ++ [104] ++ []). { unfold X. exists (gap a ++ str "Network" ++ gap (Datatypes.S b) ++ str "Next Hop" ++ gap (Datatypes.S d) ++ str "Metric" ++ gap (Datatypes.S e0) ++ str "LocPrf" ++ gap (Datatypes.S f) ++ str "Weight" ++ gap (Datatypes.S g) ++ str "Pat"). rewrite <- !app_assoc. reflexivity. }
      destruct Y as (y & Y). rewrite Y in *. rewrite (trim_line y 104 []); auto. }
    rewrite T. reflexivity.
  - inversion F as [|? l ? pl' P F']; subst. cbn [app] in L. inversion L as [|? q ? pls' (e & E & ->) L']; subst. destruct n as [|n]; [cbn in K; lia|]. cbn [pheader].
    destruct (pre_step ps p l e hd S E P) as (U & _ & N & X). rewrite U, N, X. cbn [fold_left]. cbn [length] in K. eapply (IH pl' c h rl); eauto. lia.
Qed.
