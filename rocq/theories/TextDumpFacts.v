(** Proofs about text dumps: lines, characters, columns. *)
From Coq Require Import String Lia Floats.SpecFloat ZifyBool ZifyNat ZifyN.
From Verif Require Import Base BaseFacts Net AsPath Attr Elem Text Filter FilterFacts Utf8 TableDumpSpec TableDumpFacts Stream Framing Iter TextDump TextDumpSpec.

(** * Lines of a source *)
(** The lines of a text, each with its end. *)
Fixpoint plines (s : bytes) : list bytes :=
  match s with
  | [] => []
  | x :: s' => if x =? 10 then [x] :: plines s' else match plines s' with l :: ls => (x :: l) :: ls | [] => [[x]] end
  end.
Lemma plines_nil s : plines s = [] <-> s = [].
Proof. destruct s as [|x s]; cbn; [tauto|]. destruct (x =? 10); [split; discriminate|]. destruct (plines s); split; discriminate. Qed.
Lemma plines_line l r : ~ In 10 l -> plines (l ++ 10 :: r) = (l ++ [10]) :: plines r.
Proof.
  induction l as [|x l IH]; intros H; cbn; [reflexivity|].
  destruct (N.eqb_spec x 10) as [->|E]; [exfalso; apply H; left; reflexivity|]. rewrite IH; [reflexivity|]. intros G; apply H; right; exact G.
Qed.
Lemma plines_last l : l <> [] -> ~ In 10 l -> plines l = [l].
Proof.
  induction l as [|x l IH]; intros N H; [congruence|]. cbn.
  destruct (N.eqb_spec x 10) as [->|E]; [exfalso; apply H; left; reflexivity|].
  destruct l as [|y l]; [reflexivity|]. rewrite IH; [reflexivity|discriminate|]. intros G; apply H; right; exact G.
Qed.
Lemma plines_length s : (length (plines s) <= length s)%nat.
Proof. induction s as [|x s IH]; cbn; [lia|]. destruct (x =? 10); cbn; [lia|]. destruct (plines s); cbn in *; lia. Qed.
Lemma cut_line_some l a b : cut_line l = Some (a, b) -> exists a', a = a' ++ [10] /\ ~ In 10 a' /\ l = a ++ b.
Proof.
  revert a b; induction l as [|x l IH]; intros a b H; cbn in H; [discriminate|].
  destruct (N.eqb_spec x 10) as [->|E]. { injection H as <- <-. exists []. split; [reflexivity|]. split; [intros []|reflexivity]. }
  destruct (cut_line l) as [[a1 b1]|]; [|discriminate]. injection H as <- <-. destruct (IH a1 b1 eq_refl) as (a' & -> & N & ->).
  exists (x :: a'). split; [reflexivity|]. split; [|reflexivity]. intros [G|G]; [congruence|auto].
Qed.
Lemma cut_line_none l : cut_line l = None -> ~ In 10 l.
Proof.
  induction l as [|x l IH]; intros H; [intros []|]. cbn in H.
  destruct (N.eqb_spec x 10) as [->|E]; [discriminate|]. destruct (cut_line l) as [[? ?]|]; [discriminate|]. intros [G|G]; [congruence|exact (IH eq_refl G)].
Qed.
Lemma read_until_ok s : no_fail s -> exists st l s', read_until s = (st, l, s') /\ no_fail s' /\ sbytes s = l ++ sbytes s' /\
  ((st = AtEof /\ ~ In 10 l /\ sbytes s' = []) \/ (st = Full /\ exists l', l = l' ++ [10] /\ ~ In 10 l')).
Proof.
  induction s as [|e s IH]; intros H.
  { exists AtEof, [], []. split; [reflexivity|]. split; [exact H|]. split; [reflexivity|]. left. repeat split. intros []. }
  assert (H' : no_fail s) by (intros G; apply H; right; exact G).
  destruct e as [l| |]; cbn [read_until sbytes].
  - destruct (cut_line l) as [[a b]|] eqn:C.
    + apply cut_line_some in C as (a' & -> & Na & ->). exists Full, (a' ++ [10]), (Data b :: s).
      split; [reflexivity|]. split; [intros [G|G]; [discriminate|exact (H' G)]|]. split; [cbn; rewrite <- !app_assoc; reflexivity|].
      right. split; [reflexivity|]. exists a'. auto.
    + apply cut_line_none in C. destruct (IH H') as (st & g & s' & -> & N & E & D).
      exists st, (l ++ g), s'. split; [reflexivity|]. split; [exact N|]. split; [rewrite E, app_assoc; reflexivity|].
      destruct D as [(-> & Ng & Z)|(-> & l' & -> & Ng)].
      * left. split; [reflexivity|]. split; [intros G; apply in_app_or in G as [G|G]; auto|exact Z].
      * right. split; [reflexivity|]. exists (l ++ l'). split; [rewrite app_assoc; reflexivity|]. intros G; apply in_app_or in G as [G|G]; auto.
  - destruct (IH H') as (st & g & s' & E & R). exists st, g, s'. auto.
  - exfalso. apply H. left. reflexivity.
Qed.
(** What the next line is, for a source that does not fail. *)
Lemma read_line_ok s : no_fail s ->
  match plines (sbytes s) with
  | [] => exists s', read_line s = LEnd s'
  | l :: ls => exists s', read_line s = (if utf8_ok l then LLine l s' else LError s') /\ no_fail s' /\ plines (sbytes s') = ls
  end.
Proof.
  intros H. destruct (read_until_ok s H) as (st & l & s' & E & N & B & D). unfold read_line. rewrite E, B.
  destruct D as [(-> & Nl & Z)|(-> & l' & -> & Nl)].
  - rewrite Z, app_nil_r. destruct l as [|x l]; [exists s'; reflexivity|].
    rewrite plines_last; [|discriminate|exact Nl]. exists s'. split; [reflexivity|]. split; [exact N|]. rewrite Z. reflexivity.
  - rewrite <- app_assoc. cbn [app]. rewrite plines_line by exact Nl. exists s'. split; [|auto]. destruct l'; reflexivity.
Qed.
(** Any source: a line is a part of what was there. *)
Lemma read_until_any s st l s' : read_until s = (st, l, s') ->
  (exists z, sbytes s = l ++ z ++ sbytes s' /\ (st <> Failed -> z = [])).
Proof.
  revert st l s'; induction s as [|e s IH]; intros st l s' H; cbn in H.
  { injection H as <- <- <-. exists []. auto. }
  destruct e as [d| |].
  - destruct (cut_line d) as [[a b]|] eqn:C.
    + injection H as <- <- <-. apply cut_line_some in C as (a' & -> & _ & ->). exists []. cbn. rewrite !app_assoc. auto.
    + destruct (read_until s) as [[st1 g] s1] eqn:E. injection H as <- <- <-. destruct (IH _ _ _ eq_refl) as (z & B & Z).
      exists z. cbn. rewrite B, app_assoc. auto.
  - apply IH in H. exact H.
  - injection H as <- <- <-. exists []. cbn. split; [reflexivity|congruence].
Qed.
Lemma read_line_any s : match read_line s with
  | LLine l s' => sbytes s = l ++ sbytes s' /\ l <> []
  | LEnd s' | LError s' => (length (sbytes s') <= length (sbytes s))%nat
  end.
Proof.
  unfold read_line. destruct (read_until s) as [[st l] s'] eqn:E. destruct (read_until_any _ _ _ _ E) as (z & B & Z).
  assert (L : (length (sbytes s') <= length (sbytes s))%nat) by (rewrite B, !app_length; lia).
  destruct st; [| |exact L]; (destruct l as [|x l]; [exact L|]); (destruct (utf8_ok (x :: l)); [|exact L]); rewrite B, Z by discriminate; split; try discriminate; reflexivity.
Qed.

(** * The same program on lists of lines *)
Fixpoint pheader (ps : parsers) (n : nat) (h : text_header) (ls : list bytes) : res (text_header * list bytes) :=
  match n, ls with
  | O, _ | _, [] => Ok (h, ls)
  | S n', l :: ls' =>
      if utf8_ok l then
        match parse_column_header (trim_end l) with
        | Some c => let h' := preamble_line ps (trim_end l) h in Ok (TextHeader (th_version h') (th_router h') (th_as h') (Some c), ls')
        | None => pheader ps n' (preamble_line ps (trim_end l) h) ls'
        end
      else Err EIo
  end.
Lemma header_loop_ok ps n : forall h s, no_fail s ->
  match pheader ps n h (plines (sbytes s)) with
  | Ok (h', ls) => exists s', header_loop ps n h s = Ok (h', s') /\ no_fail s' /\ plines (sbytes s') = ls
  | Err e => header_loop ps n h s = Err e
  | Panic => False
  end.
Proof.
  induction n as [|n IH]; intros h s H; cbn [pheader header_loop].
  { exists s. auto. }
  pose proof (read_line_ok s H) as R. destruct (plines (sbytes s)) as [|l ls] eqn:P.
  - destruct R as (s' & R). rewrite R. unfold read_line in R.
    destruct (read_until_ok s H) as (st & l & s1 & E & N & B & D). rewrite E in R.
    apply plines_nil in P. rewrite P in B. symmetry in B. apply app_eq_nil in B as [-> B].
    assert (s1 = s') as -> by (destruct D as [(-> & _)|(-> & l' & K & _)]; [congruence|destruct l'; discriminate]).
    exists s'. rewrite B. auto.
  - destruct R as (s' & R & N & <-). rewrite R. destruct (utf8_ok l); [|reflexivity]. cbn zeta.
    destruct (parse_column_header (trim_end l)); [exists s'; auto|]. apply IH. exact N.
Qed.
Definition at_prefix (it : text_iter) (p : bytes) : text_iter := with_line it [] p.
Fixpoint pnext (ps : parsers) (it : text_iter) (cur : bytes) (ls : list bytes) : res (option (elem * bytes * list bytes)) :=
  match ls with
  | [] => Ok None
  | l :: ls' =>
      if utf8_ok l then
        '(o, p) <~ line_step ps (at_prefix it cur) l ;;
        match o with Some e => Ok (Some (e, p, ls')) | None => pnext ps it p ls' end
      else Ok None
  end.
Fixpoint prows (ps : parsers) (it : text_iter) (cur : bytes) (ls : list bytes) : res (list elem) :=
  match ls with
  | [] => Ok []
  | l :: ls' =>
      if utf8_ok l then
        '(o, p) <~ line_step ps (at_prefix it cur) l ;;
        r <~ prows ps it p ls' ;; Ok (match o with Some e => e :: r | None => r end)
      else Ok []
  end.
Lemma line_step_eq ps it l : line_step ps (at_prefix it (ti_prefix it)) l = line_step ps it l.
Proof. destruct it. reflexivity. Qed.
Lemma line_step_at ps it s p q l : line_step ps (at_prefix (with_line it s p) q) l = line_step ps (at_prefix it q) l.
Proof. destruct it. reflexivity. Qed.
Lemma pnext_at ps it s p ls : forall cur, pnext ps (with_line it s p) cur ls = pnext ps it cur ls.
Proof. induction ls as [|l ls IH]; intros cur; cbn [pnext]; [reflexivity|]. destruct (utf8_ok l); [|reflexivity]. rewrite line_step_at. destruct (line_step ps (at_prefix it cur) l) as [[[e|] q]| |]; cbn [rbind]; auto. Qed.
Lemma line_step_noerr ps it l e : line_step ps it l <> Err e.
Proof.
  unfold line_step. cbn zeta. destruct (trim_end l); [discriminate|].
  destruct (match parse_route_line _ _ _ with Some _ => _ | None => _ end); [discriminate|].
  unfold parse_wrapped_prefix_line. cbn zeta. destruct (Nat.ltb _ _); cbn [rbind]; [|discriminate]. destruct (str_from _ _); cbn [rbind]; discriminate.
Qed.
Lemma text_loop_ok ps fuel : forall it, no_fail (ti_stream it) -> (length (plines (sbytes (ti_stream it))) < fuel)%nat ->
  match pnext ps it (ti_prefix it) (plines (sbytes (ti_stream it))) with
  | Ok None => exists it', text_loop ps fuel it = Ok (None, it')
  | Ok (Some (e, p, ls)) => exists s, text_loop ps fuel it = Ok (Some e, with_line it s p) /\ no_fail s /\ plines (sbytes s) = ls /\ (length ls < length (plines (sbytes (ti_stream it))))%nat
  | Err _ => False
  | Panic => text_loop ps fuel it = Panic
  end.
Proof.
  induction fuel as [|f IH]; intros it H F; [lia|]. cbn [text_loop].
  pose proof (read_line_ok _ H) as R. destruct (plines (sbytes (ti_stream it))) as [|l ls] eqn:P; cbn [pnext].
  - destruct R as (s' & ->). eexists. reflexivity.
  - destruct R as (s' & -> & N & L). destruct (utf8_ok l); [|eexists; reflexivity]. rewrite line_step_eq.
    destruct (line_step ps it l) as [[[e|] p]|er|] eqn:E; cbn [rbind].
    + exists s'. split; [reflexivity|]. split; [exact N|]. split; [exact L|]. cbn [length]. lia.
    + cbn [length] in F. specialize (IH (with_line it s' p)). cbn [ti_stream with_line ti_prefix] in IH. rewrite L in IH.
      specialize (IH N ltac:(lia)). rewrite pnext_at in IH.
      destruct (pnext ps it p ls) as [[[[e q] ls']|]| |]; auto. destruct IH as (s & E' & N' & P' & K). exists s. cbn [length]. split; [exact E'|]. repeat split; auto; lia.
    + exact (line_step_noerr _ _ _ _ E).
    + reflexivity.
Qed.
Lemma prows_next ps it ls : forall cur, prows ps it cur ls =
  match pnext ps it cur ls with
  | Ok None => Ok [] | Ok (Some (e, p, ls')) => r <~ prows ps it p ls' ;; Ok (e :: r) | Err e => Err e | Panic => Panic end.
Proof.
  induction ls as [|l ls IH]; intros cur; cbn [prows pnext]; [reflexivity|]. destruct (utf8_ok l); [|reflexivity].
  destruct (line_step ps (at_prefix it cur) l) as [[[e|] p]|er|]; cbn [rbind]; [|rewrite IH| |]; auto.
  destruct (pnext ps it p ls) as [[[[e q] ls']|]| |]; cbn [rbind]; auto. destruct (prows ps it q ls'); reflexivity.
Qed.
Lemma prows_at ps it s p ls : forall cur, prows ps (with_line it s p) cur ls = prows ps it cur ls.
Proof. induction ls as [|l ls IH]; intros cur; cbn [prows]; [reflexivity|]. destruct (utf8_ok l); [|reflexivity]. rewrite line_step_at. destruct (line_step ps (at_prefix it cur) l) as [[o q]| |]; cbn [rbind]; [rewrite IH|..]; reflexivity. Qed.
Lemma collect_rows ps n : forall it fuel, length (plines (sbytes (ti_stream it))) = n -> no_fail (ti_stream it) -> (n < fuel)%nat ->
  collect (text_iter_next ps) fuel it = prows ps it (ti_prefix it) (plines (sbytes (ti_stream it))).
Proof.
  induction n as [n IH] using (well_founded_induction lt_wf). intros it fuel L H F. destruct fuel as [|f]; [lia|]. cbn [collect]. unfold text_iter_next at 1.
  pose proof (text_loop_ok ps (S (length (sbytes (ti_stream it)))) it H ltac:(pose proof (plines_length (sbytes (ti_stream it))); lia)) as T.
  rewrite prows_next. destruct (pnext ps it (ti_prefix it) (plines (sbytes (ti_stream it)))) as [[[[e p] ls]|]|er|].
  - destruct T as (s & -> & N & P & K). cbn [rbind]. rewrite (IH (length ls)) by (cbn [with_line ti_stream]; rewrite ?P; auto; lia).
    cbn [with_line ti_stream ti_prefix]. rewrite P. change (TextIter s (ti_columns it) (ti_peer it) (ti_asn it) (ti_time it) p) with (with_line it s p). rewrite prows_at. reflexivity.
  - destruct T as (it' & ->). reflexivity.
  - destruct T.
  - rewrite T. reflexivity.
Qed.
(** The program as a function of the octets. *)
Definition iter_of (c : columns) (h : text_header) (t : f64) : text_iter :=
  TextIter [] c (match th_router h with Some i => i | None => V4 0 end) (match th_as h with Some a => a | None => 0 end) t [].
Definition parse_bytes (ps : parsers) (t : f64) (b : bytes) : res (list elem) :=
  '(h, ls) <~ pheader ps 64 (TextHeader None None None None) (plines b) ;;
  match th_columns h with None => Err EIo | Some c => prows ps (iter_of c h t) [] ls end.
Theorem parse_text_dump_ok ps t s : no_fail s -> parse_text_dump ps t s = parse_bytes ps t (sbytes s).
Proof.
  intros H. unfold parse_text_dump, text_iter_new, parse_header, parse_bytes. pose proof (header_loop_ok ps 64 (TextHeader None None None None) s H) as R.
  destruct (pheader ps 64 (TextHeader None None None None) (plines (sbytes s))) as [[h ls]|e|]; [|rewrite R; reflexivity|destruct R].
  destruct R as (s' & -> & N & <-). cbn [rbind]. destruct (th_columns h) as [c|]; [|reflexivity]. cbn [rbind].
  rewrite (collect_rows ps (length (plines (sbytes s')))) by (cbn [ti_stream]; auto; pose proof (plines_length (sbytes s')); lia).
  cbn [ti_stream ti_prefix]. change (TextIter s' c (match th_router h with Some i => i | None => V4 0 end) (match th_as h with Some a => a | None => 0 end) t []) with (with_line (iter_of c h t) s' []). apply prows_at.
Qed.

(** * Strings *)
Definition ascii (l : bytes) : bool := forallb (fun b => b <? 128) l.
Definition sp (b : N) : bool := is_space [b].
Lemma sp_iff b : sp b = true <-> 9 <= b <= 13 \/ b = 32.
Proof. unfold sp, is_space. lia. Qed.
Lemma concat_chars s : concat (chars s) = s.
Proof.
  induction s as [|b s IH]; cbn [chars]; [reflexivity|]. destruct (chars s) as [|c cs]; [cbn in *; subst; reflexivity|].
  destruct (match c with x :: _ => cont x | [] => false end); cbn in *; rewrite IH; reflexivity.
Qed.
Lemma drop_spaces_suffix l : exists z, l = z ++ drop_spaces l.
Proof. induction l as [|c l [z IH]]; cbn; [exists []; reflexivity|]. destruct (is_space c); [exists (c :: z); cbn; congruence|exists []; reflexivity]. Qed.
Lemma trim_end_prefix s : exists z, s = trim_end s ++ z.
Proof.
  unfold trim_end. destruct (drop_spaces_suffix (rev (chars s))) as [z Z]. exists (concat (rev z)).
  rewrite <- concat_app, <- rev_app_distr, <- Z, rev_involutive, concat_chars. reflexivity.
Qed.
Lemma ascii_app a b : ascii (a ++ b) = ascii a && ascii b. Proof. apply forallb_app. Qed.
Lemma chars_ascii s : ascii s = true -> chars s = map (fun b => [b]) s.
Proof.
  induction s as [|b s IH]; intros H; cbn [chars map]; [reflexivity|]. cbn in H. apply andb_true_iff in H as [Hb H]. rewrite (IH H).
  destruct s as [|x s]; cbn [map]; [reflexivity|]. cbn in H. unfold cont, within. replace ((0x80 <=? x) && (x <=? 0xBF)) with false by lia. reflexivity.
Qed.
Fixpoint dropw (l : bytes) : bytes := match l with b :: l' => if sp b then dropw l' else l | [] => [] end.
Lemma drop_spaces_map l : drop_spaces (map (fun b => [b]) l) = map (fun b => [b]) (dropw l).
Proof. induction l as [|b l IH]; cbn [map drop_spaces dropw]; [reflexivity|]. unfold sp. destruct (is_space [b]); [exact IH|reflexivity]. Qed.
Lemma concat_single (l : bytes) : concat (map (fun b => [b]) l) = l.
Proof. induction l; cbn; congruence. Qed.
Lemma trim_start_ascii s : ascii s = true -> trim_start s = dropw s.
Proof. intros H. unfold trim_start. rewrite chars_ascii by exact H. rewrite drop_spaces_map. apply concat_single. Qed.
Lemma trim_end_ascii s : ascii s = true -> trim_end s = rev (dropw (rev s)).
Proof. intros H. unfold trim_end. rewrite chars_ascii by exact H. rewrite <- map_rev, drop_spaces_map, <- map_rev. apply concat_single. Qed.
Lemma ascii_dropw s : ascii s = true -> ascii (dropw s) = true.
Proof. induction s as [|b s IH]; intros H; [exact H|]. cbn [dropw]. destruct (sp b); [|exact H]. apply IH. unfold ascii in *. cbn [forallb] in H. apply andb_true_iff in H. apply H. Qed.
Lemma dropw_spaces z l : forallb sp z = true -> dropw (z ++ l) = dropw l.
Proof. induction z as [|x z IH]; intros H; [reflexivity|]. cbn in *. apply andb_true_iff in H as [-> H]. auto. Qed.
Lemma dropw_all z : forallb sp z = true -> dropw z = [].
Proof. intros H. rewrite <- (app_nil_r z). rewrite dropw_spaces by exact H. reflexivity. Qed.
Lemma forallb_rev {A} (f : A -> bool) l : forallb f (rev l) = forallb f l.
Proof. induction l; cbn; [reflexivity|]. rewrite forallb_app, IHl. cbn. rewrite andb_true_r. apply andb_comm. Qed.
Lemma ascii_rev l : ascii (rev l) = ascii l. Proof. apply forallb_rev. Qed.
Lemma trim_end_tail l x z : ascii (l ++ [x] ++ z) = true -> sp x = false -> forallb sp z = true -> trim_end (l ++ [x] ++ z) = l ++ [x].
Proof.
  intros A X Z. rewrite trim_end_ascii by exact A. rewrite !rev_app_distr, <- app_assoc. rewrite dropw_spaces by (rewrite forallb_rev; exact Z).
  cbn [rev app dropw]. rewrite X. cbn [rev]. rewrite rev_involutive. reflexivity.
Qed.
Lemma trim_end_blank z : ascii z = true -> forallb sp z = true -> trim_end z = [].
Proof. intros A Z. rewrite trim_end_ascii by exact A. rewrite dropw_all by (rewrite forallb_rev; exact Z). reflexivity. Qed.
(** A text without spaces at its ends. *)
Definition solid (t : bytes) : Prop := forallb (fun b => negb (sp b)) t = true /\ ascii t = true.
Lemma solid_app a b : solid (a ++ b) <-> solid a /\ solid b.
Proof. unfold solid. rewrite forallb_app, ascii_app, !andb_true_iff. tauto. Qed.
Lemma gap_sp n : forallb sp (gap n) = true. Proof. induction n; cbn; auto. Qed.
Lemma gap_ascii n : ascii (gap n) = true. Proof. induction n; cbn; auto. Qed.
Lemma gap_length n : length (gap n) = n. Proof. apply repeat_length. Qed.
Lemma split_last {A} (l : list A) : l <> [] -> exists l' x, l = l' ++ [x].
Proof. intros H. destruct (exists_last H) as (l' & x & ->). eauto. Qed.
Lemma trim_field a t b : solid t -> trim (gap a ++ t ++ gap b) = t.
Proof.
  intros [S A]. unfold trim. rewrite trim_start_ascii by (rewrite !ascii_app, !gap_ascii, A; reflexivity).
  rewrite dropw_spaces by apply gap_sp. destruct t as [|x t].
  - cbn [app]. rewrite dropw_all by apply gap_sp. reflexivity.
  - assert (X : sp x = false) by (cbn [forallb] in S; destruct (sp x); [discriminate|reflexivity]). cbn [app dropw]. rewrite X. destruct (split_last (x :: t)) as (l & y & E); [discriminate|].
    change (x :: t ++ gap b) with ((x :: t) ++ gap b). rewrite E, <- app_assoc. apply trim_end_tail.
    + rewrite app_assoc, <- E, ascii_app, gap_ascii, A. reflexivity.
    + rewrite E, forallb_app, andb_true_iff in S; destruct S as [_ S]; cbn [forallb] in S; destruct (sp y); [discriminate|reflexivity].
    + apply gap_sp.
Qed.
Lemma boundary_ascii s i : ascii s = true -> (i <= length s)%nat -> boundary s i = true.
Proof.
  intros A L. unfold boundary. destruct (Nat.eqb_spec i (length s)) as [->|D]; [rewrite orb_true_r; reflexivity|].
  destruct (nth_error s i) as [b|] eqn:E; [|apply nth_error_None in E; lia].
  apply nth_error_In in E. unfold ascii in A. rewrite forallb_forall in A. apply A in E.
  unfold cont, within. replace ((0x80 <=? b) && (b <=? 0xBF)) with false by lia. rewrite !orb_true_r. reflexivity.
Qed.
Lemma str_get_ascii s a b : ascii s = true -> str_get s a b = if Nat.leb a b && Nat.leb b (length s) then Some (firstn (b - a) (skipn a s)) else None.
Proof.
  intros A. unfold str_get. destruct (Nat.leb_spec a b) as [L1|]; [|reflexivity]. destruct (Nat.leb_spec b (length s)) as [L2|]; [|reflexivity].
  rewrite !boundary_ascii by (auto; lia). reflexivity.
Qed.
Lemma str_get_mid u f v a b : ascii (u ++ f ++ v) = true -> length u = a -> (b = a + length f)%nat -> str_get (u ++ f ++ v) a b = Some f.
Proof.
  intros A <- ->. rewrite str_get_ascii by exact A. rewrite !app_length.
  rewrite (proj2 (Nat.leb_le _ _)) by lia. rewrite (proj2 (Nat.leb_le _ _)) by lia. cbn [andb].
  replace (length u + length f - length u)%nat with (length f) by lia.
  rewrite skipn_app, skipn_all, Nat.sub_diag. cbn [app skipn]. rewrite firstn_app, firstn_all, Nat.sub_diag. cbn. rewrite app_nil_r. reflexivity.
Qed.
Lemma str_get_out s a b : (length s < b)%nat -> str_get s a b = None.
Proof. intros L. unfold str_get. rewrite (proj2 (Nat.leb_gt b (length s))) by exact L. rewrite andb_false_r. reflexivity. Qed.
Lemma str_from_mid u f a : ascii (u ++ f) = true -> length u = a -> str_from (u ++ f) a = Some f.
Proof. intros A <-. unfold str_from. rewrite <- (app_nil_r f) at 1. rewrite (str_get_mid u f []); [reflexivity|rewrite app_nil_r; exact A|reflexivity|rewrite app_length; lia]. Qed.

(** * Words *)
Notation singles := (map (fun b : N => [b])).
Lemma split_spaces_some l : split_spaces l <> [].
Proof. destruct l as [|c l]; cbn [split_spaces]; [discriminate|]. destruct (is_space c); [discriminate|]. destruct (split_spaces l); discriminate. Qed.
Lemma split_spaces_word w r : solid w -> split_spaces (singles (w ++ r)) =
  match split_spaces (singles r) with h :: t => (w ++ h) :: t | [] => [w] end.
Proof.
  intros [S _]. induction w as [|x w IH]; cbn [app].
  - pose proof (split_spaces_some (singles r)). destruct (split_spaces (singles r)); [congruence|reflexivity].
  - cbn [forallb] in S. apply andb_true_iff in S as [X S]. cbn [map split_spaces]. change (is_space [x]) with (sp x). destruct (sp x); [discriminate|]. rewrite (IH S).
    destruct (split_spaces (singles r)); reflexivity.
Qed.
Lemma split_gap a r : split_spaces (singles (gap a ++ r)) = repeat [] a ++ split_spaces (singles r).
Proof. induction a as [|a IH]; [reflexivity|]. cbn [gap repeat app map split_spaces]. cbn [is_space]. unfold gap in IH. rewrite IH. reflexivity. Qed.
Notation nonempty := (fun w : bytes => match w with [] => false | _ => true end).
Lemma filter_repeat a : List.filter nonempty (repeat [] a) = [].
Proof. induction a; auto. Qed.
Lemma words_ascii ws t : words ws t -> Forall solid ws -> ascii t = true.
Proof.
  induction 1 as [a|a w ws t H IH D]; intros F; [apply gap_ascii|]. pose proof (Forall_inv F) as W. apply Forall_inv_tail in F.
  rewrite !ascii_app, gap_ascii, (proj2 W), IH by exact F. reflexivity.
Qed.
Lemma split_space t : split_spaces (singles (32 :: t)) = [] :: split_spaces (singles t).
Proof. reflexivity. Qed.
Lemma words_split ws t : words ws t -> Forall solid ws -> Forall (fun w => w <> []) ws -> split_whitespace t = ws.
Proof.
  intros H F G. unfold split_whitespace. rewrite chars_ascii by (eapply words_ascii; eauto).
  induction H as [a|a w ws t H IH D].
  - rewrite <- (app_nil_r (gap a)), split_gap, filter_app, filter_repeat. reflexivity.
  - pose proof (Forall_inv F) as W. apply Forall_inv_tail in F. pose proof (Forall_inv G) as Wn. apply Forall_inv_tail in G. specialize (IH F G).
    rewrite split_gap, filter_app, filter_repeat. cbn [app]. rewrite (split_spaces_word w t W).
    assert (K : (exists t', t = 32 :: t') \/ (ws = [] /\ t = [])).
    { destruct D as [->|D]; [|left; exact D]. inversion H; subst. destruct a0; [right; auto|left; eexists; reflexivity]. }
    destruct K as [(t' & ->)|[-> ->]].
    + rewrite split_space in *. rewrite app_nil_r. cbn [List.filter] in *. rewrite IH. destruct w; [congruence|reflexivity].
    + cbn [map split_spaces List.filter]. rewrite app_nil_r. destruct w; [congruence|reflexivity].
Qed.
Lemma words_trim ws t : words ws t -> ws <> [] -> Forall solid ws -> Forall (fun w => w <> []) ws ->
  exists t' x z, t = t' ++ [x] ++ gap z /\ sp x = false /\ words ws (t' ++ [x]).
Proof.
  induction 1 as [a|a w ws t H IH D]; intros N F G; [congruence|].
  pose proof (Forall_inv F) as W. apply Forall_inv_tail in F. pose proof (Forall_inv G) as Wn. apply Forall_inv_tail in G.
  destruct ws as [|w' ws].
  - inversion H; subst. destruct (split_last w Wn) as (l & x & ->). exists (gap a ++ l), x, a0.
    split; [rewrite <- !app_assoc; reflexivity|]. split; [destruct W as [W _]; rewrite forallb_app, andb_true_iff in W; destruct W as [_ W]; cbn [forallb] in W; destruct (sp x); [discriminate|reflexivity]|].
    rewrite <- app_assoc. replace (gap a ++ l ++ [x]) with (gap a ++ (l ++ [x]) ++ gap 0) by (cbn [gap repeat]; rewrite app_nil_r; reflexivity). apply words_cons; [apply (words_nil 0)|left; reflexivity].
  - destruct (IH ltac:(discriminate) F G) as (t' & x & z & -> & X & H').
    exists (gap a ++ w ++ t'), x, z. split; [rewrite <- !app_assoc; reflexivity|]. split; [exact X|].
    rewrite <- !app_assoc. apply words_cons; [exact H'|]. right. destruct D as [D|(t1 & D)]; [discriminate|].
    destruct t' as [|y t']; cbn [app] in D; injection D as D1 D2; [subst x; discriminate X|subst y; cbn [app]; eauto].
Qed.
