(** Proofs about the command line tool: what is printed. *)
From Coq Require Import Lia String Floats.SpecFloat.
From Coq Require Import ZifyBool ZifyNat ZifyN.
From Verif Require Import Base RisLiveSpec F64Facts BaseFacts Net NetSpec AsPath Community Attr Elem Text Filter FilterSpec FilterFacts TextDump TextDumpSpec TextDumpFacts Stream Framing FramingFacts TableDump MrtRecord Iter IterSpec IterFacts Psv PsvSpec FilterKeysFacts TextDumpFacts
  Recovery RecoverySpec RecoveryFacts RecoveryFilter Cli CliSpec CliFacts.
Local Open Scope string_scope. Local Open Scope list_scope. Local Open Scope N_scope.

(** * A run that writes as a script *)
Fixpoint play (script : list (bytes + note)) (tail : result) (ws : list wout) : result :=
  match script with
  | [] => tail
  | inl b :: l => write_output b ws (play l tail)
  | inr n :: l => warn n (play l tail ws)
  end.
Fixpoint writes (l : list (bytes + note)) : list bytes := match l with [] => [] | inl b :: l' => b :: writes l' | inr _ :: l' => writes l' end.
Fixpoint notes (l : list (bytes + note)) : list note := match l with [] => [] | inl _ :: l' => notes l' | inr n :: l' => n :: notes l' end.
Lemma play_good l tail ws : x_out tail = [] -> good ws -> play l tail ws = Result (writes l) (notes l ++ x_err tail) (x_end tail).
Proof.
  intros T. revert ws. induction l as [|[b|n] l IH]; intros ws G; cbn [play writes notes app].
  - destruct tail as [o e x]. cbn in *. subst. reflexivity.
  - unfold write_output. destruct G as [|w ws <- G]; rewrite IH by (auto; constructor); reflexivity.
  - rewrite IH by exact G. reflexivity.
Qed.
Lemma play_cut l tail : forall ws k w, x_out tail = [] -> (k < length (writes l))%nat -> fails_at ws k w ->
  exists ns, x_out (play l tail ws) = firstn k (writes l) /\ (exists rest, notes l = ns ++ rest) /\
    (w = WPipe -> x_err (play l tail ws) = ns /\ x_end (play l tail ws) = Exit 0) /\
    (w = WFail -> x_err (play l tail ws) = ns ++ [NProblem WriteFailed] /\ x_end (play l tail ws) = Exit 1).
Proof.
  induction l as [|[b|n] l IH]; intros ws k w T L (W & F & Z); cbn [play writes notes length] in *; [lia| |].
  - destruct k as [|k].
    + destruct ws as [|u ws]; [cbn in F; congruence|]. cbn in F. subst u. exists []. destruct w; [congruence| |]; cbn; repeat split; try discriminate; try (exists (notes l); reflexivity).
    + assert (E : exists ws', write_output b ws (play l tail) = say b (play l tail ws') /\ forall j, nth j ws' WOk = nth (S j) ws WOk).
      { specialize (Z 0%nat ltac:(lia)). destruct ws as [|u ws]; [exists []; split; [reflexivity|intros j; destruct j; reflexivity]|]. cbn in Z. subst u. exists ws. split; reflexivity. }
      destruct E as (ws' & -> & N). destruct (IH ws' k w T ltac:(lia)) as (ns & A & B & C & D).
      { split; [exact W|]. split; [rewrite N; exact F|]. intros j J. rewrite N. apply Z. lia. }
      exists ns. cbn [say x_out x_err x_end firstn]. rewrite A. repeat split; auto; [apply C; auto|apply C; auto|apply D; auto|apply D; auto].
  - destruct (IH ws k w T L (conj W (conj F Z))) as (ns & A & (rest & B) & C & D). exists (n :: ns). cbn [warn x_out x_err x_end]. split; [exact A|].
    split; [exists rest; cbn; congruence|]. split; intros E; [destruct (C E) as [-> ->]|destruct (D E) as [-> ->]]; auto.
Qed.

(** * Elements *)
Fixpoint elem_script (P : printers) (f : format) (evs : list (event elem + rerror)) (index : N) : list (bytes + note) :=
  match evs with
  | [] | inr _ :: _ => []
  | inl (Gap g) :: l => inr (NGap g) :: elem_script P f l index
  | inl (Item e) :: l => inl (match format_elem P f index e with Some t => t | None => [] end) :: elem_script P f l (index + 1)
  end.
Definition closing {A} (rep : bool) (evs : list (event A + rerror)) (gp sk : N) : result :=
  print_summary rep (gp + nlen (gaps evs)) (sk + skipped_bytes (gaps evs)) (finish (failure evs)).
Lemma closing_out {A} rep (evs : list (event A + rerror)) gp sk : x_out (closing rep evs gp sk) = [].
Proof. unfold closing, print_summary, finish. destruct rep, (failure evs); reflexivity. Qed.
Lemma closing_gap {A} rep g (evs : list (event A + rerror)) gp sk : closing rep evs (gp + 1) (sk + (g_end g - g_start g)) = closing rep (inl (Gap g) :: evs) gp sk.
Proof.
  unfold closing. cbn [gaps failure]. change (skipped_bytes (g :: gaps evs)) with ((g_end g - g_start g) + skipped_bytes (gaps evs)).
  replace (nlen (g :: gaps evs)) with (1 + nlen (gaps evs)) by (unfold nlen; cbn [length]; lia). rewrite !N.add_assoc. reflexivity.
Qed.
Lemma run_elems_play P f rep evs : f <> FmtText -> forall n index gp sk ws,
  run_elems P f false rep evs n index gp sk ws = play (elem_script P f evs index) (closing rep evs gp sk) ws.
Proof.
  intros T. induction evs as [|[[e|g]|x] evs IH]; intros n index gp sk ws; cbn [run_elems elem_script play]; cbv zeta.
  - unfold closing. cbn. rewrite !N.add_0_r. reflexivity.
  - assert (E : exists t, format_elem P f index e = Some t) by (destruct f; try congruence; eexists; reflexivity). destruct E as [t E]. rewrite E.
    unfold write_output. destruct ws as [|[| |] ws]; try reflexivity; f_equal; apply IH.
  - f_equal. rewrite IH. f_equal. apply closing_gap.
  - unfold closing. cbn. rewrite !N.add_0_r. reflexivity.
Qed.
Lemma run_elems_count P f rep evs : forall n index gp sk ws, good ws ->
  run_elems P f true rep evs n index gp sk ws = Result [str "total elems: " ++ dec (n + nlen (items evs))] (map NGap (gaps evs) ++ x_err (closing rep evs gp sk)) (x_end (closing rep evs gp sk)).
Proof.
  assert (Z : forall b ws tail, good ws -> x_out tail = [] -> println b ws (fun _ => tail) = Result [b] (x_err tail) (x_end tail)).
  { intros b ws tail G T. unfold println. destruct tail as [o e x]; cbn in T; subst o. destruct G as [|w ws <- G]; reflexivity. }
  induction evs as [|[[e|g]|x] evs IH]; intros n index gp sk ws G; cbn [run_elems]; cbv zeta.
  - rewrite Z by (auto; destruct rep; reflexivity). unfold closing. cbn. rewrite !N.add_0_r. reflexivity.
  - rewrite IH by exact G. cbn [items gaps map]. f_equal. unfold nlen. cbn [length]. do 3 f_equal. lia.
  - rewrite IH by exact G. rewrite closing_gap. reflexivity.
  - rewrite Z by (auto; destruct rep; reflexivity). unfold closing. cbn. rewrite !N.add_0_r. reflexivity.
Qed.
Lemma script_notes P f evs index : notes (elem_script P f evs index) = map NGap (gaps evs).
Proof. revert index. induction evs as [|[[e|g]|x] evs IH]; intros index; cbn; auto. f_equal. apply IH. Qed.
Lemma script_lines P f evs index : f <> FmtText -> index <> 0 ->
  writes (elem_script P f evs index) = match f with FmtPsv => map (to_psv (pt_shows P)) (items evs) | _ => elem_lines P f (items evs) end.
Proof.
  intros T. revert index. induction evs as [|[[e|g]|x] evs IH]; intros index Z; cbn [elem_script writes items].
  - destruct f; reflexivity.
  - rewrite IH by lia. destruct f; try reflexivity; [|congruence]. cbn [format_elem map]. rewrite (proj2 (N.eqb_neq _ _) Z). reflexivity.
  - apply IH, Z.
  - destruct f; reflexivity.
Qed.
Lemma text_app a b : text_of (a ++ b) = text_of a ++ text_of b. Proof. apply flat_map_app. Qed.
Lemma script_text P f evs : f <> FmtText -> text_of (writes (elem_script P f evs 0)) = text_of (elem_lines P f (items evs)).
Proof.
  intros T. induction evs as [|[[e|g]|x] evs IH]; cbn [elem_script writes items].
  - destruct f; reflexivity.
  - rewrite script_lines by (auto; lia). destruct f; try congruence; reflexivity.
  - exact IH.
  - destruct f; reflexivity.
Qed.
Lemma script_length P f evs index : length (writes (elem_script P f evs index)) = length (items evs).
Proof. revert index. induction evs as [|[[e|g]|x] evs IH]; intros index; cbn; auto. Qed.

(** * Records *)
Fixpoint record_script (P : printers) (f : format) (evs : list (event mrt_record + rerror)) : list (bytes + note) :=
  match evs with
  | [] | inr _ :: _ => []
  | inl (Gap g) :: l => inr (NGap g) :: record_script P f l
  | inl (Item r) :: l => inl (pt_record P f r None) :: record_script P f l
  end.
Lemma run_records_play P f rep evs : forall el n m gp sk ws,
  run_records P f false false rep evs el n m gp sk ws = play (record_script P f evs) (closing rep evs gp sk) ws.
Proof.
  induction evs as [|[[r|g]|x] evs IH]; intros el n m gp sk ws; cbn [run_records record_script play]; cbv zeta.
  - unfold closing. cbn. rewrite !N.add_0_r. reflexivity.
  - unfold write_output. destruct ws as [|[| |] ws]; try reflexivity; f_equal; apply IH.
  - f_equal. rewrite IH. f_equal. apply closing_gap.
  - unfold closing. cbn. rewrite !N.add_0_r. reflexivity.
Qed.
Lemma record_notes P f evs : notes (record_script P f evs) = map NGap (gaps evs).
Proof. induction evs as [|[[e|g]|x] evs IH]; cbn; auto. f_equal. apply IH. Qed.
Lemma record_writes P f evs : writes (record_script P f evs) = map (fun r => pt_record P f r None) (items evs).
Proof. induction evs as [|[[e|g]|x] evs IH]; cbn; auto. f_equal. apply IH. Qed.
Definition totals (ce cr : bool) (recs els : N) : list bytes :=
  match ce, cr with
  | true, true => [str "total records: " ++ dec recs; str "total elems:   " ++ dec els]
  | false, true => [str "total records: " ++ dec recs]
  | true, false => [str "total elems: " ++ dec els]
  | false, false => []
  end.
Lemma run_records_count P f ce cr rep evs : ce || cr = true -> forall (el : option peer_table) n m gp sk ws, good ws ->
  run_records P f ce cr rep evs el n m gp sk ws =
  Result (totals ce cr (n + nlen (items evs)) (m + nlen (flat_map elems_of (annotate el (items evs)))))
    (map NGap (gaps evs) ++ x_err (closing rep evs gp sk)) (x_end (closing rep evs gp sk)).
Proof.
  intros C.
  assert (Z : forall b ws k, good ws -> exists ws', good ws' /\ println b ws k = say b (k ws')).
  { intros b ws k G. unfold println. destruct G as [|w ws <- G]; [exists []; split; [constructor|reflexivity]|exists ws; auto]. }
  assert (E : forall n m rest ws, x_out rest = [] -> good ws ->
    match ce, cr with
    | true, true => println (str "total records: " ++ dec n) ws (fun ws => println (str "total elems:   " ++ dec m) ws (fun _ => rest))
    | false, true => println (str "total records: " ++ dec n) ws (fun _ => rest)
    | true, false => println (str "total elems: " ++ dec m) ws (fun _ => rest)
    | false, false => rest
    end = Result (totals ce cr n m) (x_err rest) (x_end rest)).
  { intros n m rest ws T G. destruct rest as [o e x]; cbn in T; subst o. destruct ce, cr; cbn [orb] in C; try discriminate.
    - destruct (Z (str "total records: " ++ dec n) ws (fun ws => println (str "total elems:   " ++ dec m) ws (fun _ => Result [] e x)) G) as (ws1 & G1 & ->).
      destruct (Z (str "total elems:   " ++ dec m) ws1 (fun _ => Result [] e x) G1) as (ws2 & _ & ->). reflexivity.
    - destruct (Z (str "total elems: " ++ dec m) ws (fun _ => Result [] e x) G) as (ws2 & _ & ->). reflexivity.
    - destruct (Z (str "total records: " ++ dec n) ws (fun _ => Result [] e x) G) as (ws2 & _ & ->). reflexivity. }
  induction evs as [|[[r|g]|x] evs IH]; intros el n m gp sk ws G; cbn [run_records]; cbv zeta.
  - rewrite E by (auto; destruct rep; reflexivity). unfold closing. cbn. rewrite !N.add_0_r. reflexivity.
  - assert (L : forall k, n + 1 + k = n + N.succ k) by (intros; lia). cbn [items gaps annotate flat_map].
    replace (nlen (r :: items evs)) with (N.succ (nlen (items evs))) by (unfold nlen; cbn [length]; lia). rewrite <- L.
    destruct ce.
    + rewrite elems_rec. rewrite IH by exact G. unfold nlen. rewrite app_length, Nat2N.inj_add, N.add_assoc. reflexivity.
    + cbn [orb] in C. rewrite C in *. rewrite IH by exact G. reflexivity.
  - rewrite IH by exact G. rewrite closing_gap. reflexivity.
  - rewrite E by (auto; destruct rep; reflexivity). unfold closing. cbn. rewrite !N.add_0_r. reflexivity.
Qed.

(** * Raw records *)
Definition hex_script (P : printers) (f : format) (l : list (raw * mrt_record)) : list (bytes + note) :=
  map (fun x => inl (pt_record P f (snd x) (Some (hex_encode (raw_bytes (fst x)))))) l.
Lemma run_hex_play P f l : forall ws, run_hex P f l ws = play (hex_script P f l) (Result [] [] (Exit 0)) ws.
Proof.
  induction l as [|[w r] l IH]; intros ws; cbn [run_hex hex_script map play]; [reflexivity|]. unfold write_output. destruct ws as [|[| |] ws]; try reflexivity; f_equal; apply IH.
Qed.
Lemma hex_writes P f l : writes (hex_script P f l) = map (fun x => pt_record P f (snd x) (Some (hex_encode (raw_bytes (fst x))))) l /\ notes (hex_script P f l) = [].
Proof. induction l as [|[w r] l [IH1 IH2]]; cbn; [auto|]. split; [f_equal; exact IH1|exact IH2]. Qed.
Lemma low_char n : n < 16 -> hex_char (low_digit n) n.
Proof.
  intros H. unfold low_digit. destruct (N.ltb_spec n 10) as [L|L]; [constructor; exact L|].
  replace (87 + n) with (97 + (n - 10)) by lia. replace n with (10 + (n - 10)) at 2 by lia. constructor. lia.
Qed.
Lemma hex_encoded b : bytes_ok b -> hex_text (hex_encode b) b.
Proof.
  induction 1 as [|x b H B IH]; cbn [hex_encode flat_map app]; [constructor|].
  pose proof (N.div_mod' x 16) as D. replace (x :: b) with (x / 16 * 16 + x mod 16 :: b) by (f_equal; lia). constructor; [apply low_char|apply low_char|exact IH].
  - apply N.div_lt_upper_bound; lia.
  - apply N.mod_lt. lia.
Qed.
Lemma chunks_ok s l : chunks s l -> bytes_ok (sbytes s) -> forall core, Forall (fun w => bytes_ok (raw_bytes w)) (usable core l).
Proof.
  induction 1 as [s h c s' E|s r s' l E H IH|s e h c s' l E N H IH]; intros B core; cbn [usable]; [constructor| |].
  - pose proof (chunk_bytes s) as C. rewrite E in C. destruct C as [C _]. rewrite C in B. apply Forall_app in B as [B1 B2]. constructor; [exact B1|apply IH, B2].
  - destruct (stops core e); [constructor|]. apply IH. pose proof (chunk_bytes s) as C. rewrite E in C. destruct c as [c|]; [|destruct C; contradiction]. destruct C as [C _]. rewrite C in B. apply Forall_app in B as [B1 B2]. exact B2.
Qed.

(** * What is kept *)
Definition grows (fs : list filter) (x : step (list filter)) (U : Prop) : Prop := forall fs', x = Go fs' -> exists g, fs' = fs ++ g /\ (g = [] <-> U).
Lemma grows_bind fs x k U V : grows fs x U -> (forall fs', grows fs' (k fs') V) -> grows fs (sbind x k) (U /\ V).
Proof.
  intros A B fs' E. destruct x as [fs1|p|]; try discriminate E. cbn [sbind] in E. destruct (A fs1 eq_refl) as (g & -> & G). destruct (B _ _ E) as (h & -> & H).
  exists (g ++ h). split; [rewrite app_assoc; reflexivity|]. rewrite <- G, <- H. split; [apply app_eq_nil|intros [-> ->]; reflexivity].
Qed.
Lemma grows_add ps k v fs (U : Prop) : ~ U -> grows fs (add_filter ps k v fs) U.
Proof. intros N fs'. unfold add_filter. destruct (filter_new ps (str k) v) as [f|]; [|discriminate]. intros E. injection E as <-. exists [f]. split; [reflexivity|]. split; [discriminate|intros u; destruct (N u)]. Qed.
Lemma grows_none fs (U : Prop) : U -> grows fs (Go fs) U.
Proof. intros u fs' E. injection E as <-. exists []. split; [rewrite app_nil_r; reflexivity|]. split; auto. Qed.
Lemma grows_if {T} ps k (text : T -> bytes) v fs : grows fs (add_if ps k text v fs) (v = None).
Proof. destruct v as [a|]; cbn [add_if]; [apply grows_add; discriminate|apply grows_none; reflexivity]. Qed.
Lemma grows_exprs ps l : forall fs, grows fs (add_exprs ps l fs) (l = []).
Proof.
  induction l as [|x l IH]; intros fs; cbn [add_exprs]; [apply grows_none; reflexivity|]. intros fs' E. destruct (parse_filter_expression x) as [[k v]|]; [|discriminate E]. destruct (filter_new ps k v) as [f|]; [|discriminate E].
  destruct (IH _ _ E) as (g & -> & _). exists (f :: g). split; [rewrite <- app_assoc; reflexivity|]. split; discriminate.
Qed.
Lemma build_none P ps o fs : build_filters P ps o = Go fs -> (fs = [] <-> unrestricted o).
Proof.
  intros E. assert (G : grows [] (build_filters P ps o) (unrestricted o)); [|destruct (G _ E) as (g & -> & H); exact H].
  unfold build_filters, unrestricted. repeat (apply grows_bind; [first [apply grows_if | apply grows_exprs | idtac]|intros ?]).
  - destruct (o_peers o); [apply grows_none; reflexivity|apply grows_add; discriminate].
  - destruct (o_v4 o), (o_v6 o); [intros ? ?; discriminate|apply grows_add; intros []; discriminate|apply grows_add; intros []; discriminate|apply grows_none; auto].
Qed.
Lemma picks_filter {A} (W : A -> Prop) f l : (forall a, f a = true <-> W a) -> picks W l (List.filter f l).
Proof.
  intros H. induction l as [|a l IH]; cbn [List.filter]; [constructor|]. destruct (f a) eqn:E; constructor; auto; [apply H, E|]. intros w. apply H in w. congruence.
Qed.
Lemma passes_wanted show P ps o fs : build_filters P ps o = Go fs -> (forall e, match_filters show (VElem e) fs = true <-> wanted show ps o e) ->
  forall x, passes show fs x = true <-> wanted_record show ps o x.
Proof.
  intros B M x. pose proof (build_none _ _ _ _ B) as U. unfold passes, wanted_record. destruct fs as [|f fs].
  - split; [intros _; left; apply U; reflexivity|auto].
  - assert (Z : ~ unrestricted o) by (intros H; apply U in H; discriminate). rewrite orb_true_iff, existsb_exists. split.
    + intros [H|(e & I & H)]; [auto|]. right. right. exists e. split; [exact I|]. apply M, H.
    + intros [H|[H|(e & I & H)]]; [contradiction|auto|]. right. exists e. split; [exact I|]. apply M, H.
Qed.
Definition seg_recs (l : list seg) : list mrt_record := flat_map (fun s => match s with SRec _ x => [x] | SGap _ _ => [] end) l.
Definition seg_gaps (l : list seg) : list gap := flat_map (fun s => match s with SRec _ _ => [] | SGap _ g => [g] end) l.
Lemma items_app {A} (a : list (event A)) (b : list (event A + rerror)) : items (map inl a ++ b) = items (map inl a) ++ items b.
Proof. induction a as [|[x|g] a IH]; cbn; [reflexivity| |exact IH]. f_equal. exact IH. Qed.
Lemma gaps_app {A} (a : list (event A)) (b : list (event A + rerror)) : gaps (map inl a ++ b) = gaps (map inl a) ++ gaps b.
Proof. induction a as [|[x|g] a IH]; cbn; [reflexivity|exact IH|]. f_equal. exact IH. Qed.
Lemma failure_app {A} (a : list (event A)) (b : list (event A + rerror)) : failure (map inl a ++ b) = failure b.
Proof. induction a as [|[x|g] a IH]; cbn; [reflexivity|exact IH|exact IH]. Qed.
Lemma out_none {A} out : @items A (map inr out) = [] /\ @gaps A (map inr out) = [] /\ @failure A (map inr out) = hd_error out.
Proof. destruct out; auto. Qed.
Lemma items_inl {A} (l : list A) : items (map (fun a => inl (Item a)) l) = l. Proof. induction l; cbn; congruence. Qed.
Lemma gaps_inl {A} (l : list A) : gaps (map (fun a => inl (Item a)) l) = []. Proof. induction l; cbn; congruence. Qed.
Lemma failure_inl {A} (l : list A) : failure (map (fun a => inl (Item a)) l) = None. Proof. induction l; cbn; congruence. Qed.
Lemma shown_items show fs l : forall t, items (map inl (shown show fs t l)) = map snd (List.filter (passes show fs) (annotate t (seg_recs l))).
Proof.
  induction l as [|[r x|b g] l IH]; intros t; cbn [shown seg_recs flat_map app map items annotate List.filter]; [reflexivity| |apply IH].
  rewrite map_app, items_app. fold (seg_recs l). rewrite IH. destruct (passes show fs (t, x)); reflexivity.
Qed.
Lemma shown_gaps show fs l : forall t, gaps (map inl (shown show fs t l)) = seg_gaps l.
Proof.
  induction l as [|[r x|b g] l IH]; intros t; cbn [shown seg_gaps flat_map app map gaps]; [reflexivity| |f_equal; apply IH].
  rewrite map_app, gaps_app. fold (seg_gaps l). rewrite IH. destruct (passes show fs (t, x)); reflexivity.
Qed.
Lemma items_item {A} (l : list A) : items (map inl (map Item l)) = l /\ gaps (map inl (map Item l)) = [].
Proof. induction l as [|a l [I G]]; cbn; [auto|]. split; [f_equal; exact I|exact G]. Qed.
Lemma shown_elem_items show fs l : forall t, items (map inl (shown_elems show fs t l)) = List.filter (fun e => match_filters show (VElem e) fs) (flat_map elems_of (annotate t (seg_recs l))).
Proof.
  induction l as [|[r x|b g] l IH]; intros t; cbn [shown_elems seg_recs flat_map app map items annotate List.filter]; [reflexivity| |apply IH].
  rewrite map_app, items_app. fold (seg_recs l). rewrite IH, filter_app_. f_equal. apply items_item.
Qed.
Lemma shown_elem_gaps show fs l : forall t, gaps (map inl (shown_elems show fs t l)) = seg_gaps l.
Proof.
  induction l as [|[r x|b g] l IH]; intros t; cbn [shown_elems seg_gaps flat_map app map gaps]; [reflexivity| |f_equal; apply IH].
  rewrite map_app, gaps_app. fold (seg_gaps l). rewrite IH. rewrite (proj2 (items_item _)). reflexivity.
Qed.

(** * Runs *)
Lemma ready show P ps o : texts_read P ps -> opts_ok o -> accepted show ps o ->
  exists fs, build_filters P ps o = Go fs /\ forall e, match_filters show (VElem e) fs = true <-> wanted show ps o e.
Proof. intros T K A. destruct (build_ok show P ps o T K) as [B _]. destruct (B A) as (g & E & H). exists g. auto. Qed.
Lemma not_text f : f <> FmtText -> is_text f = false. Proof. destruct f; [reflexivity..|congruence]. Qed.
Lemma refused_run show P ps o src fuel ws : texts_read P ps -> opts_ok o -> ~ accepted show ps o -> refused (main show P ps o src fuel ws).
Proof.
  intros T K N. destruct (build_ok show P ps o T K) as [_ B]. unfold main. destruct src as [[s text]|].
  - destruct (build_filters P ps o) as [fs|p|]; [destruct N; apply (B fs eq_refl)| |]; (split; [reflexivity|]); [right; split; [reflexivity|exists p; reflexivity]|left; reflexivity].
  - split; [reflexivity|]. right. split; [reflexivity|]. exists BadOpen. reflexivity.
Qed.
Lemma closing_plain {A} (l : list A) : closing false (map (fun a => inl (Item a)) l) 0 0 = Result [] [] (Exit 0).
Proof. unfold closing, print_summary, finish. rewrite failure_inl. reflexivity. Qed.
Definition elem_outcome (P : printers) (o : opts) (rep : bool) (evs : list (event elem + rerror)) (r : result) : Prop :=
  printed r = text_of (if o_elems o then [str "total elems: " ++ dec (nlen (items evs))] else elem_lines P (chosen_format o) (items evs)) /\
  x_err r = map NGap (gaps evs) ++ x_err (closing rep evs 0 0) /\ x_end r = x_end (closing rep evs 0 0).
Lemma elems_outcome P o rep evs ws : chosen_format o <> FmtText -> good ws -> elem_outcome P o rep evs (run_elems P (chosen_format o) (o_elems o) rep evs 0 0 0 0 ws).
Proof.
  intros T G. unfold elem_outcome, printed. destruct (o_elems o).
  - rewrite run_elems_count by exact G. cbn [x_out x_err x_end]. rewrite N.add_0_l. auto.
  - rewrite run_elems_play by exact T. rewrite play_good by (auto using closing_out). cbn [x_out x_err x_end]. rewrite script_text by exact T. rewrite script_notes. auto.
Qed.
Lemma main_elems show P ps o s text fs : build_filters P ps o = Go fs -> elem_run o -> forall fuel ws,
  main show P ps o (Some (s, text)) fuel ws =
  let p := Parser s fs false text None in let f := chosen_format o in
  if o_recover o then match recovered_elems show fuel p default_config with Ok l => run_elems P f (o_elems o) true l 0 0 0 0 ws | _ => Result [] [] Panicked end
  else match elem_list show fuel p with Ok l => run_elems P f (o_elems o) false (map (fun e => inl (Item e)) l) 0 0 0 0 ws | _ => Result [] [] Panicked end.
Proof.
  intros B (T & R & C) fuel ws. unfold main. rewrite B. cbv zeta. rewrite (not_text _ T), R. destruct C as [C|[H L]].
  - rewrite C. cbn [orb andb negb]. rewrite andb_false_r. reflexivity.
  - rewrite H, L. cbn [andb]. destruct (o_elems o); reflexivity.
Qed.
Lemma elements_run show P ps o s text ws : texts_read P ps -> opts_ok o -> accepted show ps o -> elem_run o -> o_recover o = false -> good ws ->
  exists n all kept, picks (wanted show ps o) all kept /\ forall fuel, (n <= fuel)%nat -> elem_list show fuel (plain s text) = Ok all /\
  let r := main show P ps o (Some (s, text)) fuel ws in
  printed r = text_of (if o_elems o then [str "total elems: " ++ dec (nlen kept)] else elem_lines P (chosen_format o) kept) /\ x_err r = [] /\ x_end r = Exit 0.
Proof.
  intros T K A R C G. destruct (ready show P ps o T K A) as (fs & B & M). destruct (filtered_elems show (Parser s fs false text None)) as (n & l & F).
  exists n, l, (List.filter (fun e => match_filters show (VElem e) fs) l). split; [apply picks_filter, M|]. intros fuel L. destruct (F fuel L) as [F1 F2]. split; [exact F1|].
  cbv zeta. rewrite (main_elems show P ps o s text fs B R). cbv zeta. rewrite C, F2. cbn [pr_filters].
  set (k := List.filter _ l). destruct (elems_outcome P o false (map (fun e => inl (Item e)) k) ws (proj1 R) G) as (O1 & O2 & O3). rewrite closing_plain, gaps_inl, items_inl in *. auto.
Qed.
Lemma main_records show P ps o s text fs : build_filters P ps o = Go fs -> record_run o \/ count_run o -> forall fuel ws,
  main show P ps o (Some (s, text)) fuel ws =
  let p := Parser s fs false text None in let f := chosen_format o in
  if o_recover o then match recovered show p default_config with Ok l => run_records P f (o_elems o) (o_records o) true l None 0 0 0 0 ws | _ => Result [] [] Panicked end
  else match record_list show p with Ok l => run_records P f (o_elems o) (o_records o) false (map (fun e => inl (Item e)) l) None 0 0 0 0 ws | _ => Result [] [] Panicked end.
Proof.
  intros B C fuel ws. unfold main. rewrite B. cbv zeta. destruct C as [(E & R & H & C)|[R|[E C]]].
  - rewrite E, R, H. cbn [orb andb negb]. replace (match o_level o with LevelElems => true | LevelRecords => false end && negb (is_text (chosen_format o)))%bool with false; [reflexivity|].
    destruct C as [-> | ->]; [destruct (o_level o); reflexivity|reflexivity].
  - rewrite R, orb_true_r. cbn [negb]. rewrite !andb_false_r. cbn [andb orb]. reflexivity.
  - rewrite E, C. cbn [orb negb is_text]. rewrite !andb_false_r. reflexivity.
Qed.
Definition record_outcome (P : printers) (o : opts) (rep : bool) (evs : list (event mrt_record + rerror)) (lines : list bytes) (r : result) : Prop :=
  printed r = text_of lines /\ x_err r = map NGap (gaps evs) ++ x_err (closing rep evs 0 0) /\ x_end r = x_end (closing rep evs 0 0).
Lemma records_outcome P o rep evs ws : record_run o -> good ws ->
  record_outcome P o rep evs (map (fun r => pt_record P (chosen_format o) r None) (items evs)) (run_records P (chosen_format o) (o_elems o) (o_records o) rep evs None 0 0 0 0 ws).
Proof.
  intros (E & R & _) G. unfold record_outcome, printed. rewrite E, R, run_records_play. rewrite play_good by (auto using closing_out). cbn [x_out x_err x_end]. rewrite record_writes, record_notes. auto.
Qed.
Lemma counts_outcome P o rep evs ws : count_run o -> good ws ->
  record_outcome P o rep evs (total_lines o (nlen (items evs)) (nlen (flat_map elems_of (annotate None (items evs))))) (run_records P (chosen_format o) (o_elems o) (o_records o) rep evs None 0 0 0 0 ws).
Proof.
  intros C G. unfold record_outcome, printed. rewrite run_records_count; [|destruct C as [-> |[-> _]]; [apply orb_true_r|reflexivity]|exact G]. cbn [x_out x_err x_end]. rewrite !N.add_0_l. split; [|auto].
  f_equal. unfold total_lines, totals. destruct C as [-> |[-> _]]; [destruct (o_elems o); reflexivity|destruct (o_records o); reflexivity].
Qed.
Lemma records_run show P ps o s : texts_read P ps -> opts_ok o -> accepted show ps o -> record_run o \/ count_run o -> o_recover o = false ->
  exists all kept, record_list show (plain s None) = Ok all /\ picks (wanted_record show ps o) (annotate None all) kept /\ annotate None (map snd kept) = kept /\
  forall fuel ws, main show P ps o (Some (s, None)) fuel ws = run_records P (chosen_format o) (o_elems o) (o_records o) false (map (fun e => inl (Item e)) (map snd kept)) None 0 0 0 0 ws.
Proof.
  intros T K A R C. destruct (ready show P ps o T K A) as (fs & B & M). destruct (filtered_records show (Parser s fs false None None) eq_refl) as (l & F1 & F2).
  exists l, (List.filter (passes show fs) (annotate None l)). split; [exact F1|]. split; [apply picks_filter; exact (passes_wanted show P ps o fs B M)|]. split.
  { exact (kept_tables show fs None l). }
  intros fuel ws. rewrite (main_records show P ps o s None fs B R). cbv zeta. rewrite C, F2. reflexivity.
Qed.
Lemma recover_elems_run show P ps o s ws : texts_read P ps -> opts_ok o -> accepted show ps o -> elem_run o -> o_recover o = true -> good ws ->
  exists n all kept, recovered show (plain s None) default_config = Ok all /\ picks (wanted show ps o) (flat_map elems_of (annotate None (items all))) kept /\ forall fuel, (n <= fuel)%nat ->
  let r := main show P ps o (Some (s, None)) fuel ws in
  printed r = text_of (if o_elems o then [str "total elems: " ++ dec (nlen kept)] else elem_lines P (chosen_format o) kept) /\ x_err r = report all /\ x_end r = ending_of all.
Proof.
  intros T K A R C G. destruct (ready show P ps o T K A) as (fs & B & M). destruct (recovered_elems_spec show (Parser s fs false None None) default_config eq_refl) as (segs & out & tail & n & D & E & _).
  set (all := map inl (shown show [] None segs) ++ map inr out) in *. cbn [pr_filters] in E. set (evs := map inl (shown_elems show fs None segs) ++ map inr out) in *.
  assert (I1 : items all = seg_recs segs). { unfold all. rewrite items_app, (proj1 (out_none out)), app_nil_r, shown_items. apply kept_nil. }
  assert (I2 : items evs = List.filter (fun e => match_filters show (VElem e) fs) (flat_map elems_of (annotate None (seg_recs segs)))). { unfold evs. rewrite items_app, (proj1 (out_none out)), app_nil_r. apply shown_elem_items. }
  assert (G1 : gaps all = gaps evs). { unfold all, evs. rewrite !gaps_app, shown_gaps, shown_elem_gaps. do 2 rewrite (proj1 (proj2 (out_none out))). reflexivity. }
  assert (F1 : failure all = failure evs). { unfold all, evs. rewrite !failure_app. do 2 rewrite (proj2 (proj2 (out_none out))). reflexivity. }
  exists n, all, (items evs). split; [exact D|]. split; [rewrite I1, I2; apply picks_filter, M|]. intros fuel L. cbv zeta. rewrite (main_elems show P ps o s None fs B R). cbv zeta. rewrite C, (E fuel L).
  destruct (elems_outcome P o true evs ws (proj1 R) G) as (O1 & O2 & O3). split; [exact O1|]. rewrite O2, O3. unfold report, ending_of, closing. rewrite G1, F1, !N.add_0_l. unfold print_summary, finish. destruct (failure evs); auto.
Qed.
Lemma recover_records_run show P ps o s : texts_read P ps -> opts_ok o -> accepted show ps o -> record_run o \/ count_run o -> o_recover o = true ->
  exists all kept evs, recovered show (plain s None) default_config = Ok all /\ picks (wanted_record show ps o) (annotate None (items all)) kept /\ annotate None (map snd kept) = kept /\
  items evs = map snd kept /\ report evs = report all /\ ending_of evs = ending_of all /\
  forall fuel ws, main show P ps o (Some (s, None)) fuel ws = run_records P (chosen_format o) (o_elems o) (o_records o) true evs None 0 0 0 0 ws.
Proof.
  intros T K A R C. destruct (ready show P ps o T K A) as (fs & B & M). destruct (recovered_filtered show (Parser s fs false None None) default_config eq_refl) as (segs & out & tail & D & E & _).
  set (all := map inl (shown show [] None segs) ++ map inr out) in *. cbn [pr_filters] in E. set (evs := map inl (shown show fs None segs) ++ map inr out) in *.
  assert (I1 : items all = seg_recs segs). { unfold all. rewrite items_app, (proj1 (out_none out)), app_nil_r, shown_items. apply kept_nil. }
  assert (I2 : items evs = map snd (List.filter (passes show fs) (annotate None (seg_recs segs)))). { unfold evs. rewrite items_app, (proj1 (out_none out)), app_nil_r. apply shown_items. }
  assert (G1 : gaps all = gaps evs). { unfold all, evs. rewrite !gaps_app, !shown_gaps. reflexivity. }
  assert (F1 : failure all = failure evs). { unfold all, evs. rewrite !failure_app. reflexivity. }
  exists all, (List.filter (passes show fs) (annotate None (seg_recs segs))), evs. split; [exact D|]. split; [rewrite I1; apply picks_filter; exact (passes_wanted show P ps o fs B M)|].
  split; [exact (kept_tables show fs None (seg_recs segs))|]. split; [exact I2|]. unfold report, ending_of. rewrite G1, F1. split; [reflexivity|]. split; [reflexivity|].
  intros fuel ws. rewrite (main_records show P ps o s None fs B R). cbv zeta. rewrite C, E. reflexivity.
Qed.
Lemma closing_report {A} (evs : list (event A + rerror)) : map NGap (gaps evs) ++ x_err (closing true evs 0 0) = report evs /\ x_end (closing true evs 0 0) = ending_of evs.
Proof. unfold closing, report, ending_of, print_summary, finish. rewrite !N.add_0_l. destruct (failure evs); auto. Qed.
Lemma Forall_sub {A} (Q : A -> Prop) a b : subseq a b -> Forall Q b -> Forall Q a.
Proof. induction 1 as [|x a b S IH|x a b S IH]; intros F; [constructor| |]; inversion F; subst; [auto|constructor; auto]. Qed.
Lemma hex_bytes show p l : pr_text p = None -> bytes_ok (sbytes (pr_stream p)) -> fraw_list show p = Ok l -> Forall (fun x => bytes_ok (raw_bytes (fst x))) l.
Proof.
  intros T B E. destruct (filtered_raw show p) as (l' & E' & _ & _ & ws & W & S). rewrite E in E'. injection E' as <-. destruct (chunks_total (pr_stream p)) as (cs & C).
  rewrite (raw_list_ok p cs T C) in W. injection W as <-. pose proof (Forall_sub _ _ _ S (chunks_ok _ _ C B _)) as F. exact (proj1 (Forall_map fst (fun w => bytes_ok (raw_bytes w)) l) F).
Qed.
Lemma main_hex show P ps o s text fs : build_filters P ps o = Go fs -> hex_run o -> forall fuel ws,
  main show P ps o (Some (s, text)) fuel ws = match fraw_list show (Parser s fs false text None) with Ok l => run_hex P (chosen_format o) l ws | _ => Result [] [] Panicked end.
Proof.
  intros B (H & E & R & C & F) fuel ws. unfold main. rewrite B. cbv zeta. rewrite H, E, R, C. cbn [orb andb negb]. destruct F as [<-|[<-|[<-|[]]]]; reflexivity.
Qed.
Lemma raw_unfiltered s fs text : raw_list (Parser s fs false text None) = raw_list (plain s text).
Proof.
  destruct text as [l|].
  - destruct (text_lists (fun _ => []) (Parser s fs false (Some l) None) l eq_refl) as (_ & _ & -> & _). destruct (text_lists (fun _ => []) (plain s (Some l)) l eq_refl) as (_ & _ & -> & _). reflexivity.
  - destruct (chunks_total s) as (cs & C). rewrite (raw_list_ok (Parser s fs false None None) cs eq_refl C), (raw_list_ok (plain s None) cs eq_refl C). reflexivity.
Qed.
Lemma hex_runs show P ps o s : texts_read P ps -> opts_ok o -> accepted show ps o -> hex_run o -> bytes_ok (sbytes s) ->
  exists all kept l ws0, record_list show (plain s None) = Ok all /\ picks (wanted_record show ps o) (annotate None all) kept /\ map snd l = map snd kept /\
  Forall (fun x => parse_raw (fst x) = Ok (snd x)) l /\ raw_list (plain s None) = Ok ws0 /\ subseq (map fst l) ws0 /\
  Forall (fun x => hex_text (hex_encode (raw_bytes (fst x))) (raw_bytes (fst x))) l /\
  forall fuel ws, main show P ps o (Some (s, None)) fuel ws = run_hex P (chosen_format o) l ws.
Proof.
  intros T K A R BO. destruct (ready show P ps o T K A) as (fs & B & M). destruct (filtered_records show (Parser s fs false None None) eq_refl) as (all & F1 & F2).
  destruct (filtered_raw show (Parser s fs false None None)) as (l & E1 & E2 & E3 & ws0 & E4 & E5). rewrite F2 in E2. injection E2 as E2. cbn [pr_filters] in E2.
  exists all, (List.filter (passes show fs) (annotate None all)), l, ws0. split; [exact F1|]. split; [apply picks_filter; exact (passes_wanted show P ps o fs B M)|]. split; [symmetry; exact E2|].
  split; [exact E3|]. split; [rewrite <- (raw_unfiltered s fs None); exact E4|]. split; [exact E5|]. split.
  - eapply Forall_impl; [|apply (hex_bytes show (Parser s fs false None None) l eq_refl BO E1)]. intros x H. apply hex_encoded, H.
  - intros fuel ws. rewrite (main_hex show P ps o s None fs B R), E1. reflexivity.
Qed.

(** * Where the output goes *)
Lemma play_same l tail : forall ws, (forall j, (j < length (writes l))%nat -> nth j ws WOk = WOk) -> play l tail ws = play l tail [].
Proof.
  induction l as [|[b|n] l IH]; intros ws H; cbn [play writes length] in *; [reflexivity| |f_equal; apply IH, H].
  assert (E : exists ws', write_output b ws (play l tail) = say b (play l tail ws') /\ forall j, nth j ws' WOk = nth (S j) ws WOk).
  { specialize (H 0%nat ltac:(lia)). destruct ws as [|u ws]; [exists []; split; [reflexivity|intros j; destruct j; reflexivity]|]. cbn in H. subst u. exists ws. split; reflexivity. }
  destruct E as (ws' & -> & N). cbn [write_output]. f_equal. apply IH. intros j J. rewrite N. apply H. lia.
Qed.
Definition tells_gaps (l : list (bytes + note)) : Prop := exists gs, notes l = map NGap gs.
Lemma main_play show P ps o src fuel : o_elems o = false -> o_records o = false ->
  exists l tail, x_out tail = [] /\ tells_gaps l /\ forall ws, main show P ps o src fuel ws = play l tail ws.
Proof.
  intros E R. assert (Z : forall r, x_out r = [] -> (forall ws, main show P ps o src fuel ws = r) -> exists l tail, x_out tail = [] /\ tells_gaps l /\ forall ws, main show P ps o src fuel ws = play l tail ws).
  { intros r X H. exists [], r. split; [exact X|]. split; [exists []; reflexivity|exact H]. }
  unfold main in *. destruct src as [[s text]|]; [|apply (Z (quit BadOpen)); reflexivity]. destruct (build_filters P ps o) as [fs|p|]; [|apply (Z (quit p)); reflexivity|apply (Z (Result [] [] Panicked)); reflexivity].
  cbv zeta in *. rewrite E, R in *. cbn [orb andb negb] in *.
  destruct (o_hex o && true && _)%bool eqn:H1; [apply (Z (quit HexFormat)); reflexivity|]. destruct (o_hex o && true && o_recover o)%bool eqn:H2; [apply (Z (quit HexRecover)); reflexivity|].
  destruct (o_hex o && true)%bool eqn:H3.
  { destruct (fraw_list show _) as [l|e|]; [|apply (Z (Result [] [] Panicked)); reflexivity..]. exists (hex_script P (chosen_format o) l), (Result [] [] (Exit 0)). split; [reflexivity|]. split; [exists []; apply hex_writes|]. apply run_hex_play. }
  destruct (match o_level o with LevelElems => true | LevelRecords => false end && negb (is_text (chosen_format o)))%bool eqn:H4.
  - assert (T : chosen_format o <> FmtText) by (intros T; rewrite T, andb_false_r in H4; discriminate). destruct (o_recover o).
    + destruct (recovered_elems show fuel _ _) as [l|e|]; [|apply (Z (Result [] [] Panicked)); reflexivity..].
      exists (elem_script P (chosen_format o) l 0), (closing true l 0 0). split; [apply closing_out|]. split; [eexists; apply script_notes|]. intros ws. apply run_elems_play, T.
    + destruct (elem_list show fuel _) as [l|e|]; [|apply (Z (Result [] [] Panicked)); reflexivity..].
      exists (elem_script P (chosen_format o) (map (fun e => inl (Item e)) l) 0), (closing false (map (fun e => inl (Item e)) l) 0 0). split; [apply closing_out|]. split; [eexists; apply script_notes|]. intros ws. apply run_elems_play, T.
  - destruct (o_recover o).
    + destruct (recovered show _ _) as [l|e|]; [|apply (Z (Result [] [] Panicked)); reflexivity..].
      exists (record_script P (chosen_format o) l), (closing true l 0 0). split; [apply closing_out|]. split; [eexists; apply record_notes|]. intros ws. apply run_records_play.
    + destruct (record_list show _) as [l|e|]; [|apply (Z (Result [] [] Panicked)); reflexivity..].
      exists (record_script P (chosen_format o) (map (fun r => inl (Item r)) l)), (closing false (map (fun r => inl (Item r)) l) 0 0). split; [apply closing_out|]. split; [eexists; apply record_notes|]. intros ws. apply run_records_play.
Qed.
Lemma good_out l tail : x_out tail = [] -> x_out (play l tail []) = writes l.
Proof. intros X. rewrite play_good by (auto; constructor). reflexivity. Qed.
Lemma sink_fails show P ps o src fuel ws k w : o_elems o = false -> o_records o = false -> fails_at ws k w ->
  let full := main show P ps o src fuel [] in let r := main show P ps o src fuel ws in
  (k < length (x_out full))%nat -> x_out r = firstn k (x_out full) /\ exists gs,
  (w = WPipe -> x_err r = map NGap gs /\ x_end r = Exit 0) /\ (w = WFail -> x_err r = map NGap gs ++ [NProblem WriteFailed] /\ x_end r = Exit 1).
Proof.
  intros E R F full r L. unfold full, r in *. destruct (main_play show P ps o src fuel E R) as (l & tail & X & (gs & G) & M). rewrite !M in *. rewrite (good_out l tail X) in *.
  destruct (play_cut l tail ws k w X L F) as (ns & O & (rest & N) & C & D). split; [exact O|]. rewrite G in N.
  assert (exists hs, ns = map NGap hs) as (hs & ->). { clear -N. revert gs rest N. induction ns as [|n ns IH]; intros gs rest N; [exists []; reflexivity|]. destruct gs as [|g gs]; [discriminate N|]. injection N as <- N. destruct (IH _ _ N) as (hs & ->). exists (g :: hs). reflexivity. }
  exists hs. auto.
Qed.
Lemma sink_ok show P ps o src fuel ws : o_elems o = false -> o_records o = false ->
  let full := main show P ps o src fuel [] in (forall j, (j < length (x_out full))%nat -> nth j ws WOk = WOk) -> main show P ps o src fuel ws = full.
Proof.
  intros E R full H. unfold full in *. destruct (main_play show P ps o src fuel E R) as (l & tail & X & _ & M). rewrite !M in *. rewrite (good_out l tail X) in H. apply play_same, H.
Qed.

(** * Times *)
Lemma whole_i64 n : n < 2 ^ 53 -> f64_to_i64 (f64_of_N n) = Z.of_N n.
Proof.
  intros H. destruct n as [|p]; [reflexivity|]. assert (S : (Pos.size p <= 53)%positive) by (eapply size_bound; [reflexivity|exact H]). rewrite (f64_pos p S).
  pose proof (norm53_val p S) as V. unfold f64_to_i64. set (m := norm53 p) in *.
  assert (E : match (Z.pos (Pos.size p) - 53)%Z with Z.neg k => (Z.pos m / 2 ^ Z.pos k)%Z | _ => (Z.pos m * 2 ^ (Z.pos (Pos.size p) - 53))%Z end = Z.pos p).
  { destruct (Z.pos (Pos.size p) - 53)%Z as [|k|k] eqn:D; [|lia|].
    - rewrite V. replace (53 - Z.pos (Pos.size p))%Z with 0%Z by lia. cbn. lia.
    - rewrite V. replace (53 - Z.pos (Pos.size p))%Z with (Z.pos k) by lia. apply Z.div_mul. pose proof (Z.pow_pos_nonneg 2 (Z.pos k)). lia. }
  transitivity (clamp_i64 (Z.pos p)); [f_equal; exact E|]. unfold clamp_i64. assert (Z.pos p < 2 ^ 53)%Z by lia. lia.
Qed.
Lemma whole_part_unique s m e z : whole_part s m e z ->
  z = (let a := match e with Z.neg k => Z.pos m / 2 ^ Z.pos k | _ => Z.pos m * 2 ^ e end in if s then - a else a)%Z.
Proof.
  unfold whole_part. intros [B S]. set (a := match e with Z.neg k => (Z.pos m / 2 ^ Z.pos k)%Z | _ => (Z.pos m * 2 ^ e)%Z end).
  assert (A : Z.abs z = a).
  { unfold a. destruct e as [|k|k]; cbn [Z.opp] in B.
    - change (Z.max 0 0) with 0%Z in B. change (0 + 0)%Z with 0%Z in B. change (2 ^ 0)%Z with 1%Z in *. lia.
    - change (Z.max 0 (Z.neg k)) with 0%Z in B. rewrite Z.add_0_r in B. change (2 ^ 0)%Z with 1%Z in B. lia.
    - change (Z.max 0 (Z.pos k)) with (Z.pos k) in B. replace (Z.neg k + Z.pos k)%Z with 0%Z in B by lia. change (2 ^ 0)%Z with 1%Z in B.
      assert (P : (0 < 2 ^ Z.pos k)%Z) by (apply Z.pow_pos_nonneg; lia). rewrite Z.mul_1_r in B.
      apply (Z.div_unique (Z.pos m) (2 ^ Z.pos k) (Z.abs z) (Z.pos m - Z.abs z * 2 ^ Z.pos k)); nia. }
  cbv zeta. fold a. destruct s; lia.
Qed.
Lemma whole_part_is s m e : whole_part s m e (let a := match e with Z.neg k => Z.pos m / 2 ^ Z.pos k | _ => Z.pos m * 2 ^ e end in if s then - a else a)%Z.
Proof.
  unfold whole_part. cbv zeta. set (a := match e with Z.neg k => (Z.pos m / 2 ^ Z.pos k)%Z | _ => (Z.pos m * 2 ^ e)%Z end).
  assert (A : (0 <= a)%Z).
  { unfold a. destruct e; [cbn; lia| |apply Z.div_pos; [lia|apply Z.pow_pos_nonneg; lia]]. apply Z.mul_nonneg_nonneg; [lia|apply Z.pow_nonneg; lia]. }
  assert (AA : Z.abs (if s then - a else a) = a) by (destruct s; lia). rewrite AA. split; [|destruct s; lia].
  unfold a. destruct e as [|k|k]; cbn [Z.opp].
  - change (Z.max 0 0) with 0%Z. change (0 + 0)%Z with 0%Z. change (2 ^ 0)%Z with 1%Z. lia.
  - change (Z.max 0 (Z.neg k)) with 0%Z. rewrite Z.add_0_r. change (2 ^ 0)%Z with 1%Z. lia.
  - change (Z.max 0 (Z.pos k)) with (Z.pos k). replace (Z.neg k + Z.pos k)%Z with 0%Z by lia. change (2 ^ 0)%Z with 1%Z. rewrite Z.mul_1_r.
    assert (P : (0 < 2 ^ Z.pos k)%Z) by (apply Z.pow_pos_nonneg; lia).
    pose proof (Z.div_mod (Z.pos m) (2 ^ Z.pos k) ltac:(lia)). pose proof (Z.mod_pos_bound (Z.pos m) (2 ^ Z.pos k) P). nia.
Qed.
Lemma finite_instant s m e x : instant (S754_finite s m e) x <->
  exists z, whole_part s m e z /\ (-8334601228800 <= z <= 8210266876799)%Z /\ x = f64_of_Z z.
Proof.
  unfold instant, f64_to_i64. pose proof (whole_part_is s m e) as W. pose proof (whole_part_unique s m e) as U. cbv zeta in W, U.
  set (v := if s then (- _)%Z else _) in *. change (let a := _ in clamp_i64 _) with (clamp_i64 v).
  assert (C : clamp_i64 v = v \/ (from_timestamp (clamp_i64 v) = None /\ ~ (-8334601228800 <= v <= 8210266876799)%Z)).
  { clear. unfold clamp_i64, from_timestamp. destruct (Z_lt_le_dec v (- 2 ^ 63)) as [L|L]; [|destruct (Z_le_gt_dec v (2 ^ 63 - 1)) as [M|M]].
    - right. rewrite Z.max_l by lia. split; [reflexivity|lia].
    - left. lia.
    - right. rewrite Z.min_l by lia. split; [reflexivity|lia]. }
  split.
  - intros (z & E & ->). destruct C as [C|[C _]]; [|rewrite C in E; discriminate]. rewrite C in E. unfold from_timestamp in E.
    destruct ((-8334601228800 <=? v) && (v <=? 8210266876799))%Z eqn:R; [|discriminate]. injection E as <-. exists v. split; [exact W|]. split; [lia|reflexivity].
  - intros (z & P & R & ->). rewrite <- (U z P) in C. destruct C as [C|[_ C]]; [|contradiction]. exists z. split; [|reflexivity].
    assert (V : v = z) by (symmetry; exact (U z P)). rewrite V, C. unfold from_timestamp. destruct ((-8334601228800 <=? z) && (z <=? 8210266876799))%Z eqn:Q; [reflexivity|lia].
Qed.
Lemma whole_instant n x : n < 2 ^ 32 -> (instant (f64_of_N n) x <-> x = f64_of_N n).
Proof.
  intros H. unfold instant. rewrite whole_i64 by lia. unfold from_timestamp. destruct ((-8334601228800 <=? Z.of_N n) && (Z.of_N n <=? 8210266876799))%Z eqn:C; [|lia]. split.
  - intros (z & E & ->). injection E as <-. reflexivity.
  - intros ->. exists (Z.of_N n). auto.
Qed.
