(** Proofs about text dumps from any source, and about detection. *)
From Coq Require Import String Lia Floats.SpecFloat.
From Verif Require Import Tac Base BaseFacts Net AsPath Attr Elem Text Filter FilterFacts Utf8 TableDumpSpec TableDumpFacts Stream Framing FramingFacts MrtRecord Iter IterSpec IterFacts TextDump TextDumpSpec TextDumpFacts TextRowsFacts TextRouteFacts.

(** * No panics on ASCII *)
Lemma ascii_cut a b : ascii (a ++ b) = true -> ascii a = true /\ ascii b = true.
Proof. unfold ascii. rewrite forallb_app, andb_true_iff. auto. Qed.
Lemma ascii_trim_end l : ascii l = true -> ascii (trim_end l) = true.
Proof. destruct (trim_end_prefix l) as [z Z]. intros A. rewrite Z in A. apply ascii_cut in A. tauto. Qed.
Lemma line_step_np ps it l : ascii l = true -> line_step ps it l <> Panic.
Proof.
  intros A. unfold line_step. cbn zeta. destruct (trim_end l) as [|x r] eqn:E; [discriminate|].
  assert (T : ascii (x :: r) = true) by (rewrite <- E; apply ascii_trim_end; exact A).
  destruct (match parse_route_line _ _ _ with Some _ => _ | None => _ end); [discriminate|].
  unfold parse_wrapped_prefix_line. cbn zeta. destruct (Nat.ltb _ _) eqn:L; cbn [rbind]; [|discriminate].
  apply Nat.ltb_lt in L. unfold str_from, str_get. rewrite !boundary_ascii by (auto; lia). rewrite Nat.leb_refl, (proj2 (Nat.leb_le _ _)) by lia. cbn [rbind andb]. discriminate.
Qed.
Lemma text_loop_np ps fuel : forall it, ascii (sbytes (ti_stream it)) = true -> (length (sbytes (ti_stream it)) < fuel)%nat ->
  match text_loop ps fuel it with
  | Ok (Some _, it') => ascii (sbytes (ti_stream it')) = true /\ (length (sbytes (ti_stream it')) < length (sbytes (ti_stream it)))%nat
  | Panic => False
  | _ => True
  end.
Proof.
  induction fuel as [|f IH]; intros it A F; [lia|]. cbn [text_loop]. pose proof (read_line_any (ti_stream it)) as R.
  destruct (read_line (ti_stream it)) as [s|l s|s]; [exact I| |exact I]. destruct R as [E NE].
  rewrite E in A. apply ascii_cut in A as [Al As]. pose proof (line_step_np ps it l Al) as P.
  assert (K : (length (sbytes s) < length (sbytes (ti_stream it)))%nat) by (rewrite E, app_length; destruct l; [contradiction|cbn [length]; lia]).
  destruct (line_step ps it l) as [[[e|] p]|er|]; cbn [rbind]; [| |exact I|contradiction].
  - cbn [ti_stream with_line]. auto.
  - specialize (IH (with_line it s p)). cbn [ti_stream with_line] in IH. specialize (IH As ltac:(lia)).
    unfold with_line at 1. destruct (text_loop ps f _) as [[[e|] it']| |]; auto. destruct IH. split; [assumption|lia].
Qed.
Lemma text_collect_np ps n : forall it fuel, length (sbytes (ti_stream it)) = n -> ascii (sbytes (ti_stream it)) = true -> (n < fuel)%nat ->
  collect (text_iter_next ps) fuel it <> Panic.
Proof.
  induction n as [n IH] using (well_founded_induction lt_wf). intros it fuel L A F. destruct fuel as [|f]; [lia|]. cbn [collect]. unfold text_iter_next at 1.
  pose proof (text_loop_np ps (S (length (sbytes (ti_stream it)))) it A ltac:(lia)) as T.
  destruct (text_loop ps _ it) as [[[e|] it']|er|]; cbn [rbind]; [|discriminate|discriminate|contradiction].
  destruct T as [A' L']. specialize (IH (length (sbytes (ti_stream it'))) ltac:(lia) it' f eq_refl A' ltac:(lia)).
  destruct (collect (text_iter_next ps) f it'); cbn [rbind]; [discriminate|discriminate|contradiction].
Qed.
Lemma header_loop_any ps n : forall h s, match header_loop ps n h s with
  | Ok (_, s') => exists z, sbytes s = z ++ sbytes s'
  | Err _ => True
  | Panic => False end.
Proof.
  induction n as [|n IH]; intros h s; cbn [header_loop]; [exists []; reflexivity|]. pose proof (read_until_any s) as U. pose proof (read_line_any s) as R.
  unfold read_line in *. destruct (read_until s) as [[st l] s'] eqn:E. destruct (U _ _ _ eq_refl) as (z & B & Z).
  assert (Q : exists y, sbytes s = y ++ sbytes s') by (exists (l ++ z); rewrite B, <- app_assoc; reflexivity).
  destruct st; [| |exact I]; (destruct l as [|x l]; [exact Q|]); (destruct (utf8_ok (x :: l)); [|exact I]);
    (destruct (parse_column_header _); [exact Q|]); match goal with |- context [header_loop ps n ?h' s'] => specialize (IH h' s'); destruct (header_loop ps n h' s') as [[h2 s2]| |]; auto end;
    destruct IH as [z2 B2]; destruct Q as [y Q]; exists (y ++ z2); rewrite Q, B2, <- app_assoc; reflexivity.
Qed.
Lemma text_np ps t s : Forall (fun b => b < 128) (sbytes s) -> parse_text_dump ps t s <> Panic.
Proof.
  intros A. assert (A' : ascii (sbytes s) = true) by (unfold ascii; apply forallb_forall; rewrite Forall_forall in A; intros x X; apply A in X; lia).
  unfold parse_text_dump, text_iter_new, parse_header. pose proof (header_loop_any ps 64 (TextHeader None None None None) s) as H.
  destruct (header_loop ps 64 _ s) as [[h s']|e|]; cbn [rbind]; [|discriminate|contradiction]. destruct H as [z Z]. rewrite Z in A'. apply ascii_cut in A' as [_ A'].
  destruct (th_columns h); cbn [rbind]; [|discriminate]. cbn [ti_stream]. eapply text_collect_np; [reflexivity|exact A'|cbn [ti_stream]; lia].
Qed.

(** * What elements look like *)
Lemma occurs_refl p : occurs p p. Proof. exists [], []. rewrite app_nil_r. reflexivity. Qed.
Lemma occurs_trans a b c : occurs a b -> occurs b c -> occurs a c.
Proof. intros (u & v & ->) (x & y & ->). exists (x ++ u), (v ++ y). rewrite <- !app_assoc. reflexivity. Qed.
Lemma occurs_trim_end l : occurs (trim_end l) l.
Proof. destruct (trim_end_prefix l) as [z Z]. exists [], z. exact Z. Qed.
Lemma occurs_trim_both l : occurs (trim l) l.
Proof.
  unfold trim. eapply occurs_trans; [apply occurs_trim_end|]. unfold trim_start. destruct (drop_spaces_suffix (chars l)) as [z Z]. exists (concat z), [].
  rewrite app_nil_r. transitivity (concat (z ++ drop_spaces (chars l))); [|apply concat_app]. transitivity (concat (chars l)); [symmetry; apply concat_chars|]. f_equal. exact Z.
Qed.
Lemma str_get_occurs s a b t : str_get s a b = Some t -> occurs t s.
Proof.
  unfold str_get. destruct (_ && _); [|discriminate]. injection 1 as <-. exists (firstn a s), (skipn (b - a) (skipn a s)).
  rewrite firstn_skipn, firstn_skipn. reflexivity.
Qed.
Lemma str_from_occurs s a t : str_from s a = Some t -> occurs t s.
Proof. apply str_get_occurs. Qed.
Lemma token_asns_ok l : Forall (fun a => a < 2 ^ 32) (token_asns l).
Proof.
  unfold token_asns. induction l as [|t l IH]; cbn [flat_map]; [constructor|]. apply Forall_app. split; [|exact IH].
  destruct (_ || _); [constructor|]. destruct (parse_u32 t) as [n|] eqn:E; [|constructor]. repeat constructor. eapply parse_u32_bound. exact E.
Qed.
Lemma path_asns_map l : path_asns (map HAs l) = l.
Proof. unfold path_asns. induction l; cbn [map flat_map app]; congruence. Qed.
Lemma last_rev (l : list N) : match rev l with a :: _ => Some [a] | [] => None end = match l with [] => None | a :: l' => Some [last (a :: l') 0] end.
Proof.
  destruct (list_eq_dec N.eq_dec l []) as [->|D]; [reflexivity|]. destruct (exists_last D) as (l' & x & ->). rewrite rev_app_distr. cbn [rev app].
  pose proof (last_last l' x 0) as K. destruct (l' ++ [x]) eqn:Q; [destruct l'; discriminate|]. rewrite K. reflexivity.
Qed.
Lemma route_line_shape ps line c en : parse_route_line ps line c = Some en ->
  (exists i, ps_ip ps (en_hop en) = Some i) /\ occurs (en_hop en) line /\ (en_prefix en = [] \/ occurs (en_prefix en) line)
  /\ forall v, en_metric en = Some v \/ en_pref en = Some v -> v < 2 ^ 32.
Proof.
  unfold parse_route_line. cbn zeta. destruct (_ || _); [discriminate|].
  destruct (str_get (trim_end line) (c_hop c) (c_metric c)) as [h|] eqn:H; [|discriminate]. destruct (ps_ip ps (trim h)) as [i|] eqn:I; [|discriminate].
  intros E. injection E as <-. cbn [en_hop en_prefix en_metric en_pref].
  assert (O : forall a b t, str_get (trim_end line) a b = Some t -> occurs (trim t) line).
  { intros a b t G. eapply occurs_trans; [apply occurs_trim_both|]. eapply occurs_trans; [apply (str_get_occurs _ _ _ _ G)|apply occurs_trim_end]. }
  split; [exists i; exact I|]. split; [eapply O; exact H|]. split.
  - destruct (str_get (trim_end line) 3 (c_hop c)) as [t|] eqn:T; [right; eapply O; exact T|left; reflexivity].
  - unfold parse_u32_column. clear H. intros v [V|V]; (destruct (str_get _ _ _) as [t|]; [|discriminate]); eapply parse_u32_bound; exact V.
Qed.
Lemma line_step_shape ps text it l o p : occurs l text -> (ti_prefix it = [] \/ occurs (ti_prefix it) text) -> line_step ps it l = Ok (o, p) ->
  (p = [] \/ occurs p text) /\ match o with Some e => from_text ps text (ti_peer it) (ti_asn it) (ti_time it) e | None => True end.
Proof.
  intros L P. unfold line_step. cbn zeta. destruct (trim_end l) as [|x r] eqn:E; [intros H; injection H as <- <-; auto|].
  assert (Lt : occurs (x :: r) text) by (rewrite <- E; eapply occurs_trans; [apply occurs_trim_end|exact L]).
  match goal with |- context [match ?m with Some _ => _ | None => _ end] => destruct m as [en|] eqn:M end.
  - assert (R : exists c, parse_route_line ps (x :: r) c = Some en).
    { destruct (parse_route_line ps (x :: r) (ti_columns it)) eqn:M1; [injection M as <-; eexists; exact M1|]. destruct (shift_left _); [eexists; exact M|discriminate]. }
    destruct R as [c R]. destruct (route_line_shape _ _ _ _ R) as ([i Hi] & Oh & Op & B).
    set (cur' := match en_prefix en with [] => ti_prefix it | p => p end).
    assert (Oc : cur' = [] \/ occurs cur' text).
    { unfold cur'. destruct (en_prefix en) as [|y q] eqn:Y; [exact P|]. right. destruct Op as [Op|Op]; [discriminate|]. eapply occurs_trans; eassumption. }
    intros H. injection H as <- <-. split; [exact Oc|]. destruct cur' as [|y q] eqn:C; [exact I|]. unfold entry_to_elem.
    destruct (ps_net ps (y :: q)) as [n|] eqn:N; [|exact I].
    exists n, (Route None i (en_metric en) (en_pref en) (map HAs (token_asns (en_tokens en))) (en_origin en)). cbn zeta. unfold announced. cbn [r_hop r_path r_origin r_pref r_metric].
    rewrite path_asns_map, Hi. split; [f_equal; apply last_rev|]. split.
    + apply Forall_map. cbn [hop_ok]. apply token_asns_ok.
    + split; [exists (y :: q); split; [destruct Oc as [Oc|Oc]; [discriminate|exact Oc]|exact N]|].
      split; [exists (en_hop en); split; [eapply occurs_trans; eassumption|exact Hi]|exact B].
  - unfold parse_wrapped_prefix_line. cbn zeta.
    assert (G : forall b : bool, match (if b then match (if Nat.ltb (c_hop (ti_columns it)) (length (x :: r)) then str_get (x :: r) 3 (c_hop (ti_columns it)) else str_from (x :: r) 3) with
        | None => None | Some t => match ps_net ps (trim t) with Some _ => Some (trim t) | None => None end end else None) with Some q => occurs q text | None => True end).
    { intros [|]; [|exact I]. assert (Q : forall t, (if Nat.ltb (c_hop (ti_columns it)) (length (x :: r)) then str_get (x :: r) 3 (c_hop (ti_columns it)) else str_from (x :: r) 3) = Some t -> occurs t (x :: r)).
      { intros t. destruct (Nat.ltb _ _); [apply str_get_occurs|apply str_from_occurs]. }
      destruct (if Nat.ltb _ _ then _ else _) as [t|]; [|exact I]. destruct (ps_net ps (trim t)); [|exact I].
      eapply occurs_trans; [apply occurs_trim_both|]. eapply occurs_trans; [apply Q; reflexivity|exact Lt]. }
    match goal with |- rbind (rbind ?X _) _ = _ -> _ => destruct X as [b| |]; cbn [rbind]; try discriminate end.
    specialize (G b). intros H. injection H as <- <-. split; [|exact I]. destruct (if b then _ else None); [right; exact G|exact P].
Qed.
Lemma text_loop_shape ps text fuel : forall it o it', (exists z, text = z ++ sbytes (ti_stream it)) -> (ti_prefix it = [] \/ occurs (ti_prefix it) text) ->
  text_loop ps fuel it = Ok (o, it') ->
  match o with
  | Some e => from_text ps text (ti_peer it) (ti_asn it) (ti_time it) e /\ (exists z, text = z ++ sbytes (ti_stream it')) /\ (ti_prefix it' = [] \/ occurs (ti_prefix it') text)
              /\ ti_peer it' = ti_peer it /\ ti_asn it' = ti_asn it /\ ti_time it' = ti_time it
  | None => True end.
Proof.
  induction fuel as [|f IH]; intros it o it' [z Z] P; [discriminate|]. cbn [text_loop]. pose proof (read_line_any (ti_stream it)) as R.
  destruct (read_line (ti_stream it)) as [s|l s|s]; [intros H; injection H as <- <-; exact I| |intros H; injection H as <- <-; exact I]. destruct R as [E NE].
  assert (L : occurs l text) by (exists z, (sbytes s); rewrite Z, E; reflexivity).
  assert (Z' : exists z, text = z ++ sbytes s) by (exists (z ++ l); rewrite Z, E, <- app_assoc; reflexivity).
  destruct (line_step ps it l) as [[[e|] p]|er|] eqn:S; cbn [rbind]; try discriminate; destruct (line_step_shape ps text it l _ _ L P S) as [P' Q].
  - intros H. injection H as <- <-. cbn [with_line ti_stream ti_prefix ti_peer ti_asn ti_time]. auto 8.
  - intros H. specialize (IH (with_line it s p) o it' Z' P' H). exact IH.
Qed.
Lemma collect_shape ps text fuel : forall it l, (exists z, text = z ++ sbytes (ti_stream it)) -> (ti_prefix it = [] \/ occurs (ti_prefix it) text) ->
  collect (text_iter_next ps) fuel it = Ok l -> Forall (from_text ps text (ti_peer it) (ti_asn it) (ti_time it)) l.
Proof.
  induction fuel as [|f IH]; intros it l Z P; [discriminate|]. cbn [collect]. unfold text_iter_next at 1.
  destruct (text_loop ps _ it) as [[[e|] it']| |] eqn:T; cbn [rbind]; try discriminate; [|intros H; injection H as <-; constructor].
  destruct (text_loop_shape ps text _ it _ _ Z P T) as (F & Z' & P' & E1 & E2 & E3).
  destruct (collect (text_iter_next ps) f it') as [r| |] eqn:C; cbn [rbind]; try discriminate. intros H. injection H as <-. constructor; [exact F|].
  rewrite <- E1, <- E2, <- E3. apply IH; assumption.
Qed.
Lemma text_shape ps t s l : parse_text_dump ps t s = Ok l -> exists pi pa, Forall (from_text ps (sbytes s) pi pa t) l.
Proof.
  unfold parse_text_dump, text_iter_new, parse_header. pose proof (header_loop_any ps 64 (TextHeader None None None None) s) as H.
  destruct (header_loop ps 64 _ s) as [[h s']|e|]; cbn [rbind]; try discriminate. destruct (th_columns h) as [c|]; cbn [rbind]; [|discriminate]. cbn [ti_stream].
  intros C. eexists _, _. eapply (collect_shape ps (sbytes s)) in C; [exact C|exact H|left; reflexivity].
Qed.

(** * Detection *)
Lemma looks_iff head : looks_like_text head = true <-> textual head.
Proof.
  unfold looks_like_text, textual. destruct head as [|b r]; [split; [discriminate|intros [(b & r & E & _) _]; discriminate]|].
  unfold ascii_graphic. rewrite !andb_true_iff, !orb_true_iff, !N.leb_le, !has_text_iff, utf8_ok_iff. split.
  - intros [[B U] T]. split; [exists b, r; auto|]. split; [exact U|]. tauto.
  - intros [(b' & r' & E & B) [U T]]. injection E as <- <-. tauto.
Qed.
Lemma first_read_iff s head : first_read s head -> exists rest, read_once 256 s = Some (head, rest) /\ sbytes s = head ++ sbytes rest /\ (no_fail s -> no_fail rest).
Proof.
  induction 1 as [|s b H IH|l s NE].
  - exists []. split; [reflexivity|]. split; [reflexivity|auto].
  - destruct IH as (rest & R & B & F). exists rest. cbn [read_once]. split; [exact R|]. split; [exact B|]. rewrite no_fail_cons. intros [_ K]. auto.
  - destruct l as [|x l]; [contradiction|]. exists (Data (skipn 256 (x :: l)) :: s). split; [reflexivity|]. split.
    + cbn [sbytes flat_map]. change (flat_map ?f s) with (sbytes s). rewrite app_assoc, firstn_skipn. reflexivity.
    + rewrite !no_fail_cons. intros [_ K]. split; [discriminate|exact K].
Qed.
Lemma chunks_agree s1 l : chunks s1 l -> forall s2, no_fail s1 -> no_fail s2 -> sbytes s1 = sbytes s2 -> chunks s2 l.
Proof.
  intros R. induction R as [s h c s' E|s r s' l E R IH|s e h c s' l E NE R IH]; intros s2 F1 F2 B; pose proof (chunk_agree s s2 F1 F2 B) as K; rewrite E in K;
    destruct (chunk_mrt_record_s s2) as [rb sb|eb hb cb sb] eqn:C2; cbn [chunk_rel] in K; try contradiction.
  - destruct K as (<- & _). eapply chunks_end. exact C2.
  - destruct K as (<- & Fa & Fb & Bs). eapply chunks_rec; [exact C2|]. apply IH; assumption.
  - destruct K as (<- & <- & <- & Fa & Fb & Bs). eapply chunks_err; [exact C2|exact NE|]. apply IH; assumption.
Qed.
Lemma reads_agree s1 l : reads s1 l -> forall s2, no_fail s1 -> no_fail s2 -> sbytes s1 = sbytes s2 -> reads s2 l.
Proof.
  intros R. induction R as [s c s' E|s r z s' l E R IH|s e c s' l E NE R IH]; intros s2 F1 F2 B; pose proof (chunk_agree s s2 F1 F2 B) as K;
    unfold parse_mrt_record_s in E; destruct (chunk_mrt_record_s s) as [ra sa|ea ha ca sa] eqn:C1; destruct (chunk_mrt_record_s s2) as [rb sb|eb hb cb sb] eqn:C2; cbn [chunk_rel] in K; try contradiction;
    [destruct K as (-> & Fa & Fb & Bs)|destruct K as (-> & -> & -> & Fa & Fb & Bs)|destruct K as (-> & Fa & Fb & Bs)|destruct K as (-> & -> & -> & Fa & Fb & Bs)|destruct K as (-> & Fa & Fb & Bs)|destruct K as (-> & -> & -> & Fa & Fb & Bs)].
  - destruct (parse_raw rb) as [m|er|] eqn:P; inversion E; subst. eapply reads_end. unfold parse_mrt_record_s. rewrite C2, P. reflexivity.
  - inversion E; subst. eapply reads_end. unfold parse_mrt_record_s. rewrite C2. reflexivity.
  - destruct (parse_raw rb) as [m|er|] eqn:P; inversion E; subst. eapply reads_rec; [unfold parse_mrt_record_s; rewrite C2, P; reflexivity|]. apply IH; assumption.
  - discriminate.
  - destruct (parse_raw rb) as [m|er|] eqn:P; inversion E; subst. eapply reads_err; [unfold parse_mrt_record_s; rewrite C2, P; reflexivity|exact NE|]. apply IH; assumption.
  - inversion E; subst. eapply reads_err; [unfold parse_mrt_record_s; rewrite C2; reflexivity|exact NE|]. apply IH; assumption.
Qed.
(** Two parsers over the same octets. *)
Lemma same_records show s1 s2 : no_fail s1 -> no_fail s2 -> sbytes s1 = sbytes s2 ->
  record_list show (from_reader s1) = record_list show (from_reader s2) /\ frecord_list show (from_reader s1) = frecord_list show (from_reader s2)
  /\ raw_list (from_reader s1) = raw_list (from_reader s2)
  /\ exists n, forall fuel, (n <= fuel)%nat -> elem_list show fuel (from_reader s1) = elem_list show fuel (from_reader s2)
                                               /\ felem_list show fuel (from_reader s1) = felem_list show fuel (from_reader s2).
Proof.
  intros F1 F2 B. destruct (reads_total s1) as [l R1]. pose proof (reads_agree _ _ R1 s2 F1 F2 B) as R2.
  destruct (chunks_total s1) as [k C1]. pose proof (chunks_agree _ _ C1 s2 F1 F2 B) as C2.
  split; [rewrite (record_list_ok show (from_reader s1) l eq_refl R1), (record_list_ok show (from_reader s2) l eq_refl R2); reflexivity|].
  split; [rewrite (frecord_list_ok show (from_reader s1) l eq_refl R1), (frecord_list_ok show (from_reader s2) l eq_refl R2); reflexivity|].
  split; [rewrite (raw_list_ok (from_reader s1) k eq_refl C1), (raw_list_ok (from_reader s2) k eq_refl C2); reflexivity|].
  destruct (elem_list_ok show (from_reader s1) l eq_refl R1) as [n1 E1]. destruct (elem_list_ok show (from_reader s2) l eq_refl R2) as [n2 E2].
  destruct (felem_list_ok show (from_reader s1) l eq_refl R1) as [n3 E3]. destruct (felem_list_ok show (from_reader s2) l eq_refl R2) as [n4 E4].
  exists (n1 + n2 + n3 + n4)%nat. intros fuel K. rewrite E1, E2, E3, E4 by lia. auto.
Qed.
Lemma auto_text ps t s head : first_read s head -> textual head -> no_fail s ->
  from_auto_reader ps t s = from_text_reader ps (match t with Some x => x | None => S754_zero false end) s.
Proof.
  intros R T F. destruct (first_read_iff _ _ R) as (rest & O & B & N). unfold from_auto_reader, detect_text_dump. rewrite O. cbn [rbind].
  rewrite (proj2 (looks_iff head) T). unfold from_text_reader. rewrite !parse_text_dump_ok; [|exact F|apply no_fail_cons; split; [discriminate|auto]].
  cbn [sbytes flat_map]. change (flat_map ?f rest) with (sbytes rest). rewrite <- B. reflexivity.
Qed.
Lemma auto_mrt ps t s head : first_read s head -> ~ textual head -> no_fail s ->
  exists s', from_auto_reader ps t s = Ok (from_reader s') /\ sbytes s' = sbytes s /\ no_fail s'.
Proof.
  intros R T F. destruct (first_read_iff _ _ R) as (rest & O & B & N). unfold from_auto_reader, detect_text_dump. rewrite O. cbn [rbind].
  destruct (looks_like_text head) eqn:L; [apply looks_iff in L; contradiction|]. exists (Data head :: rest). split; [reflexivity|].
  split; [symmetry; exact B|apply no_fail_cons; split; [discriminate|auto]].
Qed.
(** The router and AS of the preamble. *)
Lemma router_last ls : match find (fun p => match p with PVersion _ _ => true | _ => false end) ls with None => None | Some _ => Some (router_of ls) end
  = fold_left (fun o p => match p with PVersion _ i => Some i | _ => o end) ls None.
Proof.
  assert (G : forall ls x, fold_left (fun o p => match p with PVersion _ i => Some i | _ => o end) ls (Some x) = Some (fold_left (fun i p => match p with PVersion _ i' => i' | _ => i end) ls x)).
  { clear. induction ls as [|p ls IH]; intros x; cbn [fold_left]; [reflexivity|]. destruct p; apply IH. }
  unfold router_of. generalize (V4 0). induction ls as [|p ls IH]; intros x; cbn [find fold_left]; [reflexivity|].
  destruct p; [symmetry; apply G|apply IH|apply IH].
Qed.
Lemma local_last ls : match find (fun p => match p with PLocal _ => true | _ => false end) ls with None => None | Some _ => Some (local_of ls) end
  = fold_left (fun o p => match p with PLocal a => Some a | _ => o end) ls None.
Proof.
  assert (G : forall ls x, fold_left (fun o p => match p with PLocal i => Some i | _ => o end) ls (Some x) = Some (fold_left (fun i p => match p with PLocal i' => i' | _ => i end) ls x)).
  { clear. induction ls as [|p ls IH]; intros x; cbn [fold_left]; [reflexivity|]. destruct p; apply IH. }
  unfold local_of. generalize (0 : asn). induction ls as [|p ls IH]; intros x; cbn [find fold_left]; [reflexivity|].
  destruct p; [apply IH|symmetry; apply G|apply IH].
Qed.
