(** C74: diagnostic iteration. *)
From Coq Require Import Lia.
From Verif Require Filter PropFilter.
From Verif Require Import Base BaseFacts Net AsPath Attr BgpMsg Bgp4mp TableDump TableDumpFacts Stream Framing FramingFacts MrtRecord Iter IterSpec IterFacts Dissect DissectSpec Diagnostic DiagnosticSpec DiagnosticFacts DiagnosticTree DiagnosticSpans.

(** Every record that can be framed gives one event, in order: with all its findings, or, when
    the body cannot be parsed, with the error, its header and octets and the tree over them;
    iteration goes on after such a record, and ends with the first error of framing.  The
    octets of the events, one after the other, are those of the source. *)
Theorem C74_events p : pr_text p = None -> exists items l, chunks (pr_stream p) items /\ diag_list p = Ok l /\
  Forall2 event_of (through_error items) l /\
  exists rest, sbytes (pr_stream p) = concat (map event_octets l) ++ rest /\ (Forall framed items -> rest = []).
Proof.
  intros T. destruct (chunks_total (pr_stream p)) as (items & C). destruct (diag_events p items T C) as (l & E & F). exists items, l.
  split; [exact C|]. split; [exact E|]. split; [exact F|]. exact (chunks_bytes _ _ C l F).
Qed.
Print Assumptions C74_events.
(** The events are what the fallible iterator gives without filters, up to and including the
    first error of framing. *)
Theorem C74_fallible show p items l : pr_text p = None -> chunks (pr_stream p) items -> diag_list p = Ok l ->
  exists rest, frecord_list show (unfiltered p) = Ok (map as_item l ++ rest) /\ (Forall framed items -> rest = []).
Proof.
  intros T C E. destruct (diag_events p items T C) as (l' & E' & F). assert (l' = l) by congruence. subst l'. assert (Ne := events_no_end _ _ C l F).
  destruct (reads_total (pr_stream p)) as (rs & R). destruct (chunks_items _ _ C l F rs R Ne) as (rest & -> & Q). exists rest.
  rewrite (frecord_list_ok show (unfiltered p) _ T R). cbn [pr_filters unfiltered]. rewrite fkept_nil. auto.
Qed.
Print Assumptions C74_fallible.
(** Filters and core dumps make no difference, and dumps in text form give nothing. *)
Theorem C74_unfiltered p q : pr_text p = None -> pr_text q = None -> pr_stream p = pr_stream q -> diag_list p = diag_list q.
Proof.
  intros Tp Tq E. destruct (chunks_total (pr_stream p)) as (items & C). assert (C' := C). rewrite E in C'.
  destruct (diag_events p items Tp C) as (l & L & F). destruct (diag_events q items Tq C') as (l' & L' & F'). rewrite L, L'. f_equal. clear L L'.
  revert l' F' F. clear. generalize (through_error items). intros its l' F'. revert l. induction F' as [|it e its l' H _ IH]; intros l F; inversion F as [|? e' ? l0 G G']; subst; [reflexivity|].
  f_equal; [|apply IH; exact G']. inversion H; subst; inversion G; subst; try congruence.
  all: match goal with A : tree_over _ ?x, B : tree_over _ ?y |- context [Some ?y] => assert (x = y) by (destruct A as (A & _), B as (B & _); congruence) end; congruence.
Qed.
Print Assumptions C74_unfiltered.
Theorem C74_text p l : pr_text p = Some l -> diag_list p = Ok [] /\ dissecting_list p = Ok [].
Proof.
  intros T. unfold diag_list, dissecting_list. cbn [collect]. unfold dissecting_next, diag_next. rewrite T. split; reflexivity.
Qed.
Print Assumptions C74_text.
(** Asked again after the end, both iterators report the end. *)
Theorem C74_fused st st' : diag_next st = Ok (None, st') -> diag_next st' = Ok (None, st') /\ dissecting_next st' = Ok (None, st').
Proof.
  intros H. assert (G : diag_next st' = Ok (None, st')); [|split; [exact G|unfold dissecting_next; rewrite G; reflexivity]].
  destruct st as [p d]. unfold diag_next in *. destruct d; [injection H as <-; reflexivity|].
  destruct (pr_text p) eqn:T; [injection H as <-; rewrite T; reflexivity|]. destruct (chunk_mrt_record_s (pr_stream p)) as [r s|e h c s].
  - destruct (parse_raw r) as [m|e|]; [discriminate| |discriminate]. destruct (partial_tree _); discriminate.
  - destruct e; try (destruct (partial_tree c); discriminate H). injection H as <-. reflexivity.
Qed.
Print Assumptions C74_fused.
(** The dissecting iterator gives the same events, with the tree over each record, and with a
    place within the record for each finding. *)
Theorem C74_dissecting p : pr_text p = None -> exists l x, diag_list p = Ok l /\ dissecting_list p = Ok x /\ Forall2 with_tree l x /\
  Forall (fun d => match d with XRecord _ r ws _ => Forall (fun w => within (raw_bytes r) (fst w)) ws | XError _ _ _ _ => True end) x.
Proof.
  intros T. destruct (chunks_total (pr_stream p)) as (items & C). destruct (dissecting_yields _ _ C p T eq_refl) as (l & x & A & B & _ & F & _ & L). exists l, x.
  pose proof (chunks_size _ _ C) as Sz. unfold item in *. assert (Ll : length l = length x) by (eapply forall2_length; exact F).
  split; [eapply yields_collect; [exact A|]; lia|]. split; [eapply yields_collect; [exact B|]; lia|]. clear - F. split.
  - induction F as [|e d l x H _ IH]; constructor; [|exact IH]. destruct e, d; cbn [tree_event] in H; try contradiction.
    + destruct H as (-> & -> & -> & H). constructor; [exact H|]. apply spans_snd.
    + destruct H as (-> & -> & -> & ->). constructor.
  - induction F as [|e d l x H _ IH]; constructor; [|exact IH]. destruct e, d; cbn [tree_event] in H; try contradiction; [|exact I].
    destruct H as (-> & -> & -> & H). apply spans_in. exact H.
Qed.
Print Assumptions C74_dissecting.

(** ** Where the findings are *)
Lemma dissected_record p x m r ws t : bytes_ok (sbytes (pr_stream p)) -> dissecting_list p = Ok x -> In (XRecord m r ws t) x ->
  bytes_ok (raw_bytes r) /\ well_framed r /\ parse_raw r = Ok m /\ tree_over (raw_bytes r) t /\ ws = span_warnings (findings (mr_msg m)) t.
Proof.
  intros Hb E H. destruct (pr_text p) eqn:T; [destruct (C74_text p l T) as (_ & E'); rewrite E' in E; injection E as <-; elim H|].
  destruct (chunks_total (pr_stream p)) as (items & C). destruct (dissecting_yields _ _ C p T eq_refl) as (l & x' & A & B & F0 & F & W & L).
  pose proof (chunks_size _ _ C) as Sz. pose proof (chunks_ok _ _ C Hb) as Ho. unfold item in *. assert (E' : dissecting_list p = Ok x') by (eapply yields_collect; [exact B|]; lia).
  assert (x' = x) by congruence. subst x'. clear A B E E' L Sz C.
  assert (Sub : forall it, In it (through_error items) -> In it items). { clear. induction items as [|[r|y] its IH]; cbn [through_error In]; intros it; [auto| |]; intuition. }
  apply in_split in H as (x1 & x2 & ->). apply Forall2_app_inv_r in F as (l1 & l2 & _ & F2 & ->). inversion F2 as [|ev ? l3 ? Te _]; subst.
  apply Forall2_app_inv_r in F0 as (i1 & i2 & _ & G2 & Ei). inversion G2 as [|it ? i3 ? Ev _]; subst.
  assert (Hi : In it items) by (apply Sub; rewrite Ei; apply in_or_app; right; left; reflexivity). rewrite Forall_forall in W, Ho. specialize (W it Hi). specialize (Ho it Hi).
  destruct ev; cbn [tree_event] in Te; [|contradiction]. destruct Te as (-> & -> & -> & Tr). inversion Ev; subst. auto.
Qed.
(** In a record with an UPDATE, the findings come attribute by attribute in the order of the
    message: that an attribute is a duplicate of one before it, and what is found when its
    octets stand alone.  Each is placed at just that attribute, but an error in the value of one
    of the attributes every route has at the section.  Then come the attributes that are missing,
    at the section, and the prefixes that cannot be read, at theirs. *)
Theorem C74_spans p x m r ws t y u : bytes_ok (sbytes (pr_stream p)) -> dissecting_list p = Ok x -> In (XRecord m r ws t) x ->
  mr_msg m = MrtBgp4mp (MpMessage y) -> mm_bgp y = MUpdate u ->
  exists groups tail, map fst groups = attr_nodes t /\ all_findings (record_cfg (h_sub (r_hdr r))) (raw_bytes r) [] groups /\
    ws = flat_map (fun g => map (fun w => (place t (fst g) w, w)) (snd g)) groups ++ map (fun w => (wide_place t w, w)) tail /\
    Forall (wide (raw_bytes r) t) tail.
Proof.
  intros Hb E H Em Eu. destruct (dissected_record p x m r ws t Hb E H) as (Br & (Hf & Sm) & P & T & ->). apply (record_spans r m y u t); auto. exact (proj1 T).
Qed.
Print Assumptions C74_spans.
(** The findings about a ROUTE-REFRESH message are at it. *)
Theorem C74_refresh p x m r ws t y u : bytes_ok (sbytes (pr_stream p)) -> dissecting_list p = Ok x -> In (XRecord m r ws t) x ->
  mr_msg m = MrtBgp4mp (MpMessage y) -> mm_bgp y = MRefresh u ->
  ws = map (fun w => (span_of t "bgp.route_refresh", w)) (refresh_warnings u).
Proof.
  intros Hb E H Em Eu. destruct (dissected_record p x m r ws t Hb E H) as (_ & _ & P & T & ->).
  assert (Ef : findings (mr_msg m) = refresh_warnings u).
  { rewrite Em. unfold findings, blocks, refreshes. cbn [message_of]. rewrite Eu. cbn [flat_map app]. apply app_nil_r. }
  rewrite Ef. unfold span_warnings, refresh_warnings. assert (Q : forall w, (exists n, w = WRefreshSubtype n) \/ (exists a b, w = WRefreshLength a b) ->
    span_loop [w] t [] = map (fun w => (span_of t "bgp.route_refresh", w)) [w]).
  { intros w [(n & ->)|(a & b & ->)]; cbn [span_loop map]; unfold locate; cbv zeta; rewrite section_of; reflexivity. }
  destruct (rf_subtype u) as [|[[|[]|]|[]|]]; try reflexivity; try (apply Q; left; eexists; reflexivity); destruct (rf_data u); try reflexivity; apply Q; right; do 2 eexists; reflexivity.
Qed.
Print Assumptions C74_refresh.
(** The findings in other records are at the record. *)
Theorem C74_whole p x m r ws t : bytes_ok (sbytes (pr_stream p)) -> dissecting_list p = Ok x -> In (XRecord m r ws t) x ->
  h_type (r_hdr r) <> 16 -> h_type (r_hdr r) <> 17 -> ws = map (fun w => ((0, nlen (raw_bytes r)), w)) (findings (mr_msg m)).
Proof.
  intros Hb E H N1 N2. destruct (dissected_record p x m r ws t Hb E H) as (Br & (Hf & Sm) & P & T & ->). unfold span_warnings.
  rewrite <- (type_at r Br Hf) in N1, N2. rewrite (plain_loop t (undissected_plain _ _ N1 N2 (proj1 T))). destruct T as (_ & _ & T1 & T2 & _). unfold nd_span. rewrite T1, T2. reflexivity.
Qed.
Print Assumptions C74_whole.

(** ** A source with an UPDATE in which much is wrong, a record with an unknown subtype, a
    KEEPALIVE, a RIB entry with a wrong attribute, and the start of a header. *)
Definition ex_parts : list part :=
  [{| p_flags := 64; p_code := 1; p_value := [0] |}; {| p_flags := 0; p_code := 4; p_value := [0; 0; 1] |}; {| p_flags := 64; p_code := 1; p_value := [0; 0] |};
   {| p_flags := 64; p_code := 1; p_value := [9] |}].
Definition ex_header (ty st len : N) : bytes := [0; 0; 0; 1] ++ be 2 ty ++ be 2 st ++ be 4 len.
Definition ex_envelope : bytes := [0; 0; 251; 240; 0; 0; 251; 241; 0; 0; 0; 1; 10; 0; 0; 1; 10; 0; 0; 2].
Definition ex_record (st : N) (msg : bytes) : bytes := ex_header 16 st (20 + nlen msg) ++ ex_envelope ++ msg.
Definition ex_bad : bytes := ex_record 4 (message_octets (repeat 255 16) 2 (update_octets [] ex_parts [[40; 1; 2]]) []).
Definition ex_keepalive : bytes := ex_record 4 (repeat 255 16 ++ [0; 19; 4]).
Definition ex_rib : bytes := let b := [0; 0; 0; 0; 8; 10; 0; 1; 0; 0; 0; 0; 0; 0; 0; 5; 64; 1; 2; 0; 0] in ex_header 13 2 (nlen b) ++ b.
Definition ex_source : bytes := ex_bad ++ ex_record 99 [] ++ ex_keepalive ++ ex_rib ++ [0; 0; 0].
Definition ex_parser : parser := Parser [Data ex_source] [] false None None.
Definition about_event (e : event) : option perr * N * list warning := match e with DRecord _ r ws => (None, nlen (raw_bytes r), ws) | DError e _ c _ => (Some e, match c with Some b => nlen b | None => 0 end, []) end.
Example C74_ex : exists l, diag_list ex_parser = Ok l /\ map about_event l =
  [(None, 77, [WFlags 4 128 0; WLength 4 (Some 4) 3; WOptional 4 ETrunc; WDuplicate 1; WLength 1 (Some 1) 2; WDuplicate 1; WMalformedList 1 EParse; WMissing 2; WMissing 3; WMalformedNlri true EParse [40; 1; 2]]);
   (Some EParse, 32, []); (None, 51, []); (None, 33, [WLength 1 (Some 1) 2; WMissing 2; WMissing 3]); (Some EEof, 3, [])].
Proof. eexists. split; [vm_compute; reflexivity|]. vm_compute. reflexivity. Qed.
(** The attributes stand at 55, 59, 65 and 70. *)
Example C74_ex_spans : exists x, dissecting_list ex_parser = Ok x /\
  map (fun d => match d with XRecord _ _ ws _ => map fst ws | XError _ _ _ _ => [] end) x =
  [[(59, 6); (59, 6); (59, 6); (65, 5); (65, 5); (70, 4); (55, 19); (55, 19); (55, 19); (74, 3)]; []; []; [(0, 33); (0, 33); (0, 33)]; []].
Proof. eexists. split; [vm_compute; reflexivity|]. vm_compute. reflexivity. Qed.
Example C74_ex_update : exists x m r ws t y u, dissecting_list ex_parser = Ok x /\ In (XRecord m r ws t) x /\ mr_msg m = MrtBgp4mp (MpMessage y) /\ mm_bgp y = MUpdate u /\ length ws = 10%nat.
Proof. do 7 eexists. split; [vm_compute; reflexivity|]. split; [left; reflexivity|]. split; [reflexivity|]. split; reflexivity. Qed.
Example C74_ex_bytes : bytes_ok ex_source.
Proof. apply bytes_okb_spec. vm_compute. reflexivity. Qed.
Example C74_ex_refresh : exists x ws, dissecting_list (Parser [Data (ex_record 4 (repeat 255 16 ++ [0; 24; 5; 0; 1; 7; 1; 5]))] [] false None None) = Ok x /\
  map (fun d => match d with XRecord _ _ ws _ => ws | XError _ _ _ _ => [] end) x = [ws] /\ map fst ws = [(51, 5)].
Proof. do 2 eexists. split; [vm_compute; reflexivity|]. split; [reflexivity|reflexivity]. Qed.
(** The example has the list [C74_fallible] asks for, with two errors in it. *)
Example C74_ex_fallible : exists items l, chunks (pr_stream ex_parser) items /\ diag_list ex_parser = Ok l /\
  length (List.filter (fun e => match as_item e with inr _ => true | inl _ => false end) l) = 2%nat.
Proof. destruct (chunks_total (pr_stream ex_parser)) as (items & C). exists items. eexists. split; [exact C|]. split; [vm_compute; reflexivity|]. vm_compute. reflexivity. Qed.

(** ** Findings *)
(** The diagnostic iterator stops at an error of framing after which the other iterators go on:
    here an unknown record type, before a sound record. *)
Theorem C74_stops_refuted : exists p l rs, pr_text p = None /\ diag_list p = Ok l /\ frecord_list PropFilter.show_nothing p = Ok rs /\ length l = 1%nat /\ length rs = 2%nat /\
  exists r, nth_error rs 1 = Some (inl r).
Proof.
  exists (Parser [Data (ex_header 99 0 0 ++ ex_keepalive)] [] false None None). do 2 eexists. split; [reflexivity|]. split; [vm_compute; reflexivity|]. split; [vm_compute; reflexivity|].
  split; [reflexivity|]. split; [reflexivity|]. eexists. reflexivity.
Qed.
Print Assumptions C74_stops_refuted.
(** Filters are not applied. *)
Theorem C74_filters_refuted : exists p l, pr_filters p <> [] /\ record_list PropFilter.show_nothing p = Ok [] /\ diag_list p = Ok l /\ length l = 1%nat.
Proof.
  exists (Parser [Data ex_keepalive] [Filter.FPeerAsn 1] false None None). eexists. split; [discriminate|]. split; [vm_compute; reflexivity|]. split; [vm_compute; reflexivity|]. reflexivity.
Qed.
Print Assumptions C74_filters_refuted.
