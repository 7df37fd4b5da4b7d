(** Diagnostic iteration (/repo/src/parser/iters/diagnostic.rs). *)
From Verif Require Import Base Net Attr BgpMsg Bgp4mp TableDump Stream Framing MrtRecord Iter Dissect.

(** diagnostic.rs:25-49 [DiagnosticEvent]. *)
Inductive event :=
| DRecord (m : mrt_record) (r : raw) (ws : list warning)
| DError (e : perr) (h : option header) (c : option bytes) (partial : option node).
(** diagnostic.rs:224-230 [update_warnings]. *)
Definition message_warnings (m : bgp_msg) : list warning :=
  match m with MUpdate u => at_warnings (u_attrs u) | MRefresh r => refresh_warnings r | _ => [] end.
(** diagnostic.rs:205-222 [record_validation_warnings]. *)
Definition record_warnings (m : mrt_record) : list warning :=
  match mr_msg m with
  | MrtBgp4mp (MpMessage x) => message_warnings (mm_bgp x)
  | MrtLegacy (LgMessage x) => message_warnings (lg_bgp x)
  | MrtDump x => at_warnings (td_attrs x)
  | MrtDumps l => flat_map (fun x => at_warnings (td_attrs x)) l
  | MrtV2 (V2Rib b) => flat_map (fun x => at_warnings (re_attrs x)) (rb_entries b)
  | _ => []
  end.
(** [bytes.map(dissect_mrt_bytes)]. *)
Definition partial_tree (c : option bytes) : res (option node) :=
  match c with None => Ok None | Some b => t <~ dissect_mrt_bytes b ;; Ok (Some t) end.
(** diagnostic.rs:51-63 [DiagnosticIterator]: the parser and [terminated]; 80-128 [next].  The
    log line on the compatibility reading is left out. *)
Definition diag_state := (parser * bool)%type.
Definition diag_next (st : diag_state) : res (option event * diag_state) :=
  let '(p, terminated) := st in
  if terminated then Ok (None, st) else
  match pr_text p with
  | Some _ => Ok (None, st)
  | None =>
      match chunk_mrt_record_s (pr_stream p) with
      | CErr EEofExpected _ _ s => Ok (None, (with_stream p s, true))
      | CErr e h c s => x <~ partial_tree c ;; Ok (Some (DError e h c x), (with_stream p s, true))
      | CRec r s =>
          match parse_raw r with
          | Ok m => Ok (Some (DRecord m r (record_warnings m)), (with_stream p s, false))
          | Err e =>
              x <~ partial_tree (Some (raw_bytes r)) ;;
              Ok (Some (DError e (Some (r_hdr r)) (Some (raw_bytes r)) x), (with_stream p s, false))
          | Panic => Panic
          end
      end
  end.
(** mod.rs [into_diagnostic_iter], drained. *)
Definition diag_list (p : parser) : res (list event) := collect diag_next (S (ssize (pr_stream p))) (p, false).

(** dissect.rs [Span], [DissectionNode::span]. *)
Definition span := (N * N)%type.
Definition nd_span (n : node) : span := (nd_off n, nd_len n).
(** The map [duplicate_counts]: [get] and [entry(c).or_insert(0) += 1]. *)
Definition counts := list (N * N).
Fixpoint count_of (cs : counts) (c : N) : N :=
  match cs with [] => 0 | (c', n) :: cs' => if c' =? c then n else count_of cs' c end.
Definition bump (cs : counts) (c : N) : counts := (c, count_of cs c + 1) :: cs.
(** diagnostic.rs:261-265 [attr_span], 275 [section_span]. *)
Definition attr_span (t : node) (code occurrence : N) : option span :=
  option_map nd_span (nth_error (find_all (FAttr code) t) (N.to_nat occurrence)).
Definition section_span (t : node) (name : string) : option span := option_map nd_span (find_node (F name) t).
Definition or_else {A} (a b : option A) : option A := match a with Some _ => a | None => b end.
(** diagnostic.rs:254-318 [locate_warning_span], for the warnings that are ever built. *)
Definition locate (w : warning) (t : node) (cs : counts) : span * counts :=
  let current c := attr_span t c (count_of cs c) in
  let '(o, cs') :=
    match w with
    | WFlags c _ _ | WLength c _ _ | WOptional c _ | WPartial c _ =>
        (or_else (current c) (section_span t "bgp.update.path_attributes"), cs)
    | WDuplicate c =>
        let cs' := bump cs c in
        (or_else (attr_span t c (count_of cs' c)) (section_span t "bgp.update.path_attributes"), cs')
    | WMissing _ | WMalformedList _ _ => (section_span t "bgp.update.path_attributes", cs)
    | WMalformedNlri announced _ _ =>
        (section_span t (if announced then "bgp.update.nlri" else "bgp.update.withdrawn_routes"), cs)
    | WRefreshSubtype _ | WRefreshLength _ _ => (section_span t "bgp.route_refresh", cs)
    end in
  (match o with Some s => s | None => nd_span t end, cs').
(** diagnostic.rs:239-252 [span_record_warnings]. *)
Fixpoint span_loop (ws : list warning) (t : node) (cs : counts) : list (span * warning) :=
  match ws with
  | [] => []
  | w :: ws' => let '(s, cs') := locate w t cs in (s, w) :: span_loop ws' t cs'
  end.
Definition span_warnings (ws : list warning) (t : node) : list (span * warning) := span_loop ws t [].

(** diagnostic.rs:130-158 [DissectedDiagnosticEvent], 160-199 [DissectingDiagnosticIterator]. *)
Inductive dissected :=
| XRecord (m : mrt_record) (r : raw) (ws : list (span * warning)) (t : node)
| XError (e : perr) (h : option header) (c : option bytes) (partial : option node).
Definition dissect_event (e : event) : res dissected :=
  match e with
  | DRecord m r ws => t <~ dissect_mrt_record r ;; Ok (XRecord m r (span_warnings ws t) t)
  | DError e h c x => Ok (XError e h c x)
  end.
Definition dissecting_next (st : diag_state) : res (option dissected * diag_state) :=
  '(o, st') <~ diag_next st ;;
  match o with None => Ok (None, st') | Some e => x <~ dissect_event e ;; Ok (Some x, st') end.
Definition dissecting_list (p : parser) : res (list dissected) := collect dissecting_next (S (ssize (pr_stream p))) (p, false).
