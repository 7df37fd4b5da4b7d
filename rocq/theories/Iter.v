(** Iterators over records and elements (/repo/src/parser/iters/{mod,default,fallible,raw}.rs,
    /repo/src/parser/mod.rs). *)
From Verif Require Import Base Reader Net Community TableDump Stream Framing MrtRecord Elem Filter.

(** parser/mod.rs:45-53 [BgpkitParser]: the source, the filters, whether core dumps are on,
    and for text dumps the elements still to come.  [pr_dump] is the content of the file
    [mrt_core_dump], whose writing is taken to succeed; logging is left out. *)
Record parser := Parser {
  pr_stream : stream; pr_filters : list filter; pr_core : bool; pr_text : option (list elem); pr_dump : option bytes }.
Definition with_stream (p : parser) (s : stream) : parser := Parser s (pr_filters p) (pr_core p) (pr_text p) (pr_dump p).
(** mod.rs:140-151 [write_mrt_core_dump_to_path]. *)
Definition write_dump (p : parser) (c : option bytes) : parser :=
  if pr_core p then match c with Some b => Parser (pr_stream p) (pr_filters p) (pr_core p) (pr_text p) (Some b) | None => p end else p.

(** parser/mod.rs:211-227 [next_record]. *)
Inductive next_out :=
| NRec (r : mrt_record) (p : parser)
| NErr (e : perr) (c : option bytes) (p : parser)
| NPanic.
Definition next_record (p : parser) : next_out :=
  match pr_text p with
  | Some _ => NErr EUnsup None p
  | None =>
      match parse_mrt_record_s (pr_stream p) with
      | RRec r _ s => NRec r (with_stream p s)
      | RErr e c s => NErr e c (with_stream p s)
      | RPanic => NPanic
      end
  end.

Definition is_peer_table (r : mrt_record) : bool := match mr_msg r with MrtV2 (V2Peers _) => true | _ => false end.
(** mod.rs:50-77 [record_matches_filters]. *)
Definition record_matches_filters (show : meta_community -> bytes) (r : mrt_record) (fs : list filter) (el : elementor) : res (bool * elementor) :=
  match fs with
  | [] => Ok (true, el)
  | _ =>
      '(l, el') <~ record_to_elems el r ;;
      if is_peer_table r then Ok (true, el')
      else match l with [] => Ok (false, el') | _ => Ok (existsb (fun e => match_filters show (VElem e) fs) l, el') end
  end.
(** mod.rs:86-134 [handle_record_parse_error]: whether to go on.  The variants of
    [ParserError] that the record parsers do not raise stop. *)
Definition handle_error (p : parser) (e : perr) (c : option bytes) : bool * parser :=
  match e with
  | ETrunc | EUnsup => (true, write_dump p c)
  | EParse => (negb (pr_core p), write_dump p c)
  | EEofExpected => (false, p)
  | EIo | EEof => (false, write_dump p c)
  | ELabLen | ELabTrunc | ETruncPfx | EMaxLabel | EPeerMax | EInvPfx => (true, p)
  | _ => (false, p)
  end.

(** The work left in a source; bounds the loops below. *)
Fixpoint ssize (s : stream) : nat :=
  match s with [] => 0 | Data l :: s' => S (length l + ssize s') | _ :: s' => S (ssize s') end.

(** default.rs:14-57 [RecordIterator]. *)
Definition rec_state := (parser * elementor)%type.
Fixpoint rec_loop (show : meta_community -> bytes) (fuel : nat) (st : rec_state) : res (option mrt_record * rec_state) :=
  match fuel with
  | O => Panic
  | S f =>
      let '(p, el) := st in
      match next_record p with
      | NPanic => Panic
      | NRec r p' =>
          '(m, el') <~ record_matches_filters show r (pr_filters p') el ;;
          if m then Ok (Some r, (p', el')) else rec_loop show f (p', el')
      | NErr e c p' =>
          let '(go, p'') := handle_error p' e c in
          if go then rec_loop show f (p'', el) else Ok (None, (p'', el))
      end
  end.
Definition record_next (show : meta_community -> bytes) (st : rec_state) : res (option mrt_record * rec_state) :=
  match pr_text (fst st) with
  | Some _ => Ok (None, st)
  | None => rec_loop show (S (ssize (pr_stream (fst st)))) st
  end.

(** Draining an iterator until its first [None]. *)
Fixpoint collect {S A} (next : S -> res (option A * S)) (fuel : nat) (st : S) : res (list A) :=
  match fuel with
  | O => Panic
  | Datatypes.S f =>
      '(o, st') <~ next st ;;
      match o with None => Ok [] | Some a => l <~ collect next f st' ;; Ok (a :: l) end
  end.
(** mod.rs:163-165 [into_record_iter], drained. *)
Definition record_list (show : meta_community -> bytes) (p : parser) : res (list mrt_record) :=
  collect (record_next show) (S (ssize (pr_stream p))) (p, None).

(** default.rs:63-130 [ElemIterator]: the elements of the last record still to come (the code
    keeps them reversed), the record iterator and an elementor of its own. *)
Definition elem_state := (list elem * rec_state * elementor)%type.
(** The elements of the text dump, default.rs:90-97: the first that passes. *)
Fixpoint text_next (show : meta_community -> bytes) (fs : list filter) (l : list elem) : option elem * list elem :=
  match l with
  | [] => (None, [])
  | e :: l' => if match_filters show (VElem e) fs then (Some e, l') else text_next show fs l'
  end.
Definition with_text (p : parser) (l : list elem) : parser := Parser (pr_stream p) (pr_filters p) (pr_core p) (Some l) (pr_dump p).
(** default.rs:99-121: refill. *)
Fixpoint refill (show : meta_community -> bytes) (fuel : nat) (st : rec_state) (el : elementor) : res (option (list elem) * (rec_state * elementor)) :=
  match fuel with
  | O => Panic
  | S f =>
      '(o, st') <~ record_next show st ;;
      match o with
      | None => Ok (None, (st', el))
      | Some r =>
          '(l, el') <~ record_to_elems el r ;;
          match l with [] => refill show f st' el' | _ => Ok (Some l, (st', el')) end
      end
  end.
(** default.rs:87-129, the outer loop. *)
Fixpoint elem_loop (show : meta_community -> bytes) (fuel : nat) (st : elem_state) : res (option elem * elem_state) :=
  match fuel with
  | O => Panic
  | S f =>
      let '(cache, rst, el) := st in
      match cache with
      | e :: cache' =>
          if match_filters show (VElem e) (pr_filters (fst rst)) then Ok (Some e, (cache', rst, el))
          else elem_loop show f (cache', rst, el)
      | [] =>
          '(o, (rst', el')) <~ refill show f rst el ;;
          match o with
          | None => Ok (None, ([], rst', el'))
          | Some l =>
              match l with
              | [] => Ok (None, ([], rst', el'))   (* [pop()?]; [refill] returns no empty list *)
              | e :: l' =>
                  if match_filters show (VElem e) (pr_filters (fst rst')) then Ok (Some e, (l', rst', el'))
                  else elem_loop show f (l', rst', el')
              end
          end
      end
  end.
Definition elem_next (show : meta_community -> bytes) (fuel : nat) (st : elem_state) : res (option elem * elem_state) :=
  let '(cache, (p, rel), el) := st in
  match pr_text p with
  | Some l =>
      let '(o, l') := text_next show (pr_filters p) l in Ok (o, (cache, (with_text p l', rel), el))
  | None => elem_loop show fuel st
  end.
(** mod.rs:154-171 [into_elem_iter] and [into_iter], drained with [fuel] steps at most. *)
Definition elem_list (show : meta_community -> bytes) (fuel : nat) (p : parser) : res (list elem) :=
  collect (elem_next show fuel) fuel ([], (p, None), None).

(** fallible.rs:17-77 [FallibleRecordIterator]. *)
Definition item (A : Type) := (A + (perr * option bytes))%type.
Fixpoint frec_loop (show : meta_community -> bytes) (fuel : nat) (st : rec_state) : res (option (item mrt_record) * rec_state) :=
  match fuel with
  | O => Panic
  | S f =>
      let '(p, el) := st in
      match next_record p with
      | NPanic => Panic
      | NRec r p' =>
          match pr_filters p' with
          | [] => Ok (Some (inl r), (p', el))
          | fs =>
              '(l, el') <~ record_to_elems el r ;;
              if is_peer_table r then Ok (Some (inl r), (p', el'))
              else if existsb (fun e => match_filters show (VElem e) fs) l then Ok (Some (inl r), (p', el'))
              else frec_loop show f (p', el')
          end
      | NErr EEofExpected _ p' => Ok (None, (p', el))
      | NErr e c p' => Ok (Some (inr (e, c)), (p', el))
      end
  end.
Definition frecord_next (show : meta_community -> bytes) (st : rec_state) : res (option (item mrt_record) * rec_state) :=
  match pr_text (fst st) with
  | Some _ => Ok (None, st)
  | None => frec_loop show (S (ssize (pr_stream (fst st)))) st
  end.
Definition frecord_list (show : meta_community -> bytes) (p : parser) : res (list (item mrt_record)) :=
  collect (frecord_next show) (S (ssize (pr_stream p))) (p, None).
(** fallible.rs:83-142 [FallibleElemIterator]. *)
Fixpoint felem_loop (show : meta_community -> bytes) (fuel : nat) (st : elem_state) : res (option (item elem) * elem_state) :=
  match fuel with
  | O => Panic
  | S f =>
      let '(cache, rst, el) := st in
      match cache with
      | e :: cache' =>
          if match_filters show (VElem e) (pr_filters (fst rst)) then Ok (Some (inl e), (cache', rst, el))
          else felem_loop show f (cache', rst, el)
      | [] =>
          '(o, rst') <~ frecord_next show rst ;;
          match o with
          | None => Ok (None, ([], rst', el))
          | Some (inr x) => Ok (Some (inr x), ([], rst', el))
          | Some (inl r) => '(l, el') <~ record_to_elems el r ;; felem_loop show f (l, rst', el')
          end
      end
  end.
Definition felem_next (show : meta_community -> bytes) (fuel : nat) (st : elem_state) : res (option (item elem) * elem_state) :=
  let '(cache, (p, rel), el) := st in
  match pr_text p with
  | Some l =>
      let '(o, l') := text_next show (pr_filters p) l in Ok (option_map inl o, (cache, (with_text p l', rel), el))
  | None => felem_loop show fuel st
  end.
Definition felem_list (show : meta_community -> bytes) (fuel : nat) (p : parser) : res (list (item elem)) :=
  collect (felem_next show fuel) fuel ([], (p, None), None).

(** raw.rs:24-95 [RawRecordIterator]; its error policy is spelled out there once more and is
    the one of [handle_error]. *)
Definition raw_policy (p : parser) (e : perr) (c : option bytes) : bool * parser :=
  match e with
  | ETrunc | EUnsup => (true, write_dump p c)
  | EParse => if pr_core p then (false, write_dump p c) else (true, write_dump p c)
  | EEofExpected => (false, p)
  | EIo | EEof => (false, write_dump p c)
  | ELabLen | ELabTrunc | ETruncPfx | EMaxLabel | EPeerMax | EInvPfx => (true, p)
  | _ => (false, p)
  end.
Fixpoint raw_loop (fuel : nat) (p : parser) : res (option raw * parser) :=
  match fuel with
  | O => Panic
  | S f =>
      match chunk_mrt_record_s (pr_stream p) with
      | CRec r s => Ok (Some r, with_stream p s)
      | CErr e _ c s =>
          let '(go, p') := raw_policy (with_stream p s) e c in
          if go then raw_loop f p' else Ok (None, p')
      end
  end.
Definition raw_next (p : parser) : res (option raw * parser) :=
  match pr_text p with Some _ => Ok (None, p) | None => raw_loop (S (ssize (pr_stream p))) p end.
Definition raw_list (p : parser) : res (list raw) := collect raw_next (S (ssize (pr_stream p))) p.

(** raw.rs:120-177 [FilteredRawRecordIterator]; the warning about Zebra records is left out. *)
Definition fraw_state := (parser * elementor * list filter)%type.
Fixpoint fraw_loop (show : meta_community -> bytes) (fuel : nat) (st : fraw_state) : res (option (raw * mrt_record) * fraw_state) :=
  match fuel with
  | O => Panic
  | S f =>
      let '(p, el, fs) := st in
      '(o, p') <~ raw_next p ;;
      match o with
      | None => Ok (None, (p', el, fs))
      | Some w =>
          match parse_raw w with
          | Panic => Panic
          | Err e =>
              let '(go, p'') := handle_error p' e (Some (raw_bytes w)) in
              if go then fraw_loop show f (p'', el, fs) else Ok (None, (p'', el, fs))
          | Ok r =>
              match fs with
              | [] => Ok (Some (w, r), (p', el, fs))
              | _ =>
                  '(m, el') <~ record_matches_filters show r fs el ;;
                  if m then Ok (Some (w, r), (p', el', fs)) else fraw_loop show f (p', el', fs)
              end
          end
      end
  end.
Definition fraw_next (show : meta_community -> bytes) (st : fraw_state) : res (option (raw * mrt_record) * fraw_state) :=
  fraw_loop show (S (ssize (pr_stream (fst (fst st))))) st.
Definition fraw_list (show : meta_community -> bytes) (p : parser) : res (list (raw * mrt_record)) :=
  collect (fraw_next show) (S (ssize (pr_stream p))) (p, None, pr_filters p).

(** mod.rs:443-463 [into_elementor_and_record_iter]: the peeked record, then the rest, drained. *)
Definition elementor_and_records (show : meta_community -> bytes) (p : parser) : res (elementor * list mrt_record) :=
  '(o, st) <~ record_next show (p, None) ;;
  match o with
  | None => Ok (None, [])
  | Some r =>
      l <~ collect (record_next show) (S (ssize (pr_stream (fst st)))) st ;;
      match mr_msg r with MrtV2 (V2Peers t) => Ok (Some t, l) | _ => Ok (None, r :: l) end
  end.
(** mod.rs:419-437 [into_elementor_and_raw_record_iter]. *)
Definition elementor_and_raws (p : parser) : res (elementor * list raw) :=
  '(o, st) <~ raw_next p ;;
  match o with
  | None => Ok (None, [])
  | Some w =>
      l <~ collect raw_next (S (ssize (pr_stream st))) st ;;
      match parse_raw w with
      | Panic => Panic
      | Ok (MrtRecord _ (MrtV2 (V2Peers t))) => Ok (Some t, l)
      | _ => Ok (None, w :: l)
      end
  end.
