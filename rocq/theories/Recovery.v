(** Opt-in recovery of record framing (/repo/src/parser/iters/recovery.rs).
    Offsets are [u64]/[usize] in the code and unbounded here. *)
From Verif Require Import Base Reader Net Community TableDump Stream Framing Bgp4mp MrtRecord Elem Filter Iter.

(** recovery.rs:34-77 [RecoveryConfig]. *)
Record recovery_config := RConfig { rc_max_scan : N; rc_confirm : N }.
Definition default_config : recovery_config := RConfig 1048576 3.
(** recovery.rs:83-97 [RecoveryEvidence]. *)
Inductive evidence := LegacyMrtChain | BgpMarkerChain | StateChangeChain | AlignedRecordChain | EndOfStream.
(** recovery.rs:102-114 [RecoveryGap]; of the message [cause] only the kind of error is kept. *)
Record gap := RGap { g_start : N; g_end : N; g_cause : perr; g_evidence : evidence; g_confirmed : N }.
(** recovery.rs:125-128 [RecoveryEvent], 136-140 [RecoveryError]. *)
Inductive event (A : Type) := Item (a : A) | Gap (g : gap).
Arguments Item {A}. Arguments Gap {A}.
Record rerror := RError { re_offset : N; re_scanned : N; re_err : perr; re_bytes : option bytes }.

(** How many reads of a source are going to fail.  An I/O error is one of the source itself
    (a kind other than [UnexpectedEof]) exactly when a failing read was met. *)
Fixpoint fails (s : stream) : nat := match s with [] => 0 | Fail :: s' => S (fails s') | _ :: s' => fails s' end.
Definition is_io (e : perr) : bool := match e with EIo | EEof => true | _ => false end.
(** recovery.rs:659-665 [is_non_eof_io_error], for an error met between [s] and [s']. *)
Definition io_failure (e : perr) (s s' : stream) : bool := is_io e && negb (Nat.eqb (fails s) (fails s')).

(** recovery.rs:728-758 [ReplayReader]: the bytes seen since [w_base], the place in them, and
    what the source still holds. *)
Record window := Window { w_data : bytes; w_cursor : nat; w_base : N; w_inner : stream }.
Definition w_position (w : window) : N := w_base w + N.of_nat (w_cursor w).
Definition w_end (w : window) : N := w_base w + nlen (w_data w).
Definition into_leftover (w : window) (offset : N) : bytes :=
  skipn (Nat.min (N.to_nat (offset - w_base w)) (length (w_data w))) (w_data w).
(** recovery.rs:794-811 [Read for ReplayReader]: reading serves the bytes seen from the cursor
    on, then the source, whose bytes it keeps.  A reading function applied to [w_view w] and
    leaving [s'] moves the window to [w_after w s']. *)
Definition w_view (w : window) : stream := Data (skipn (w_cursor w) (w_data w)) :: w_inner w.
Definition w_after (w : window) (s' : stream) : window :=
  let k := (length (sbytes (w_view w)) - length (sbytes s'))%nat in
  let d := (length (w_data w) - w_cursor w)%nat in
  if Nat.ltb k d then Window (w_data w) (w_cursor w + k) (w_base w) (w_inner w)
  else Window (w_data w ++ firstn (k - d) (sbytes (w_inner w))) (w_cursor w + k) (w_base w) s'.

(** Outcome of what runs on a window. *)
Inductive io (A : Type) := IOk (a : A) (w : window) | IErr (w : window) | IPanic.
Arguments IOk {A}. Arguments IErr {A}. Arguments IPanic {A}.
Definition ibind {A B} (r : io A) (k : A -> window -> io B) : io B :=
  match r with IOk a w => k a w | IErr w => IErr w | IPanic => IPanic end.

(** recovery.rs:768-778, the loop: plain reads until [n] more bytes are there.  Reads are
    limited to 8192 bytes, which does not matter since the division is arbitrary; a read that
    is interrupted is an error here. *)
Fixpoint fill (n : nat) (s : stream) : rstatus * bytes * stream :=
  match n with
  | O => (Full, [], s)
  | _ =>
    match s with
    | [] => (AtEof, [], [])
    | Intr :: s' | Fail :: s' => (Failed, [], s')
    | Data l :: s' =>
        if Nat.leb n (length l) then (Full, firstn n l, Data (skipn n l) :: s')
        else let '(st, g, s'') := fill (n - length l) s' in (st, l ++ g, s'')
    end
  end.
(** recovery.rs:763-781 [move_to]. *)
Definition move_to (offset : N) (w : window) : io bool :=
  if offset <? w_base w then IOk false w else
  let target := N.to_nat (offset - w_base w) in
  match fill (target - length (w_data w)) (w_inner w) with
  | (Full, g, s) => IOk true (Window (w_data w ++ g) target (w_base w) s)
  | (AtEof, g, s) => IOk false (Window (w_data w ++ g) (length (w_data w ++ g)) (w_base w) s)
  | (Failed, g, s) => IErr (Window (w_data w ++ g) (w_cursor w) (w_base w) s)
  end.
(** recovery.rs:785-791 [peek_two_at], as the number the two bytes make. *)
Definition peek_two_at (offset : N) (w : window) : io (option N) :=
  ibind (move_to (offset + 2) w) (fun ok w =>
    if negb ok then IOk None w else
    let i := N.to_nat (offset - w_base w) in
    match nth_error (w_data w) i, nth_error (w_data w) (S i) with
    | Some a, Some b => IOk (Some (be_val [a; b])) w
    | _, _ => IPanic
    end).

(** recovery.rs:404-433 [confirm_aligned_boundary]; [n] records are still required. *)
Fixpoint confirm_loop (n : nat) (confirmed : N) (w : window) : io (option N) :=
  match n with
  | O => IOk (Some confirmed) w
  | S n' =>
      match parse_mrt_record_s (w_view w) with
      | RRec _ _ s => confirm_loop n' (confirmed + 1) (w_after w s)
      | RErr e _ s =>
          match e with
          | EEofExpected => IOk (Some confirmed) (w_after w s)
          | _ => if io_failure e (w_view w) s then IErr (w_after w s) else IOk None (w_after w s)
          end
      | RPanic => IPanic
      end
  end.
Definition confirm_aligned (w : window) (boundary required : N) : io (option N) :=
  ibind (move_to boundary w) (fun ok w => if ok then confirm_loop (N.to_nat required) 0 w else IOk None w).

(** recovery.rs:435-440 [is_anchor_entry_type]. *)
Definition is_anchor (n : N) : bool := (n =? ET_BGP) || (n =? ET_BGP4MP) || (n =? ET_BGP4MP_ET).
(** recovery.rs:566-575 [legacy_header_is_plausible]. *)
Definition legacy_plausible (sub len : N) : bool :=
  match sub with
  | 1 => (16 <=? len) && (len <=? 65535)
  | 3 => len =? 10
  | 5 => (22 <=? len) && (len <=? 4089)
  | 6 => (14 <=? len) && (len <=? 65535)
  | 7 => len =? 12
  | _ => false
  end.
(** [body.get(i..i + n)]. *)
Definition get_range (i n : nat) (s : bytes) : option bytes :=
  if Nat.leb (i + n) (length s) then Some (firstn n (skipn i s)) else None.
Definition mp_addr_len (i : nat) (body : bytes) : option nat :=
  match get_range i 2 body with
  | Some b => match be_val b with 1 => Some 4%nat | 2 => Some 16%nat | _ => None end
  | None => None
  end.
(** recovery.rs:577-657 [strict_bgp4mp_evidence] up to the parsing: the evidence the shape of
    the body would give. *)
Definition strict_shape (r : raw) : option evidence :=
  let sub := h_sub (r_hdr r) in let body := r_body r in
  if negb (mp_known sub) then None else
  if (sub =? 0) || (sub =? 5) then
    if uses_zebra_compat sub body then (if Nat.eqb (length body) 8 then Some StateChangeChain else None)
    else
      let p := if sub =? 0 then 4%nat else 8%nat in
      match mp_addr_len (p + 2) body with
      | None => None
      | Some n => if Nat.eqb (length body) (p + 4 + n * 2 + 4) then Some StateChangeChain else None
      end
  else
    let p := if (sub =? 1) || (sub =? 6) || (sub =? 8) || (sub =? 10) then 4%nat else 8%nat in
    match (if uses_zebra_compat sub body then Some p
           else match mp_addr_len (p + 2) body with None => None | Some n => Some (p + 4 + n * 2)%nat end) with
    | None => None
    | Some m =>
        match get_range m 19 body with
        | None => None
        | Some h =>
            let len := be_val (firstn 2 (skipn 16 h)) in
            let ty := nth 18 h 0 in
            if negb (forallb (N.eqb 255) (firstn 16 h)) then None else
            if negb ((19 <=? len) && (len <=? 65535)) || negb ((1 <=? ty) && (ty <=? 4)) || negb (N.of_nat m + len =? nlen body) then None else
            match ty with
            | 1 => if 4096 <? len then None else Some BgpMarkerChain
            | 2 => if len <? 23 then None else Some BgpMarkerChain
            | 3 => if len <? 21 then None else Some BgpMarkerChain
            | _ => if negb (len =? 19) then None else Some BgpMarkerChain
            end
        end
    end.
(** recovery.rs:381-390 [StreamFamily]: whether the record is of the deprecated type 5;
    502-553 [read_candidate]. *)
Definition family := bool.
Definition header_family (h : header) : option family :=
  if h_type h =? ET_BGP then (if legacy_plausible (h_sub h) (h_len h) then Some true else None)
  else if (h_type h =? ET_BGP4MP) || (h_type h =? ET_BGP4MP_ET) then
    (if mp_known (h_sub h) && (h_len h <=? 65599) then Some false else None)
  else None.
Definition read_candidate (w : window) : io (option (family * evidence)) :=
  match parse_common_header_s (w_view w) with
  | HErr e _ s => if io_failure e (w_view w) s then IErr (w_after w s) else IOk None (w_after w s)
  | HOk h hb s =>
      match header_family h with
      | None => IOk None (w_after w s)
      | Some f =>
          if match h_us h with Some u => 1000000 <=? u | None => false end then IOk None (w_after w s) else
          match read_upto (N.to_nat (h_len h)) s with
          | (Failed, _, s') => IErr (w_after w s')
          | (AtEof, _, s') => IOk None (w_after w s')
          | (Full, body, s') =>
              let r := Raw h hb body in
              match (if f then Some LegacyMrtChain else strict_shape r) with
              | None => IOk None (w_after w s')
              | Some ev =>
                  match parse_raw r with
                  | Ok _ => IOk (Some (f, ev)) (w_after w s')
                  | Err _ => IOk None (w_after w s')
                  | Panic => IPanic
                  end
              end
          end
      end
  end.
(** recovery.rs:473-500 [validate_chain]; [n] records are still required. *)
Fixpoint chain_loop (n : nat) (fam : option family) (ev : option evidence) (confirmed : N) (w : window) : io (option (evidence * N)) :=
  match n with
  | O => IOk (match ev with Some e => Some (e, confirmed) | None => None end) w
  | S n' =>
      let start := w_position w in
      ibind (read_candidate w) (fun c w =>
        match c with
        | None => ibind (move_to start w) (fun _ w => IOk None w)
        | Some (f, e) =>
            if match fam with Some x => negb (Bool.eqb x f) | None => false end then IOk None w
            else chain_loop n' (Some (match fam with Some x => x | None => f end)) (Some (match ev with Some x => x | None => e end)) (confirmed + 1) w
        end)
  end.
Definition validate_chain (w : window) (offset required : N) : io (option (evidence * N)) :=
  ibind (move_to offset w) (fun ok w => if ok then chain_loop (N.to_nat required) None None 0 w else IOk None w).
(** recovery.rs:392-402 [ScanOutcome], 442-471 [find_recovery]; [n] offsets from [candidate] on. *)
Inductive scan_outcome := Found (offset : N) (ev : evidence) (confirmed : N) | AtEnd (end_offset : N) | Exhausted.
Fixpoint scan (n : nat) (candidate confirmations : N) (w : window) : io scan_outcome :=
  match n with
  | O => IOk Exhausted w
  | S n' =>
      ibind (peek_two_at (candidate + 4) w) (fun t w =>
        match t with
        | None => IOk (AtEnd (w_end w)) w
        | Some ty =>
            if negb (is_anchor ty) then scan n' (candidate + 1) confirmations w
            else ibind (validate_chain w candidate confirmations) (fun v w =>
              match v with
              | Some (ev, k) => IOk (Found candidate ev k) w
              | None => scan n' (candidate + 1) confirmations w
              end)
        end)
  end.
Definition find_recovery (w : window) (start max_scan confirmations : N) : io scan_outcome :=
  scan (N.to_nat max_scan) (start + 1) confirmations w.

(** recovery.rs:159-187 [RecoveringRecordIterator] and the [CarryoverReader] in it
    (669-721): the bytes carried over are the front of the stream.  [rs_unsupported]: the
    parser reads a text dump; [rs_dump] is the content of [mrt_core_dump]. *)
Record recovering := Recovering {
  rs_stream : stream; rs_offset : N; rs_config : recovery_config; rs_filters : list filter; rs_el : elementor;
  rs_core : bool; rs_unsupported : bool; rs_finished : bool; rs_dump : option bytes }.
Definition into_recovering (p : parser) (c : recovery_config) : recovering :=
  Recovering (pr_stream p) 0 c (pr_filters p) None (pr_core p) (match pr_text p with Some _ => true | None => false end) false (pr_dump p).
Definition rs_at (st : recovering) (s : stream) (o : N) : recovering :=
  Recovering s o (rs_config st) (rs_filters st) (rs_el st) (rs_core st) (rs_unsupported st) (rs_finished st) (rs_dump st).
Definition rs_finish (st : recovering) : recovering :=
  Recovering (rs_stream st) (rs_offset st) (rs_config st) (rs_filters st) (rs_el st) (rs_core st) false true (rs_dump st).
Definition rs_with_el (st : recovering) (el : elementor) : recovering :=
  Recovering (rs_stream st) (rs_offset st) (rs_config st) (rs_filters st) el (rs_core st) (rs_unsupported st) (rs_finished st) (rs_dump st).
Definition rs_write_dump (st : recovering) (c : option bytes) : recovering :=
  Recovering (rs_stream st) (rs_offset st) (rs_config st) (rs_filters st) (rs_el st) (rs_core st) (rs_unsupported st) (rs_finished st)
    (if rs_core st then match c with Some b => Some b | None => rs_dump st end else rs_dump st).
(** The reader after something was read: the offset grows by what was delivered. *)
Definition rs_read (st : recovering) (s : stream) : recovering :=
  rs_at st s (rs_offset st + (nlen (sbytes (rs_stream st)) - nlen (sbytes s))).
(** recovery.rs:692-697 [resume_with]. *)
Definition resume (st : recovering) (w : window) (offset : N) : recovering :=
  rs_at st (Data (into_leftover w offset) :: w_inner w) offset.

Definition rout := res (option (event mrt_record + rerror) * recovering).
(** recovery.rs:286-333, the end of [recover]: the search for the next record. *)
Definition search_gap (st : recovering) (start : N) (e : perr) (c : option bytes) (w : window) : rout :=
  match find_recovery w start (rc_max_scan (rs_config st)) (N.max (rc_confirm (rs_config st)) 1) with
  | IOk (Found o ev k) w => Ok (Some (inl (Gap (RGap start o e ev k))), resume st w o)
  | IOk (AtEnd o) w => Ok (Some (inl (Gap (RGap start o e EndOfStream 0))), resume st w o)
  | IOk Exhausted w => Ok (Some (inr (RError start (rc_max_scan (rs_config st)) e c)), rs_finish (rs_at st (w_inner w) (rs_offset st)))
  | IErr w => Ok (Some (inr (RError start (w_position w - start) EIo None)), rs_finish (rs_at st (w_inner w) (rs_offset st)))
  | IPanic => Panic
  end.
(** recovery.rs:249-333 [recover].  [st] is the iterator after the failed reading; the check of
    line 258 (debug builds) is kept. *)
Definition recover (st : recovering) (start : N) (framed : option N) (e : perr) (c : option bytes) : rout :=
  let st := rs_write_dump st c in
  let consumed := match c with Some b => b | None => [] end in
  if negb (start + nlen consumed =? rs_offset st) then Panic else
  let w := Window consumed 0 start (rs_stream st) in
  match framed with
  | None => search_gap st start e c w
  | Some b =>
      match confirm_aligned w b (N.max (rc_confirm (rs_config st)) 1) with
      | IOk (Some k) w => Ok (Some (inl (Gap (RGap start b e AlignedRecordChain k))), resume st w b)
      | IOk None w => search_gap st start e c w
      | IErr w => Ok (Some (inr (RError start 0 EIo None)), rs_finish (rs_at st (w_inner w) (rs_offset st)))
      | IPanic => Panic
      end
  end.
(** recovery.rs:192-246 [next]. *)
Fixpoint rnext_loop (show : meta_community -> bytes) (fuel : nat) (st : recovering) : rout :=
  match fuel with
  | O => Panic
  | S f =>
      let start := rs_offset st in
      match chunk_mrt_record_s (rs_stream st) with
      | CErr e _ c s =>
          match e with
          | EEofExpected => Ok (None, rs_finish (rs_read st s))
          | _ =>
              if io_failure e (rs_stream st) s then Ok (Some (inr (RError start 0 e c)), rs_finish (rs_read st s))
              else recover (rs_read st s) start None e c
          end
      | CRec r s =>
          let st' := rs_read st s in
          match parse_raw r with
          | Ok x =>
              '(m, el) <~ record_matches_filters show x (rs_filters st') (rs_el st') ;;
              if m then Ok (Some (inl (Item x)), rs_with_el st' el) else rnext_loop show f (rs_with_el st' el)
          | Err e => recover st' start (Some (rs_offset st')) e (Some (raw_bytes r))
          | Panic => Panic
          end
      end
  end.
Definition rnext (show : meta_community -> bytes) (st : recovering) : rout :=
  if rs_finished st then Ok (None, st) else
  if rs_unsupported st then Ok (Some (inr (RError 0 0 EUnsup None)), rs_finish st) else
  rnext_loop show (S (length (sbytes (rs_stream st)))) st.
(** All it yields. *)
Definition recovered (show : meta_community -> bytes) (p : parser) (c : recovery_config) : res (list (event mrt_record + rerror)) :=
  collect (rnext show) (2 + length (sbytes (pr_stream p))) (into_recovering p c).

(** recovery.rs:338-379 [RecoveringElemIterator]; the cache is kept reversed in the code. *)
Definition relem_state := (recovering * elementor * list filter * list elem)%type.
Definition into_recovering_elems (p : parser) (c : recovery_config) : relem_state :=
  (into_recovering (Parser (pr_stream p) [] (pr_core p) (pr_text p) (pr_dump p)) c, None, pr_filters p, []).
Fixpoint relem_next (show : meta_community -> bytes) (fuel : nat) (st : relem_state) : res (option (event elem + rerror) * relem_state) :=
  match fuel with
  | O => Panic
  | S f =>
      let '(rs, el, fs, cache) := st in
      match cache with
      | e :: cache' => Ok (Some (inl (Item e)), (rs, el, fs, cache'))
      | [] =>
          '(o, rs') <~ rnext show rs ;;
          match o with
          | None => Ok (None, (rs', el, fs, []))
          | Some (inl (Item r)) =>
              '(l, el') <~ record_to_elems el r ;;
              relem_next show f (rs', el', fs, List.filter (fun e => match_filters show (VElem e) fs) l)
          | Some (inl (Gap g)) => Ok (Some (inl (Gap g)), (rs', el, fs, []))
          | Some (inr x) => Ok (Some (inr x), (rs', el, fs, []))
          end
      end
  end.
Definition recovered_elems (show : meta_community -> bytes) (fuel : nat) (p : parser) (c : recovery_config) : res (list (event elem + rerror)) :=
  collect (relem_next show fuel) fuel (into_recovering_elems p c).
