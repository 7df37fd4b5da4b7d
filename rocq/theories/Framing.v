(** MRT record framing: /repo/src/parser/mrt/mrt_header.rs,
    /repo/src/parser/mrt/mrt_record.rs:1-275 and
    /repo/src/parser/mrt/messages/table_dump.rs:263-301. *)
From Verif Require Import Base Reader Net Stream.

(** models/mrt/mod.rs:242-265 [EntryType]: represented by its numeric code; this
    is [EntryType::try_from(u16)] succeeding. *)
Definition etype_known (n : N) : bool :=
  (n <=? 13) || existsb (N.eqb n) [16; 17; 32; 33; 48; 49].
Definition ET_BGP : N := 5.
Definition ET_TABLE_DUMP : N := 12.
Definition ET_TABLE_DUMP_V2 : N := 13.
Definition ET_BGP4MP : N := 16.
Definition ET_BGP4MP_ET : N := 17.

(** models/mrt/mod.rs:79-86 [CommonHeader]. *)
Record header := Hdr {
  h_ts : N; h_us : option N; h_type : N; h_sub : N; h_len : N }.

(** mrt_record.rs:23-29 [RawMrtRecord]. *)
Record raw := Raw { r_hdr : header; r_hbytes : bytes; r_body : bytes }.
(** mrt_record.rs:66-71 [RawMrtRecord::raw_bytes]. *)
Definition raw_bytes (r : raw) : bytes := r_hbytes r ++ r_body r.
(** mrt_record.rs:119-121 [total_bytes_len]. *)
Definition total_bytes_len (r : raw) : nat := (length (r_hbytes r) + length (r_body r))%nat.

(** mrt_header.rs:38-59,166-171 [CommonHeader::encode].  [header.length + 4] is
    checked arithmetic in debug builds: overflow panics. *)
Definition encode_header (h : header) : res bytes :=
  match h_us h with
  | None => Ok (be 4 (h_ts h) ++ be 2 (h_type h) ++ be 2 (h_sub h) ++ be 4 (h_len h))
  | Some us =>
      if 4294967295 <? h_len h + 4 then Panic
      else Ok (be 4 (h_ts h) ++ be 2 (h_type h) ++ be 2 (h_sub h)
               ++ be 4 (h_len h + 4) ++ be 4 us)
  end.

(** Outcome of reading from a stream: value, or error plus the bytes the
    [CapturingReader] (mrt_record.rs:248-259) saw; always the rest of the
    stream. *)
Inductive hdr_out :=
| HOk (h : header) (raw : bytes) (rest : stream)
| HErr (e : perr) (captured : bytes) (rest : stream).

(** The fields of a 12-byte header. *)
Definition split_header (b : bytes) : N * N * N * N :=
  (be_val (firstn 4 b), be_val (firstn 2 (skipn 4 b)),
   be_val (firstn 2 (skipn 6 b)), be_val (firstn 4 (skipn 8 b))).

(** mrt_header.rs:120-164 [parse_common_header_with_bytes].  [?] on an
    [io::Error] gives [EofError] for [UnexpectedEof] and [IoError] otherwise
    (error.rs:181-188). *)
Definition parse_common_header_s (s : stream) : hdr_out :=
  match read_upto 12 s with
  | (AtEof, g, s') => HErr EEof g s'
  | (Failed, g, s') => HErr EIo g s'
  | (Full, base, s') =>
    let '(ts, ty, sub, len) := split_header base in
    if negb (etype_known ty) then HErr EParse base s' else
    if ty =? ET_BGP4MP_ET then
      if len <? 4 then HErr EParse base s' else
      match read_upto 4 s' with
      | (AtEof, g, s'') => HErr EEof (base ++ g) s''
      | (Failed, g, s'') => HErr EIo (base ++ g) s''
      | (Full, us, s'') =>
          HOk (Hdr ts (Some (be_val us)) ty sub (len - 4)) (base ++ us) s''
      end
    else HOk (Hdr ts None ty sub len) base s'
  end.

(** table_dump.rs:263-301 [needs_legacy_length_correction].  The loop variable
    [offset] is represented by the suffix [data[offset..]]. *)
Fixpoint legacy_loop (fuel : nat) (addr_len : nat) (s : bytes) : bool :=
  match s with
  | [] => false
  | _ =>
    match fuel with
    | O => false
    | S f =>
      let fixed := (addr_len * 2 + 10)%nat in
      match splitn (fixed - 2) s with
      | None => false
      | Some (_, r) =>
        match splitn 2 r with
        | None => false
        | Some (a, _) =>
          let entry_len := N.of_nat fixed + be_val a in
          if entry_len =? nlen s + 4 then true
          else if nlen s <? entry_len then false
          else legacy_loop f addr_len (skipn (N.to_nat entry_len) s)
        end
      end
    end
  end.
Definition needs_legacy_length_correction (sub : N) (data : bytes) : bool :=
  match (if sub =? 1 then Some 4%nat else if sub =? 2 then Some 16%nat else None) with
  | None => false
  | Some al =>
      if Nat.ltb (length data) 4 then false
      else legacy_loop (length data) al (skipn 4 data)
  end.

(** mrt_record.rs:32-36 [RawMrtRecordError] / [ParserErrorWithBytes]. *)
Inductive chunk_out :=
| CRec (r : raw) (rest : stream)
| CErr (e : perr) (h : option header) (captured : option bytes) (rest : stream).

Definition MAX_MRT_MESSAGE_LEN : N := 16777216.

(** mrt_record.rs:132-246 [chunk_mrt_record_with_context]. *)
Definition chunk_mrt_record_s (s : stream) : chunk_out :=
  match parse_common_header_s s with
  | HErr e captured s' =>
      match e, captured with
      | EEof, [] => CErr EEofExpected None None s'
      | _, _ => CErr e None (Some captured) s'
      end
  | HOk h hb s' =>
      if MAX_MRT_MESSAGE_LEN <? h_len h then CErr EUnsup (Some h) (Some hb) s' else
      match read_upto (N.to_nat (h_len h)) s' with
      | (Full, body, s'') =>
          if (h_type h =? ET_TABLE_DUMP) && needs_legacy_length_correction (h_sub h) body then
            match read_upto 4 s'' with
            | (Full, corr, s3) => CRec (Raw h hb (body ++ corr)) s3
            | (_, corr, s3) => CErr EIo (Some h) (Some (hb ++ body ++ corr)) s3
            end
          else CRec (Raw h hb body) s''
      | (_, part, s'') => CErr EIo (Some h) (Some (hb ++ part)) s''
      end
  end.

(** Repeated reading until the first error, as every record iterator does
    (e.g. parser/iters/raw.rs).  Returns the records and the error that ended
    the run. *)
Fixpoint read_all_s (fuel : nat) (s : stream) : list raw * option chunk_out :=
  match fuel with
  | O => ([], None)
  | S f =>
    match chunk_mrt_record_s s with
    | CRec r rest => let '(l, e) := read_all_s f rest in (r :: l, e)
    | o => ([], Some o)
    end
  end.

(** The same framing on a flat buffer (a reader over a byte slice).  Refinement
    from arbitrary streams is proved in [FramingFacts]. *)
Inductive frame :=
| FRec (r : raw) (rest : bytes)
| FErr (e : perr) (h : option header) (captured : option bytes) (rest : bytes).
Definition to_frame (o : chunk_out) : frame :=
  match o with
  | CRec r s => FRec r (sbytes s)
  | CErr e h c s => FErr e h c (sbytes s)
  end.
Definition chunk_mrt_record (s : bytes) : frame := to_frame (chunk_mrt_record_s [Data s]).
