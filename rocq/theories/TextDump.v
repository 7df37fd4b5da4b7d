(** Cisco [sh ip bgp] text dumps (/repo/src/parser/text_dump.rs) and the constructors of
    /repo/src/parser/mod.rs that read them. *)
From Coq Require Import String Floats.SpecFloat.
From Verif Require Import Base Net AsPath Attr Elem Text Filter Utf8 Stream Framing Iter.

(** * Rust strings: UTF-8 octets *)
(** The characters of a text: every octet that does not continue a character starts one. *)
Fixpoint chars (s : bytes) : list bytes :=
  match s with
  | [] => []
  | b :: s' =>
      match chars s' with
      | [] => [[b]]
      | c :: cs => if match c with x :: _ => cont x | [] => false end then (b :: c) :: cs else [b] :: c :: cs
      end
  end.
(** [char::is_whitespace]: the Unicode property White_Space, in UTF-8. *)
Definition is_space (c : bytes) : bool :=
  match c with
  | [a] => ((9 <=? a) && (a <=? 13)) || (a =? 32)
  | [a; b] => (a =? 0xC2) && ((b =? 0x85) || (b =? 0xA0))
  | [a; b; d] =>
      ((a =? 0xE1) && (b =? 0x9A) && (d =? 0x80))
      || ((a =? 0xE2) && (b =? 0x80) && (within 0x80 0x8A d || (d =? 0xA8) || (d =? 0xA9) || (d =? 0xAF)))
      || ((a =? 0xE2) && (b =? 0x81) && (d =? 0x9F))
      || ((a =? 0xE3) && (b =? 0x80) && (d =? 0x80))
  | _ => false
  end.
Fixpoint drop_spaces (l : list bytes) : list bytes :=
  match l with c :: l' => if is_space c then drop_spaces l' else l | [] => [] end.
(** [trim_start], [trim_end], [trim]. *)
Definition trim_start (s : bytes) : bytes := concat (drop_spaces (chars s)).
Definition trim_end (s : bytes) : bytes := concat (rev (drop_spaces (rev (chars s)))).
Definition trim (s : bytes) : bytes := trim_end (trim_start s).
(** [split_whitespace]. *)
Fixpoint split_spaces (l : list bytes) : list bytes :=
  match l with
  | [] => [[]]
  | c :: l' => if is_space c then [] :: split_spaces l'
               else match split_spaces l' with h :: t => (c ++ h) :: t | [] => [c] end
  end.
Definition split_whitespace (s : bytes) : list bytes :=
  List.filter (fun w => match w with [] => false | _ => true end) (split_spaces (chars s)).
(** [is_char_boundary]; [get(a..b)]; indexing by a range panics where [get] has nothing. *)
Definition boundary (s : bytes) (i : nat) : bool :=
  Nat.eqb i 0 || Nat.eqb i (length s) || match nth_error s i with Some b => negb (cont b) | None => false end.
Definition str_get (s : bytes) (a b : nat) : option bytes :=
  if Nat.leb a b && Nat.leb b (length s) && boundary s a && boundary s b then Some (firstn (b - a) (skipn a s)) else None.
Definition str_from (s : bytes) (a : nat) : option bytes := str_get s a (length s).
(** [starts_with] and [strip_prefix]. *)
Fixpoint strip_prefix (p s : bytes) : option bytes :=
  match p, s with
  | [], _ => Some s
  | x :: p', y :: s' => if x =? y then strip_prefix p' s' else None
  | _ :: _, [] => None
  end.
Definition starts_with (p s : bytes) : bool := match strip_prefix p s with Some _ => true | None => false end.
(** The text before and after the first occurrence of a pattern: [split_once]; [contains]. *)
Fixpoint split_once (p s : bytes) : option (bytes * bytes) :=
  match strip_prefix p s with
  | Some r => Some ([], r)
  | None => match s with [] => None | x :: s' => match split_once p s' with Some (a, b) => Some (x :: a, b) | None => None end end
  end.
Definition has_text (p s : bytes) : bool := match split_once p s with Some _ => true | None => false end.
(** [split(pattern).nth(1)]. *)
Definition second_part (p s : bytes) : option bytes :=
  match split_once p s with
  | None => None
  | Some (_, r) => Some (match split_once p r with Some (a, _) => a | None => r end)
  end.
(** [u64::from_str]. *)
Fixpoint parse_digits64 (acc : N) (s : bytes) : option N :=
  match s with
  | [] => Some acc
  | c :: s' =>
      if (48 <=? c) && (c <=? 57) then
        let v := acc * 10 + (c - 48) in if 18446744073709551615 <? v then None else parse_digits64 v s'
      else None
  end.
Definition parse_u64 (s : bytes) : option N :=
  match s with
  | [] => None
  | 43 :: [] => None
  | 43 :: s' => parse_digits64 0 s'
  | _ => parse_digits64 0 s
  end.

(** * Reading lines *)
(** [BufRead::read_until(b'\n')]; how the source divides its bytes does not matter. *)
Fixpoint cut_line (l : bytes) : option (bytes * bytes) :=
  match l with
  | [] => None
  | x :: l' => if x =? 10 then Some ([x], l') else match cut_line l' with Some (a, b) => Some (x :: a, b) | None => None end
  end.
Fixpoint read_until (s : stream) : rstatus * bytes * stream :=
  match s with
  | [] => (AtEof, [], [])
  | Intr :: s' => read_until s'
  | Fail :: s' => (Failed, [], s')
  | Data l :: s' =>
      match cut_line l with
      | Some (a, b) => (Full, a, Data b :: s')
      | None => let '(st, g, s'') := read_until s' in (st, l ++ g, s'')
      end
  end.
(** [BufRead::read_line]: the end, a line (with its end of line), or an error, also when the
    line is not UTF-8. *)
Inductive line_out := LEnd (s : stream) | LLine (l : bytes) (s : stream) | LError (s : stream).
Definition read_line (s : stream) : line_out :=
  match read_until s with
  | (Failed, _, s') => LError s'
  | (_, [], s') => LEnd s'
  | (_, l, s') => if utf8_ok l then LLine l s' else LError s'
  end.

(** * The header *)
(** text_dump.rs:45 [ColumnPositions]. *)
Record columns := Cols { c_hop : nat; c_metric : nat; c_pref : nat; c_weight : nat; c_path : nat }.
(** [u8::is_ascii_whitespace]. *)
Definition ascii_space (b : N) : bool := (b =? 32) || (b =? 9) || (b =? 10) || (b =? 12) || (b =? 13).
(** text_dump.rs:92-107: the words of the line with their places. *)
Fixpoint tokens (pos : nat) (s : bytes) : list (nat * bytes) :=
  match s with
  | [] => []
  | b :: s' =>
      if ascii_space b then tokens (S pos) s'
      else match s' with
           | [] => [(pos, [b])]
           | x :: _ =>
               if ascii_space x then (pos, [b]) :: tokens (S pos) s'
               else match tokens (S pos) s' with (_, t) :: r => (pos, b :: t) :: r | [] => [(pos, [b])] end
           end
  end.
(** text_dump.rs:113-129: [Next] followed by [Hop] is one name. *)
Fixpoint merge_names (l : list (nat * bytes)) : list (nat * bytes) :=
  match l with
  | [] => []
  | (p, t) :: l' =>
      match l' with
      | (_, u) :: l'' =>
          if bytes_eqb t (str "Next") && bytes_eqb u (str "Hop") then (p, str "Next Hop") :: merge_names l''
          else (p, t) :: merge_names l'
      | [] => [(p, t)]
      end
  end.
(** text_dump.rs:131-141: the place of a column; the last one of that name counts. *)
Fixpoint column_of (name : bytes) (l : list (nat * bytes)) : option nat :=
  match l with
  | [] => None
  | (p, t) :: l' => match column_of name l' with Some q => Some q | None => if bytes_eqb t name then Some p else None end
  end.
(** text_dump.rs:86-154 [parse_column_header]. *)
Definition parse_column_header (line : bytes) : option columns :=
  let l := merge_names (tokens 0 line) in
  match column_of (str "Next Hop") l, column_of (str "Metric") l, column_of (str "LocPrf") l,
        column_of (str "Weight") l, column_of (str "Path") l with
  | Some h, Some m, Some p, Some w, Some a =>
      if Nat.ltb h m && Nat.ltb m p && Nat.ltb p w && Nat.ltb w a then Some (Cols h m p w a) else None
  | _, _, _, _, _ => None
  end.
(** text_dump.rs:49-57 [TextDumpHeader]. *)
Record text_header := TextHeader { th_version : option N; th_router : option ip; th_as : option N; th_columns : option columns }.
(** text_dump.rs:177-194: what a line of the preamble changes. *)
Definition preamble_line (ps : parsers) (line : bytes) (h : text_header) : text_header :=
  let h1 :=
    match strip_prefix (str "BGP table version is ") line with
    | None => h
    | Some rest =>
        match split_once [44] rest with
        | None => h
        | Some (v, rest') =>
            TextHeader (parse_u64 (trim v))
              (match second_part (str "local router ID is ") rest' with
               | None => th_router h
               | Some r => match split_once [44] r with Some (i, _) => ps_ip ps (trim i) | None => th_router h end
               end) (th_as h) (th_columns h)
        end
    end in
  if starts_with (str "Default local pref") line then
    match second_part (str "local AS ") line with
    | Some r => TextHeader (th_version h1) (th_router h1) (parse_u32 (trim r)) (th_columns h1)
    | None => h1
    end
  else h1.
(** text_dump.rs:161-202 [parse_header]; [n] is the number of lines still looked at. *)
Fixpoint header_loop (ps : parsers) (n : nat) (h : text_header) (s : stream) : res (text_header * stream) :=
  match n with
  | O => Ok (h, s)
  | S n' =>
      match read_line s with
      | LError _ => Err EIo
      | LEnd s' => Ok (h, s')
      | LLine l s' =>
          let line := trim_end l in
          let h' := preamble_line ps line h in
          match parse_column_header line with
          | Some c => Ok (TextHeader (th_version h') (th_router h') (th_as h') (Some c), s')
          | None => header_loop ps n' h' s'
          end
      end
  end.
Definition parse_header (ps : parsers) (s : stream) : res (text_header * stream) :=
  header_loop ps 64 (TextHeader None None None None) s.

(** * Route lines *)
(** text_dump.rs:208-215 [RouteEntry]. *)
Record entry := Entry {
  en_prefix : bytes; en_hop : bytes; en_metric : option N; en_pref : option N; en_tokens : list bytes; en_origin : option origin }.
(** text_dump.rs:217-219 [parse_u32_column]. *)
Definition parse_u32_column (line : bytes) (a b : nat) : option N :=
  match str_get line a b with Some t => parse_u32 (trim t) | None => None end.
(** text_dump.rs:221-229 [shift_columns_left]. *)
Definition shift_left (c : columns) : option columns :=
  match c with
  | Cols (S h) (S m) (S p) (S w) (S a) => Some (Cols h m p w a)
  | _ => None
  end.
(** text_dump.rs:235-252 [parse_wrapped_prefix_line]; slicing off a character boundary panics. *)
Definition parse_wrapped_prefix_line (ps : parsers) (line : bytes) (hop : nat) : res (option bytes) :=
  let long := Nat.ltb hop (length line) in
  blank <~ (if long then match str_from line hop with Some r => Ok (match trim r with [] => true | _ => false end) | None => Panic end
            else Ok true) ;;
  Ok (if (blank : bool) then
        match (if long then str_get line 3 hop else str_from line 3) with
        | None => None
        | Some t => match ps_net ps (trim t) with Some _ => Some (trim t) | None => None end
        end
      else None).
(** text_dump.rs:282-287: the origin code. *)
Definition origin_of_token (t : bytes) : option origin :=
  if bytes_eqb t (str "i") then Some IGP else if bytes_eqb t (str "e") then Some EGP
  else if bytes_eqb t (str "?") then Some INCOMPLETE else None.
(** text_dump.rs:255-302 [parse_route_line]. *)
Definition parse_route_line (ps : parsers) (line0 : bytes) (c : columns) : option entry :=
  let line := trim_end line0 in
  if match trim line with [] => true | _ => false end || starts_with (str "Displayed") (trim_start line) then None else
  match str_get line (c_hop c) (c_metric c) with
  | None => None
  | Some h =>
      match ps_ip ps (trim h) with
      | None => None
      | Some _ =>
          let toks := split_whitespace (match str_from line (c_path c) with Some t => t | None => [] end) in
          let o := match rev toks with t :: _ => origin_of_token t | [] => None end in
          Some (Entry (trim (match str_get line 3 (c_hop c) with Some t => t | None => [] end)) (trim h)
                  (parse_u32_column line (c_metric c) (c_pref c)) (parse_u32_column line (c_pref c) (c_weight c))
                  (match o with Some _ => removelast toks | None => toks end) o)
      end
  end.
(** text_dump.rs:315-333 [as_path_from_tokens]. *)
Definition token_asns (l : list bytes) : list asn :=
  flat_map (fun t => if bytes_eqb t (str "{") || bytes_eqb t (str "}") then []
                     else match parse_u32 t with Some n => [n] | None => [] end) l.
Definition path_of_tokens (l : list bytes) : aspath := [Seg KSeq (token_asns l)].
(** text_dump.rs:335-385 [entry_to_elem]. *)
Definition entry_to_elem (ps : parsers) (en : entry) (prefix : bytes) (pi : ip) (pa : asn) (t : f64) : option elem :=
  match ps_net ps prefix with
  | None => None
  | Some n =>
      let asns := token_asns (en_tokens en) in
      Some (Elem t Announce pi pa None (Pfx n None) (ps_ip ps (en_hop en)) (Some (path_of_tokens (en_tokens en)))
              (match rev asns with a :: _ => Some [a] | [] => None end)
              (en_origin en) (en_pref en) (en_metric en) None false None None None None None)
  end.

(** * The iterator *)
(** text_dump.rs:485-494 [TextDumpElemIterator]. *)
Record text_iter := TextIter {
  ti_stream : stream; ti_columns : columns; ti_peer : ip; ti_asn : asn; ti_time : f64; ti_prefix : bytes }.
(** text_dump.rs:501-527 [new]; a missing column header is [InvalidData]. *)
Definition text_iter_new (ps : parsers) (s : stream) (t : f64) : res text_iter :=
  '(h, s') <~ parse_header ps s ;;
  match th_columns h with
  | None => Err EIo
  | Some c => Ok (TextIter s' c (match th_router h with Some i => i | None => V4 0 end)
                    (match th_as h with Some a => a | None => 0 end) t [])
  end.
(** text_dump.rs:551-583: what a line gives, and the current prefix afterwards. *)
Definition line_step (ps : parsers) (it : text_iter) (l : bytes) : res (option elem * bytes) :=
  let cur := ti_prefix it in
  let line := trim_end l in
  match line with
  | [] => Ok (None, cur)
  | _ =>
      match (match parse_route_line ps line (ti_columns it) with
             | Some en => Some en
             | None => match shift_left (ti_columns it) with Some c => parse_route_line ps line c | None => None end
             end) with
      | Some en =>
          let cur' := match en_prefix en with [] => cur | p => p end in
          Ok (match cur' with [] => None | _ => entry_to_elem ps en cur' (ti_peer it) (ti_asn it) (ti_time it) end, cur')
      | None =>
          o <~ parse_wrapped_prefix_line ps line (c_hop (ti_columns it)) ;;
          Ok (None, match o with Some p => p | None => cur end)
      end
  end.
(** text_dump.rs:533-585 [next]. *)
Definition with_line (it : text_iter) (s : stream) (p : bytes) : text_iter :=
  TextIter s (ti_columns it) (ti_peer it) (ti_asn it) (ti_time it) p.
Fixpoint text_loop (ps : parsers) (fuel : nat) (it : text_iter) : res (option elem * text_iter) :=
  match fuel with
  | O => Panic
  | S f =>
      match read_line (ti_stream it) with
      | LEnd s | LError s => Ok (None, with_line it s (ti_prefix it))
      | LLine l s =>
          '(o, p) <~ line_step ps it l ;;
          match o with
          | Some e => Ok (Some e, with_line it s p)
          | None => text_loop ps f (with_line it s p)
          end
      end
  end.
Definition text_iter_next (ps : parsers) (it : text_iter) : res (option elem * text_iter) :=
  text_loop ps (S (length (sbytes (ti_stream it)))) it.
(** text_dump.rs:594-619 [parse_text_dump_with_timestamp]; without a time it is zero. *)
Definition parse_text_dump (ps : parsers) (t : f64) (s : stream) : res (list elem) :=
  it <~ text_iter_new ps s t ;; collect (text_iter_next ps) (S (length (sbytes (ti_stream it)))) it.

(** * Constructors *)
(** parser/mod.rs:205-213 [from_reader]. *)
Definition from_reader (s : stream) : parser := Parser s [] false None None.
(** parser/mod.rs:243-256 [from_text_reader_with_timestamp].  The elements, which the iterator
    makes as they are asked for, are computed at once here; a panic would come later. *)
Definition from_text_reader (ps : parsers) (t : f64) (s : stream) : res parser :=
  l <~ parse_text_dump ps t s ;; Ok (Parser [] [] false (Some l) None).
(** One [read] with room for [n] octets: what it returns and what is left; [None] is an error
    (also for an interruption).  Through a [BufReader] it is the same, with pieces of at most
    8192 octets. *)
Fixpoint read_once (n : nat) (s : stream) : option (bytes * stream) :=
  match s with
  | [] => Some ([], [])
  | Data [] :: s' => read_once n s'
  | Data l :: s' => Some (firstn n l, Data (skipn n l) :: s')
  | Intr :: _ | Fail :: _ => None
  end.
(** [is_ascii_graphic]. *)
Definition ascii_graphic (b : N) : bool := (33 <=? b) && (b <=? 126).
(** text_dump.rs:70-74. *)
Definition looks_like_text (buf : bytes) : bool :=
  match buf with
  | [] => false
  | b :: _ =>
      ascii_graphic b && utf8_ok (firstn 128 buf) &&
      (has_text (str "BGP table") (firstn 128 buf) || has_text (str "Next Hop") (firstn 128 buf)
       || has_text (str "Status codes:") (firstn 128 buf))
  end.
(** text_dump.rs:65-77 [detect_text_dump]: the verdict, the octets read, the rest. *)
Definition detect_text_dump (s : stream) : res (bool * bytes * stream) :=
  match read_once 256 s with None => Err EIo | Some (b, s') => Ok (looks_like_text b, b, s') end.
(** parser/mod.rs:271-297 [from_auto_reader_with_timestamp]. *)
Definition from_auto_reader (ps : parsers) (t : option f64) (s : stream) : res parser :=
  '(is_text, head, rest) <~ detect_text_dump s ;;
  if (is_text : bool) then from_text_reader ps (match t with Some x => x | None => S754_zero false end) (Data head :: rest)
  else Ok (from_reader (Data head :: rest)).

(** * Times from file names *)
(** [chrono::NaiveDate::from_ymd_opt] and the days since 1970-01-01: the proleptic Gregorian
    calendar. *)
Definition leap (y : N) : bool := (y mod 4 =? 0) && (negb (y mod 100 =? 0) || (y mod 400 =? 0)).
Definition month_days (y m : N) : N :=
  match m with
  | 2 => if leap y then 29 else 28
  | 4 | 6 | 9 | 11 => 30
  | _ => 31
  end.
Definition date_ok (y m d : N) : bool := (1 <=? m) && (m <=? 12) && (1 <=? d) && (d <=? month_days y m).
Definition days_before_year (y : N) : N := 365 * y + (y + 3) / 4 - (y + 99) / 100 + (y + 399) / 400.
Fixpoint days_of_months (y : N) (m : nat) : N :=
  match m with O => 0 | S m' => days_of_months y m' + month_days y (N.of_nat (S m')) end.
Definition days_since_epoch (y m d : N) : Z :=
  Z.of_N (days_before_year y + days_of_months y (N.to_nat (m - 1)) + (d - 1)) - 719528.
(** [timestamp() as f64] of a date and a time of day. *)
Definition f64_of_Z (z : Z) : f64 := binary_normalize 53 1024 z 0 false.
Definition unix_time (y m d hh mm : N) : f64 :=
  f64_of_Z (days_since_epoch y m d * 86400 + Z.of_N (hh * 3600 + mm * 60)).
Definition digit (b : N) : bool := (48 <=? b) && (b <=? 57).
(** The number that decimal digits make. *)
Definition num (l : bytes) : N := fold_left (fun a b => a * 10 + (b - 48)) l 0.
(** text_dump.rs:400-445: one window of fifteen octets; [p] is the octet before it. *)
Definition dashed (p : option N) (w : bytes) : option f64 :=
  match w with
  | [a; b; c; d; e; f; g; h; i; j; k; l; m; n; o] =>
      if forallb digit [a; b; c; d; f; g; i; j; l; m; n; o] && (e =? 45) && (h =? 45) && (k =? 45)
         && negb (match p with Some x => digit x | None => false end)
         && date_ok (num [a; b; c; d]) (num [f; g]) (num [i; j]) && (num [l; m] <? 24) && (num [n; o] <? 60)
      then Some (unix_time (num [a; b; c; d]) (num [f; g]) (num [i; j]) (num [l; m]) (num [n; o]))
      else None
  | _ => None
  end.
Fixpoint scan_dashed (p : option N) (s : bytes) : option f64 :=
  match s with
  | [] => None
  | x :: s' => match dashed p (firstn 15 s) with Some t => Some t | None => scan_dashed (Some x) s' end
  end.
(** text_dump.rs:448-468: one window of ten octets; the first that has the form decides. *)
Definition dotted (w : bytes) : option (option f64) :=
  match w with
  | [a; b; c; d; e; f; g; h; i; j] =>
      if forallb digit [a; b; c; d; f; g; i; j] && (e =? 46) && (h =? 46) then
        Some (if date_ok (num [a; b; c; d]) (num [f; g]) (num [i; j])
              then Some (unix_time (num [a; b; c; d]) (num [f; g]) (num [i; j]) 12 0) else None)
      else None
  | _ => None
  end.
Fixpoint scan_dotted (s : bytes) : option f64 :=
  match s with
  | [] => None
  | _ :: s' => match dotted (firstn 10 s) with Some r => r | None => scan_dotted s' end
  end.
(** text_dump.rs:396-470 [infer_timestamp_from_path]. *)
Definition infer_timestamp (path : bytes) : option f64 :=
  match scan_dashed None path with Some t => Some t | None => scan_dotted path end.
