(** The command line tool (/repo/src/bin/main.rs). *)
From Coq Require Import String Floats.SpecFloat.
From Verif Require Import Base Net NetSpec AsPath Community Attr Elem Text Filter TextDump Stream Framing MrtRecord Iter Recovery Psv.
Local Open Scope string_scope. Local Open Scope list_scope. Local Open Scope N_scope.

(** * Options *)
(** main.rs:12-28 [OutputFormat], 31-38 [OutputLevel]. *)
Inductive format := FmtDefault | FmtJson | FmtPretty | FmtPsv | FmtText.
Inductive level := LevelElems | LevelRecords.
(** main.rs:41-90 [Opts], 93-153 [Filters], after clap has read the arguments; the file name
    and the cache directory are left out (see [main]). *)
Record opts := Opts {
  o_format : format; o_level : level; o_json : bool; o_pretty : bool; o_psv : bool; o_hex : bool;
  o_elems : bool; o_records : bool; o_recover : bool;
  o_origin : option N; o_exprs : list bytes; o_prefix : option ipnet; o_super : bool; o_sub : bool;
  o_v4 : bool; o_v6 : bool; o_peers : list ip; o_peer_asn : option N; o_type : option bytes;
  o_start : option f64; o_end : option f64; o_path : option bytes; o_comm : option bytes }.

(** The text forms of other crates: [Display] of networks, of what [shows] has, and JSON of an
    element and of a record (with the hexadecimal text, if any); the layered text and the
    [Display] of a record. *)
Record printers := Printers {
  pt_net : ipnet -> bytes; pt_shows : shows;
  pt_json : elem -> bytes; pt_pretty : elem -> bytes;
  pt_record : format -> mrt_record -> option bytes -> bytes }.

(** * Times *)
(** [f64 as i64]: towards zero, saturating, 0 for what is not a number. *)
Definition clamp_i64 (z : Z) : Z := Z.max (- 2 ^ 63) (Z.min (2 ^ 63 - 1) z).
Definition f64_to_i64 (t : f64) : Z :=
  match t with
  | S754_zero _ | S754_nan => 0
  | S754_infinity s => if s then - 2 ^ 63 else 2 ^ 63 - 1
  | S754_finite s m e =>
      let a := match e with Z.neg k => Z.pos m / 2 ^ Z.pos k | _ => Z.pos m * 2 ^ e end in
      clamp_i64 (if s then - a else a)
  end%Z.
(** filter.rs:229-237 [parse_time_str] with [timestamp() as f64] (filter.rs:551-562), given the
    parsers of floats and of RFC 3339 texts; [DateTime::from_timestamp] has the years from
    -262143 to 262142. *)
Definition from_timestamp (z : Z) : option Z := if ((-8334601228800 <=? z) && (z <=? 8210266876799))%Z then Some z else None.
Definition parse_time (float : bytes -> option f64) (rfc3339 : bytes -> option Z) (s : bytes) : option f64 :=
  option_map f64_of_Z (match float s with Some t => from_timestamp (f64_to_i64 t) | None => rfc3339 s end).

(** * Filters *)
(** main.rs:570-618 [parse_filter_expression]; the texts of its errors are left out. *)
Definition parse_filter_expression (x : bytes) : option (bytes * bytes) :=
  match split_once (str "!=") x with
  | Some (k, v) =>
      let k := trim k in let v := trim v in
      match k, v with
      | [], _ | _, [] => None
      | _, _ =>
          if one_of k ["origin_asns"; "prefixes"; "prefixes_super"; "prefixes_sub"; "prefixes_super_sub"; "peer_ips"; "peer_asns"]
          then Some (k, join [44] (map (fun p => 33 :: trim p) (split_on 44 v)))
          else Some (k, 33 :: v)
      end
  | None =>
      match split_once (str "=") x with
      | Some (k, v) =>
          let k := trim k in let v := trim v in
          match k, v with [], _ | _, [] => None | _, _ => Some (k, v) end
      | None => None
      end
  end.
(** What stands on standard error. *)
Inductive problem := BadOpen | BadFilter (x : bytes) | BadExpression (x : bytes) | BothVersions | HexFormat | HexRecover
  | Recovery (x : rerror) | WriteFailed.
(** The outcome of a step of [main]: a value, an error message and exit code 1, or a panic. *)
Inductive step (A : Type) := Go (a : A) | Stop (p : problem) | Crash.
Arguments Go {A}. Arguments Stop {A}. Arguments Crash {A}.
Definition sbind {A B} (x : step A) (f : A -> step B) : step B := match x with Go a => f a | Stop p => Stop p | Crash => Crash end.
Notation "x <- r ;;; q" := (sbind r (fun x => q)) (at level 61, r at next level, right associativity).
(** mod.rs:400-413 [add_filter], then [unwrap]. *)
Definition add_filter (ps : parsers) (k : string) (v : bytes) (fs : list filter) : step (list filter) :=
  match filter_new ps (str k) v with Some f => Go (fs ++ [f]) | None => Crash end.
Definition add_if {A} (ps : parsers) (k : string) (text : A -> bytes) (v : option A) (fs : list filter) : step (list filter) :=
  match v with Some a => add_filter ps k (text a) fs | None => Go fs end.
(** main.rs:215-233, the loop over the expressions. *)
Fixpoint add_exprs (ps : parsers) (l : list bytes) (fs : list filter) : step (list filter) :=
  match l with
  | [] => Go fs
  | x :: l' =>
      match parse_filter_expression x with
      | Some (k, v) => match filter_new ps k v with Some f => add_exprs ps l' (fs ++ [f]) | None => Stop (BadFilter x) end
      | None => Stop (BadExpression x)
      end
  end.
(** main.rs:176-250. *)
Definition build_filters (P : printers) (ps : parsers) (o : opts) : step (list filter) :=
  let T := pt_shows P in
  fs <- add_if ps "as_path" (fun v => v) (o_path o) [] ;;;
  fs <- add_if ps "community" (fun v => v) (o_comm o) fs ;;;
  fs <- add_if ps "origin_asn" dec (o_origin o) fs ;;;
  fs <- add_if ps (match o_super o, o_sub o with
                   | false, false => "prefix" | true, false => "prefix_super"
                   | false, true => "prefix_sub" | true, true => "prefix_super_sub" end) (pt_net P) (o_prefix o) fs ;;;
  fs <- match o_peers o with [] => Go fs | l => add_filter ps "peer_ips" (join [44] (map (sh_ip T) l)) fs end ;;;
  fs <- add_if ps "peer_asn" dec (o_peer_asn o) fs ;;;
  fs <- add_if ps "type" (fun v => v) (o_type o) fs ;;;
  fs <- add_if ps "start_ts" (sh_time T) (o_start o) fs ;;;
  fs <- add_if ps "end_ts" (sh_time T) (o_end o) fs ;;;
  fs <- add_exprs ps (o_exprs o) fs ;;;
  match o_v4 o, o_v6 o with
  | true, true => Stop BothVersions
  | false, false => Go fs
  | true, false => add_filter ps "ip_version" (str "ipv4") fs
  | false, true => add_filter ps "ip_version" (str "ipv6") fs
  end.

(** * Output *)
(** What each further write to standard output does; the writes after those listed succeed.
    A write that fails leaves nothing. *)
Inductive wout := WOk | WPipe | WFail.
Inductive note := NGap (g : gap) | NSummary (gaps skipped : N) | NProblem (p : problem).
Inductive ending := Exit (code : N) | Panicked.
(** What was written to standard output, one entry for each write, without the line feed that
    ends it; what to standard error; how the process ended. *)
Record result := Result { x_out : list bytes; x_err : list note; x_end : ending }.
Definition say (l : bytes) (r : result) : result := Result (l :: x_out r) (x_err r) (x_end r).
Definition warn (n : note) (r : result) : result := Result (x_out r) (n :: x_err r) (x_end r).
Definition quit (p : problem) : result := Result [] [NProblem p] (Exit 1).
(** main.rs:502-510 [write_output], with what its callers do next. *)
Definition write_output (l : bytes) (ws : list wout) (k : list wout -> result) : result :=
  match ws with
  | [] => say l (k [])
  | WOk :: ws' => say l (k ws')
  | WPipe :: _ => Result [] [] (Exit 0)
  | WFail :: _ => quit WriteFailed
  end.
(** [println!], which panics when the write fails. *)
Definition println (l : bytes) (ws : list wout) (k : list wout -> result) : result :=
  match ws with
  | [] => say l (k [])
  | WOk :: ws' => say l (k ws')
  | _ => Result [] [] Panicked
  end.
(** main.rs:331-369 [RecoveryStats]: the gaps and bytes counted. *)
Definition print_summary (enabled : bool) (gaps skipped : N) (r : result) : result :=
  if enabled then warn (NSummary gaps skipped) r else r.
Definition finish (err : option rerror) : result := match err with Some x => quit (Recovery x) | None => Result [] [] (Exit 0) end.

(** main.rs:512-536 [format_elem]; [None] is the place that is not to be reached. *)
Definition format_elem (P : printers) (f : format) (index : N) (e : elem) : option bytes :=
  match f with
  | FmtJson => Some (pt_json P e)
  | FmtPretty => Some (pt_pretty P e)
  | FmtPsv => Some (if index =? 0 then psv_header ++ [10] ++ to_psv (pt_shows P) e else to_psv (pt_shows P) e)
  | FmtDefault => Some (show_elem (pt_shows P) e)
  | FmtText => None
  end.
(** main.rs:371-414 [run_elems]. *)
Fixpoint run_elems (P : printers) (f : format) (count report : bool) (evs : list (event elem + rerror)) (n index gaps skipped : N) (ws : list wout) : result :=
  let stop err :=
    let tail := print_summary report gaps skipped (finish err) in
    if count then println (str "total elems: " ++ dec n) ws (fun _ => tail) else tail in
  match evs with
  | [] => stop None
  | inr x :: _ => stop (Some x)
  | inl (Gap g) :: l => warn (NGap g) (run_elems P f count report l n index (gaps + 1) (skipped + (g_end g - g_start g)) ws)
  | inl (Item e) :: l =>
      if count then run_elems P f count report l (n + 1) index gaps skipped ws else
      match format_elem P f index e with
      | None => Result [] [] Panicked
      | Some t => write_output t ws (run_elems P f count report l (n + 1) (index + 1) gaps skipped)
      end
  end.
(** main.rs:416-479 [run_records]; [record_to_elems] keeps the peer table. *)
Fixpoint run_records (P : printers) (f : format) (ce cr report : bool) (evs : list (event mrt_record + rerror)) (el : elementor) (recs els gaps skipped : N) (ws : list wout) : result :=
  let stop err :=
    let tail := print_summary report gaps skipped (finish err) in
    match ce, cr with
    | true, true => println (str "total records: " ++ dec recs) ws (fun ws => println (str "total elems:   " ++ dec els) ws (fun _ => tail))
    | false, true => println (str "total records: " ++ dec recs) ws (fun _ => tail)
    | true, false => println (str "total elems: " ++ dec els) ws (fun _ => tail)
    | false, false => tail
    end in
  match evs with
  | [] => stop None
  | inr x :: _ => stop (Some x)
  | inl (Gap g) :: l => warn (NGap g) (run_records P f ce cr report l el recs els (gaps + 1) (skipped + (g_end g - g_start g)) ws)
  | inl (Item r) :: l =>
      if ce then
        match record_to_elems el r with
        | Ok (es, el') => run_records P f ce cr report l el' (recs + 1) (els + nlen es) gaps skipped ws
        | _ => Result [] [] Panicked
        end
      else if cr then run_records P f ce cr report l el (recs + 1) els gaps skipped ws
      else write_output (pt_record P f r None) ws (run_records P f ce cr report l el (recs + 1) els gaps skipped)
  end.
(** render/hex.rs:14-22 [encode]. *)
Definition low_digit (n : N) : N := if n <? 10 then 48 + n else 87 + n.
Definition hex_encode (b : bytes) : bytes := flat_map (fun x => [low_digit (x / 16); low_digit (x mod 16)]) b.
(** main.rs:484-500 [run_hex_records]. *)
Fixpoint run_hex (P : printers) (f : format) (l : list (raw * mrt_record)) (ws : list wout) : result :=
  match l with
  | [] => Result [] [] (Exit 0)
  | (w, r) :: l' => write_output (pt_record P f r (Some (hex_encode (raw_bytes w)))) ws (run_hex P f l')
  end.

(** main.rs:253-261: the shorthands override the format. *)
Definition chosen_format (o : opts) : format :=
  if o_pretty o then FmtPretty else if o_json o then FmtJson else if o_psv o then FmtPsv else o_format o.
Definition is_text (f : format) : bool := match f with FmtText => true | _ => false end.
(** main.rs:155-329 [main].  [src] is what opening the file gave: the source, and the elements
    of a text dump; [fuel] bounds the draining of the iterators, which in the code are drained
    while the output is written. *)
Definition main (show : meta_community -> bytes) (P : printers) (ps : parsers) (o : opts) (src : option (stream * option (list elem))) (fuel : nat) (ws : list wout) : result :=
  match src with
  | None => quit BadOpen
  | Some (s, text) =>
      match build_filters P ps o with
      | Crash => Result [] [] Panicked
      | Stop p => quit p
      | Go fs =>
          let p := Parser s fs false text None in
          let f := chosen_format o in
          let counting := o_elems o || o_records o in
          if o_hex o && negb counting && match f with FmtJson | FmtPretty | FmtText => false | _ => true end then quit HexFormat else
          if o_hex o && negb counting && o_recover o then quit HexRecover else
          let elems := ((o_elems o && negb (o_records o))
                        || (negb (o_elems o) && negb (o_records o) && match o_level o with LevelElems => true | LevelRecords => false end))
                       && negb (is_text f) in
          let drained {A} (x : res A) (k : A -> result) := match x with Ok a => k a | _ => Result [] [] Panicked end in
          if o_hex o && negb counting then drained (fraw_list show p) (fun l => run_hex P f l ws)
          else if elems then
            if o_recover o then drained (recovered_elems show fuel p default_config) (fun l => run_elems P f (o_elems o) true l 0 0 0 0 ws)
            else drained (elem_list show fuel p) (fun l => run_elems P f (o_elems o) false (map (fun e => inl (Item e)) l) 0 0 0 0 ws)
          else
            if o_recover o then drained (recovered show p default_config) (fun l => run_records P f (o_elems o) (o_records o) true l None 0 0 0 0 ws)
            else drained (record_list show p) (fun l => run_records P f (o_elems o) (o_records o) false (map (fun r => inl (Item r)) l) None 0 0 0 0 ws)
      end
  end.
