(** What a Cisco [sh ip bgp] table looks like on paper, what it says, and dates in file names. *)
From Coq Require Import String Floats.SpecFloat.
From Verif Require Import Base Net AsPath Attr Elem Text Filter Utf8 TableDumpSpec Stream TextDump.

(** The characters of addresses and prefixes, and text parsers that accept nothing else. *)
Definition addr_char (b : N) : bool :=
  ((48 <=? b) && (b <=? 57)) || ((97 <=? b) && (b <=? 102)) || ((65 <=? b) && (b <=? 70)) || (b =? 46) || (b =? 58) || (b =? 47).
Definition sane (ps : parsers) : Prop :=
  (forall t n, ps_net ps t = Some n -> t <> [] /\ forallb addr_char t = true)
  /\ (forall t i, ps_ip ps t = Some i -> t <> [] /\ forallb addr_char t = true).

(** * Lines *)
(** A text divided into lines; the last one may lack its end. *)
Inductive lines : list bytes -> bytes -> Prop :=
| lines_nil : lines [] []
| lines_last l : l <> [] -> lines [l] l
| lines_lf l ls t : lines ls t -> lines (l :: ls) (l ++ [10] ++ t)
| lines_crlf l ls t : lines ls t -> lines (l :: ls) (l ++ [13; 10] ++ t).
(** Printable ASCII. *)
Definition printable (b : N) : bool := (32 <=? b) && (b <=? 126).
Definition gap (n : nat) : bytes := repeat 32 n.
(** [f] is [t] somewhere in a field of width [w]. *)
Definition field (w : nat) (t f : bytes) : Prop := exists a b, f = gap a ++ t ++ gap b /\ length f = w.
(** Words with at least one space between them. *)
Inductive words : list bytes -> bytes -> Prop :=
| words_nil a : words [] (gap a)
| words_cons a w ws t : words ws t -> ws = [] \/ (exists t', t = 32 :: t') -> words (w :: ws) (gap a ++ w ++ t).
(** [p] occurs in [t]. *)
Definition occurs (p t : bytes) : Prop := exists a b, t = a ++ p ++ b.

(** * The preamble and the header line *)
Inductive pre :=
| PVersion (v : N) (router : ip)   (* BGP table version is V, local router ID is R, ... *)
| PLocal (a : asn)                 (* Default local pref P, local AS A *)
| POther.
(** A line without one of the names of the columns. *)
Definition unlike_header (l : bytes) : Prop :=
  exists name, In name [str "Hop"; str "Metric"; str "LocPrf"; str "Weight"; str "Path"] /\ ~ occurs name l.
Definition pre_line (ps : parsers) (p : pre) (l : bytes) : Prop :=
  unlike_header l /\
  match p with
  | PVersion v i =>
      v < 2 ^ 64 /\ exists r tail, ps_ip ps r = Some i /\ forallb printable tail = true
      /\ l = str "BGP table version is " ++ dec v ++ str ", local router ID is " ++ r ++ str "," ++ tail
  | PLocal a => a < 2 ^ 32 /\ exists n, l = str "Default local pref " ++ dec n ++ str ", local AS " ++ dec a
  | POther =>
      utf8_ok l = true /\ ~ In 10 l
      /\ (forall r, l <> str "BGP table version is " ++ r) /\ (forall r, l <> str "Default local pref" ++ r)
  end.
(** The columns, and the line that names them. *)
Definition header_line (c : columns) (l : bytes) : Prop :=
  exists a b d e f g : nat,
    l = gap a ++ str "Network" ++ gap (S b) ++ str "Next Hop" ++ gap (S d) ++ str "Metric" ++ gap (S e) ++ str "LocPrf"
        ++ gap (S f) ++ str "Weight" ++ gap (S g) ++ str "Path"
    /\ c_hop c = (a + b + 8)%nat /\ c_metric c = (c_hop c + d + 9)%nat /\ c_pref c = (c_metric c + e + 7)%nat
    /\ c_weight c = (c_pref c + f + 7)%nat /\ c_path c = (c_weight c + g + 7)%nat.

(** * Rows *)
(** A route; without a prefix it is another route for the prefix above it.  The path may have
    braces standing alone. *)
Inductive hop := HAs (a : asn) | HOpen | HClose.
Record route := Route {
  r_prefix : option ipnet; r_hop : ip; r_metric : option N; r_pref : option N; r_path : list hop; r_origin : option origin }.
Definition hop_text (h : hop) : bytes := match h with HAs a => dec a | HOpen => str "{" | HClose => str "}" end.
Definition origin_text (o : origin) : bytes := match o with IGP => str "i" | EGP => str "e" | INCOMPLETE => str "?" end.
Definition hop_ok (h : hop) : Prop := match h with HAs a => a < 2 ^ 32 | _ => True end.
(** An optional number: nothing, or its digits. *)
Definition number (o : option N) (t : bytes) : Prop := match o with None => t = [] | Some n => n < 2 ^ 32 /\ t = dec n end.
(** Status flags. *)
Definition flag (b : N) : bool := printable b && negb (b =? 68).
Definition flags (f : bytes) : Prop := length f = 3%nat /\ forallb flag f = true.
Definition path_words (r : route) : list bytes :=
  map hop_text (r_path r) ++ match r_origin r with Some o => [origin_text o] | None => [] end.
(** Every field of the route in its column. *)
Definition route_line (ps : parsers) (c : columns) (r : route) (l : bytes) : Prop :=
  Forall hop_ok (r_path r) /\ path_words r <> [] /\
  exists f f1 t2 f2 t3 f3 t4 f4 f5 f6,
    l = f ++ f1 ++ f2 ++ f3 ++ f4 ++ f5 ++ f6
    /\ flags f
    /\ (match r_prefix r with
        | None => field (c_hop c - 3) [] f1
        | Some n => exists t, ps_net ps t = Some n /\ field (c_hop c - 3) t f1
        end)
    /\ ps_ip ps t2 = Some (r_hop r) /\ field (c_metric c - c_hop c) t2 f2
    /\ number (r_metric r) t3 /\ field (c_pref c - c_metric c) t3 f3
    /\ number (r_pref r) t4 /\ field (c_weight c - c_pref c) t4 f4
    /\ length f5 = (c_path c - c_weight c)%nat /\ forallb printable f5 = true
    /\ words (path_words r) f6.
Inductive row :=
| RRoute (r : route)          (* a route *)
| RShifted (r : route)        (* a route written one place to the left *)
| RPrefix (n : ipnet)         (* a prefix alone; its routes follow *)
| RBlank                      (* an empty line *)
| RSummary.                   (* Displayed ... *)
Definition shifted (c : columns) : columns :=
  Cols (c_hop c - 1) (c_metric c - 1) (c_pref c - 1) (c_weight c - 1) (c_path c - 1).
Definition row_line (ps : parsers) (c : columns) (x : row) (l : bytes) : Prop :=
  match x with
  | RRoute r => route_line ps c r l
  | RShifted r =>
      route_line ps (shifted c) r l
      /\ (* what stands in the column itself must not be an address *)
         (forall t f, field (c_metric c - c_hop c) t f -> (exists u v, l = u ++ f ++ v /\ length u = c_hop c) -> ps_ip ps t = None)
  | RPrefix n => exists f t a b, flags f /\ ps_net ps t = Some n /\ l = f ++ gap a ++ t ++ gap b /\ (3 + a + length t <= c_hop c)%nat
  | RBlank => exists a, l = gap a
  | RSummary => exists t, forallb printable t = true /\ l = str "Displayed" ++ t
  end.

(** * What it says *)
Definition path_asns (l : list hop) : list asn := flat_map (fun h => match h with HAs a => [a] | _ => [] end) l.
Definition announced (pi : ip) (pa : asn) (t : f64) (n : ipnet) (r : route) : elem :=
  Elem t Announce pi pa None (Pfx n None) (Some (r_hop r)) (Some [Seg KSeq (path_asns (r_path r))])
    (match path_asns (r_path r) with [] => None | l => Some [last l 0] end)
    (r_origin r) (r_pref r) (r_metric r) None false None None None None None.
Fixpoint said (pi : ip) (pa : asn) (t : f64) (cur : option ipnet) (rows : list row) : list elem :=
  match rows with
  | [] => []
  | (RRoute r | RShifted r) :: rows' =>
      match r_prefix r, cur with
      | Some n, _ | None, Some n => announced pi pa t n r :: said pi pa t (Some n) rows'
      | None, None => said pi pa t None rows'
      end
  | RPrefix n :: rows' => said pi pa t (Some n) rows'
  | _ :: rows' => said pi pa t cur rows'
  end.
(** The router and its AS: the last line that names them. *)
Definition router_of (l : list pre) : ip := fold_left (fun i p => match p with PVersion _ i' => i' | _ => i end) l (V4 0).
Definition local_of (l : list pre) : asn := fold_left (fun a p => match p with PLocal a' => a' | _ => a end) l 0.
(** A whole dump. *)
Definition dump (ps : parsers) (ls : list pre) (c : columns) (rows : list row) (text : bytes) : Prop :=
  exists pl h rl, Forall2 (pre_line ps) ls pl /\ header_line c h /\ Forall2 (row_line ps c) rows rl /\ lines (pl ++ h :: rl) text.

(** * Dates *)
Definition leap_year (y : N) : Prop := y mod 4 = 0 /\ (y mod 100 <> 0 \/ y mod 400 = 0).
(** The days of a month. *)
Definition last_day (y m : N) (d : N) : Prop :=
  match m with
  | 1 | 3 | 5 | 7 | 8 | 10 | 12 => d = 31
  | 4 | 6 | 9 | 11 => d = 30
  | 2 => (leap_year y /\ d = 29) \/ (~ leap_year y /\ d = 28)
  | _ => False
  end.
Definition date (y m d : N) : Prop := exists k, last_day y m k /\ 1 <= d /\ d <= k.
(** The day after. *)
Inductive next_day : N * N * N -> N * N * N -> Prop :=
| next_in_month y m d : date y m d -> date y m (d + 1) -> next_day (y, m, d) (y, m, d + 1)
| next_month y m d : last_day y m d -> m < 12 -> next_day (y, m, d) (y, m + 1, 1)
| next_year y : next_day (y, 12, 31) (y + 1, 1, 1).
(** Numbers with leading zeros. *)
Definition two (n : N) : bytes := [48 + n / 10; 48 + n mod 10].
Definition four (n : N) : bytes := [48 + n / 1000; 48 + n / 100 mod 10; 48 + n / 10 mod 10; 48 + n mod 10].
(** [YYYY-MM-DD-HHMM] and [YYYY.MM.DD]. *)
Definition dashed_text (y m d hh mm : N) : bytes := four y ++ str "-" ++ two m ++ str "-" ++ two d ++ str "-" ++ two hh ++ two mm.
Definition dotted_text (y m d : N) : bytes := four y ++ str "." ++ two m ++ str "." ++ two d.
(** A valid date and time in the path, after [a] octets, not continuing a number. *)
Definition ends_in_digit (a : bytes) : Prop := exists a' x, a = a' ++ [x] /\ 48 <= x /\ x <= 57.
Definition dashed_at (path : bytes) (a : nat) (y m d hh mm : N) : Prop :=
  exists p q, path = p ++ dashed_text y m d hh mm ++ q /\ length p = a /\ ~ ends_in_digit p
              /\ y < 10000 /\ date y m d /\ hh < 24 /\ mm < 60.
(** The form of a dotted date, valid or not. *)
Definition dotted_at (path : bytes) (a : nat) (y m d : N) : Prop :=
  exists p q, path = p ++ dotted_text y m d ++ q /\ length p = a /\ y < 10000 /\ m < 100 /\ d < 100.
(** The days since 1970-01-01. *)
Inductive day_number : N * N * N -> Z -> Prop :=
| day_epoch : day_number (1970, 1, 1) 0%Z
| day_after a b n : next_day a b -> day_number a n -> day_number b (n + 1)%Z
| day_before a b n : next_day a b -> day_number b n -> day_number a (n - 1)%Z.
(** [x] is the time [hh:mm] UTC of that day. *)
Definition at_time (y m d hh mm : N) (x : f64) : Prop :=
  exists n, day_number (y, m, d) n /\ x = f64_of_Z (n * 86400 + Z.of_N hh * 3600 + Z.of_N mm * 60).

(** * Elements and detection *)
(** An element as a text dump makes them; its prefix and next hop stand in the text. *)
Definition from_text (ps : parsers) (text : bytes) (pi : ip) (pa : asn) (t : f64) (e : elem) : Prop :=
  exists n r, e = announced pi pa t n r /\ Forall hop_ok (r_path r)
    /\ (exists u, occurs u text /\ ps_net ps u = Some n) /\ (exists u, occurs u text /\ ps_ip ps u = Some (r_hop r))
    /\ (forall v, r_metric r = Some v \/ r_pref r = Some v -> v < 2 ^ 32).
(** The first octets of a text dump: a visible character first, and within the first 128, which
    are UTF-8, one of three phrases. *)
Definition textual (head : bytes) : Prop :=
  (exists b r, head = b :: r /\ 33 <= b <= 126) /\ utf8 (firstn 128 head)
  /\ (occurs (str "BGP table") (firstn 128 head) \/ occurs (str "Next Hop") (firstn 128 head) \/ occurs (str "Status codes:") (firstn 128 head)).
(** The first [read] of a source with room for 256 octets returns [head]. *)
Inductive first_read : stream -> bytes -> Prop :=
| fr_end : first_read [] []
| fr_skip s b : first_read s b -> first_read (Data [] :: s) b
| fr_data l s : l <> [] -> first_read (Data l :: s) (firstn 256 l).
