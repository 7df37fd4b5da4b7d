(** Vocabulary of the theorems about the command line tool. *)
From Coq Require Import String Floats.SpecFloat.
From Verif Require Import Base Net NetSpec AsPath Community Attr Elem Text Filter FilterSpec TextDump Stream Framing TableDump MrtRecord Iter IterSpec Psv PsvSpec Recovery Cli.
Local Open Scope string_scope. Local Open Scope list_scope. Local Open Scope N_scope.

(** What is assumed of the text forms of other crates: addresses, networks and floats are read
    back from their [Display], which does not begin with an exclamation mark; addresses have
    neither commas nor blanks; times are read as [parse_time_str] does. *)
Definition clear (s : bytes) : Prop := s <> [] /\ hd_error s <> Some 33.
Definition texts_read (P : printers) (ps : parsers) : Prop :=
  (forall n, net_ok n -> ps_net ps (pt_net P n) = Some n /\ clear (pt_net P n)) /\
  (forall i, ip_ok i -> let s := sh_ip (pt_shows P) i in ps_ip ps s = Some i /\ clear s /\ ~ In 44 s /\ ~ In 32 s) /\
  exists float rfc3339, (forall s, ps_time ps s = parse_time float rfc3339 s) /\
    forall t, binary64 t -> float (sh_time (pt_shows P) t) = Some t /\ clear (sh_time (pt_shows P) t).
(** Options as clap gives them: the values are of their types. *)
Definition opts_ok (o : opts) : Prop :=
  all_opt (fun a => a < 2 ^ 32) (o_origin o) /\ all_opt net_ok (o_prefix o) /\ Forall ip_ok (o_peers o) /\
  all_opt (fun a => a < 2 ^ 32) (o_peer_asn o) /\ all_opt binary64 (o_start o) /\ all_opt binary64 (o_end o).

(** * What the options ask for *)
(** [x] is [k], the pattern and [v], and the pattern does not occur earlier. *)
Definition first_at (pat x k v : bytes) : Prop :=
  x = k ++ pat ++ v /\ forall a b, x = a ++ pat ++ b -> (length k <= length a)%nat.
(** A value with its negation: an exclamation mark before it, or before each of the values of a list. *)
Definition list_keys : list string := ["origin_asns"; "prefixes"; "prefixes_super"; "prefixes_sub"; "prefixes_super_sub"; "peer_ips"; "peer_asns"].
Definition negated (k : string) (v w : bytes) : Prop :=
  (In k list_keys -> w = join (str ",") (map (fun p => str "!" ++ trim p) (split_on 44 v))) /\ (~ In k list_keys -> w = str "!" ++ v).
(** [key != value] if there is [!=] in the text, [key = value] otherwise. *)
Inductive says (show : meta_community -> bytes) (ps : parsers) (x : bytes) (P : elem -> Prop) : Prop :=
| says_is k v key : first_at (str "=") x k v -> (forall a b, x <> a ++ str "!=" ++ b) ->
    trim k = str key -> trim v <> [] -> asks show ps key (trim v) P -> says show ps x P
| says_not k v key w : first_at (str "!=") x k v ->
    trim k = str key -> trim v <> [] -> negated key (trim v) w -> asks show ps key w P -> says show ps x P.
(** An expression with blanks around its key and its value.  The value does not begin or end with
    a blank, or is made of parts that have neither blanks nor commas. *)
Definition blank (c : N) : Prop := 9 <= c <= 13 \/ c = 32.
Definition expr (a b c d : nat) (k sign v : bytes) : bytes := repeat 32 a ++ k ++ repeat 32 b ++ sign ++ repeat 32 c ++ v ++ repeat 32 d.
Definition edged (v : bytes) : Prop := v <> [] /\ Forall (fun c => c < 128) v /\ ~ blank (hd 32 v) /\ ~ blank (last v 32).
Definition part_ok (t : bytes) : Prop := t <> [] /\ Forall (fun c => c < 128 /\ ~ blank c /\ c <> 44) t.
Definition prefix_mode (super sub : bool) : match_type :=
  match super, sub with false, false => MExact | true, false => MSuper | false, true => MSub | true, true => MSuperSub end.
(** The time given, to the second: its fraction is dropped; there is none for times chrono does not have. *)
Definition instant (t : f64) (x : f64) : Prop := exists z, from_timestamp (f64_to_i64 t) = Some z /\ x = f64_of_Z z.
(** [z] is the whole part of the number [m * 2^e] with the given sign. *)
Definition whole_part (negative : bool) (m : positive) (e z : Z) : Prop :=
  let d := Z.max 0 (- e) in
  (Z.abs z * 2 ^ d <= Z.pos m * 2 ^ (e + d) < (Z.abs z + 1) * 2 ^ d /\ (if negative then z <= 0 else 0 <= z))%Z.
(** The options make sense: each text is a filter, each time exists, not both versions. *)
Definition accepted (show : meta_community -> bytes) (ps : parsers) (o : opts) : Prop :=
  (forall v, o_path o = Some v -> exists P, asks show ps "as_path" v P) /\
  (forall v, o_comm o = Some v -> exists P, asks show ps "community" v P) /\
  (forall v, o_type o = Some v -> exists P, asks show ps "type" v P) /\
  (forall t, o_start o = Some t -> exists x, instant t x) /\
  (forall t, o_end o = Some t -> exists x, instant t x) /\
  (forall x, In x (o_exprs o) -> exists P, says show ps x P) /\
  ~ (o_v4 o = true /\ o_v6 o = true).
(** An element is wanted if it meets every option. *)
Definition wanted (show : meta_community -> bytes) (ps : parsers) (o : opts) (e : elem) : Prop :=
  (forall v, o_path o = Some v -> exists P, asks show ps "as_path" v P /\ P e) /\
  (forall v, o_comm o = Some v -> exists P, asks show ps "community" v P /\ P e) /\
  (forall a, o_origin o = Some a -> exists l, e_origins e = Some l /\ In a l) /\
  (forall p, o_prefix o = Some p -> prefix_holds p (p_net (e_prefix e)) (prefix_mode (o_super o) (o_sub o))) /\
  (o_peers o <> [] -> In (e_peer e) (o_peers o)) /\
  (forall a, o_peer_asn o = Some a -> e_asn e = a) /\
  (forall v, o_type o = Some v -> exists P, asks show ps "type" v P /\ P e) /\
  (forall t, o_start o = Some t -> exists x, instant t x /\ f64_le x (e_time e)) /\
  (forall t, o_end o = Some t -> exists x, instant t x /\ f64_le (e_time e) x) /\
  (forall x, In x (o_exprs o) -> exists P, says show ps x P /\ P e) /\
  (o_v4 o = true -> exists a, net_addr (p_net (e_prefix e)) = V4 a) /\
  (o_v6 o = true -> exists a, net_addr (p_net (e_prefix e)) = V6 a).

(** No option asks for anything. *)
Definition unrestricted (o : opts) : Prop :=
  o_path o = None /\ o_comm o = None /\ o_origin o = None /\ o_prefix o = None /\ o_peers o = [] /\ o_peer_asn o = None /\
  o_type o = None /\ o_start o = None /\ o_end o = None /\ o_exprs o = [] /\ o_v4 o = false /\ o_v6 o = false.
(** A record, with the peer table in force, is wanted if nothing is asked for, if it is a peer
    table, or if one of its elements is. *)
Definition wanted_record (show : meta_community -> bytes) (ps : parsers) (o : opts) (x : option peer_table * mrt_record) : Prop :=
  unrestricted o \/ is_peer_table (snd x) = true \/ exists e, In e (elems_of x) /\ wanted show ps o e.
(** The second list has what is wanted of the first, in its order. *)
Inductive picks {A} (W : A -> Prop) : list A -> list A -> Prop :=
| picks_nil : picks W [] []
| picks_take a l k : W a -> picks W l k -> picks W (a :: l) (a :: k)
| picks_drop a l k : ~ W a -> picks W l k -> picks W (a :: l) k.

(** * What is printed *)
(** Lines, each ended by a line feed. *)
Definition text_of (l : list bytes) : bytes := flat_map (fun x => x ++ [10]) l.
Definition printed (r : result) : bytes := text_of (x_out r).
(** The lines for elements: PSV has a header if there is an element. *)
Definition elem_lines (P : printers) (f : format) (l : list elem) : list bytes :=
  match f with
  | FmtDefault => map (show_elem (pt_shows P)) l
  | FmtJson => map (pt_json P) l
  | FmtPretty => map (pt_pretty P) l
  | FmtPsv => match l with [] => [] | _ => psv_header :: map (to_psv (pt_shows P)) l end
  | FmtText => []
  end.
(** Elements are printed or counted one by one: no text format, no record level, no hex. *)
Definition elem_run (o : opts) : Prop :=
  chosen_format o <> FmtText /\ o_records o = false /\
  (o_elems o = true \/ o_hex o = false /\ o_level o = LevelElems).
(** Records are printed: text format or record level, no counting, no hex. *)
Definition record_run (o : opts) : Prop :=
  o_elems o = false /\ o_records o = false /\ o_hex o = false /\ (chosen_format o = FmtText \/ o_level o = LevelRecords).
(** Hexadecimal texts with records: a format that has them, no recovery, no counting. *)
Definition hex_run (o : opts) : Prop :=
  o_hex o = true /\ o_elems o = false /\ o_records o = false /\ o_recover o = false /\ In (chosen_format o) [FmtJson; FmtPretty; FmtText].
(** The items, the gaps and the error in a list of events. *)
Fixpoint items {A} (l : list (event A + rerror)) : list A :=
  match l with inl (Item a) :: l' => a :: items l' | inl (Gap _) :: l' => items l' | inr _ :: _ | [] => [] end.
Fixpoint gaps {A} (l : list (event A + rerror)) : list gap :=
  match l with inl (Item _) :: l' => gaps l' | inl (Gap g) :: l' => g :: gaps l' | inr _ :: _ | [] => [] end.
Fixpoint failure {A} (l : list (event A + rerror)) : option rerror :=
  match l with inl _ :: l' => failure l' | inr x :: _ => Some x | [] => None end.
(** The total length of gaps. *)
Definition skipped_bytes (l : list gap) : N := fold_right (fun g n => (g_end g - g_start g) + n) 0 l.
(** What stands on standard error after recovery, and how the process ends. *)
Definition report {A} (l : list (event A + rerror)) : list note :=
  map NGap (gaps l) ++ [NSummary (nlen (gaps l)) (skipped_bytes (gaps l))] ++ match failure l with Some x => [NProblem (Recovery x)] | None => [] end.
Definition ending_of {A} (l : list (event A + rerror)) : ending := match failure l with Some _ => Exit 1 | None => Exit 0 end.
(** Nothing printed and an error. *)
Definition refused (r : result) : Prop := x_out r = [] /\ (x_end r = Panicked \/ x_end r = Exit 1 /\ exists p, x_err r = [NProblem p]).
(** Records, or records and elements, or elements in the text format, are counted. *)
Definition count_run (o : opts) : Prop := o_records o = true \/ o_elems o = true /\ chosen_format o = FmtText.
Definition total_lines (o : opts) (records : N) (elements : N) : list bytes :=
  if o_records o
  then (str "total records: " ++ dec records) :: if o_elems o then [str "total elems:   " ++ dec elements] else []
  else [str "total elems: " ++ dec elements].
(** The parser without filters. *)
Definition plain (s : stream) (text : option (list elem)) : parser := Parser s [] false text None.
(** The write [k] is the first that does not succeed; what becomes of it. *)
Definition fails_at (ws : list wout) (k : nat) (w : wout) : Prop := w <> WOk /\ nth k ws WOk = w /\ forall j, (j < k)%nat -> nth j ws WOk = WOk.
(** All writes succeed. *)
Definition good (ws : list wout) : Prop := Forall (eq WOk) ws.
