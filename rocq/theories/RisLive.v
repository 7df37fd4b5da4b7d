(** RIS Live messages (/repo/src/parser/rislive).  A message is the JSON tree of its text, or
    [None] where the text is not JSON.  Objects that derived readers accept in place of the
    ones described (arrays for structures) are not modelled. *)
From Coq Require Import String Floats.SpecFloat.
From Verif Require Import Base Net AsPath Community Attr Elem Text Filter TextDump Json BgpMsg Bgp4mp Framing MrtRecord Bmp.

(** error.rs:6-16 [ParserRisliveError]; the texts of [IncorrectJson] are left out. *)
Inductive ris_err :=
| RIncorrectJson | RIncorrectRawBytes | RUnsupported | REndOfRib
| RUnknownOrigin (s : bytes) | RIncorrectAggregator (s : bytes) | RIncorrectPrefix (s : bytes).
(** Results: a value, an error, or a panic. *)
Inductive rres (A : Type) := ROk (a : A) | RErr (e : ris_err) | RPanic.
Arguments ROk {A}. Arguments RErr {A}. Arguments RPanic {A}.
Definition rrbind {A B} (r : rres A) (f : A -> rres B) : rres B := match r with ROk a => f a | RErr e => RErr e | RPanic => RPanic end.
Notation "x <=- r ;; q" := (rrbind r (fun x => q)) (at level 61, r at next level, right associativity).
Notation "' pat <=- r ;; q" := (rrbind r (fun x => match x with pat => q end)) (at level 61, pat pattern, r at next level, right associativity).

(** * Messages (messages/mod.rs, messages/server) *)
(** ris_message.rs:77-85 [Announcement]. *)
Record announcement := Ann { an_hop : ip; an_prefixes : list bytes }.
(** ris_message.rs:25-65 [RisMessageEnum]; the fields of the variants other than UPDATE are
    left out: nothing is taken from them. *)
Record ris_update := RisUpdate {
  ru_path : option aspath; ru_comms : option (list (N * N)); ru_origin : option bytes; ru_med : option N;
  ru_aggr : option bytes; ru_ann : option (list announcement); ru_wd : option (list bytes) }.
Inductive ris_body := BodyUpdate (u : ris_update) | BodyOther.
(** ris_message.rs:9-21 [RisMessage]. *)
Record ris_message := RisMessage {
  rm_time : f64; rm_peer : ip; rm_asn : asn; rm_id : bytes; rm_raw : option bytes; rm_host : bytes; rm_body : option ris_body }.
(** messages/mod.rs:13-27 [RisLiveMessage]; the contents of the others are left out. *)
Inductive ris_live := LiveMessage (m : ris_message) | LiveOther.

(** ris_message.rs:87-113 [as_str]. *)
Definition de_asn_text (j : json) : option asn := s <<- de_text j ;; parse_asn s.
Definition de_announcement (ps : parsers) (j : json) : option announcement :=
  l <<- de_object ["next_hop"; "prefixes"]%string j ;; h <<- field "next_hop" (de_ip ps) l ;; p <<- field "prefixes" (de_list de_text) l ;; Some (Ann h p).
(** A tuple [(u32, u16)]. *)
Definition de_pair (j : json) : option (N * N) :=
  match j with JList [x; y] => a <<- de_num (2 ^ 32) x ;; b <<- de_num (2 ^ 16) y ;; Some (a, b) | _ => None end.
Definition update_fields : list string := ["path"; "community"; "origin"; "med"; "aggregator"; "announcements"; "withdrawals"]%string.
Definition de_update (ps : parsers) (j : json) : option ris_update :=
  l <<- de_object update_fields j ;; p <<- opt_field "path" de_path l ;; c <<- opt_field "community" (de_list de_pair) l ;;
  o <<- opt_field "origin" de_text l ;; m <<- opt_field "med" (de_num (2 ^ 32)) l ;; g <<- opt_field "aggregator" de_text l ;;
  a <<- opt_field "announcements" (de_list (de_announcement ps)) l ;; w <<- opt_field "withdrawals" (de_list de_text) l ;;
  Some (RisUpdate p c o m g a w).
(** The variant named by the tag; its number is accepted too (the tag has been buffered). *)
Definition de_variant (j : json) : option N :=
  match j with
  | JText s => find (fun i => bytes_eqb s (str (nth (N.to_nat i) ["UPDATE"; "KEEPALIVE"; "OPEN"; "NOTIFICATION"; "RIS_PEER_STATE"]%string ""%string))) [0; 1; 2; 3; 4]
  | JNum n => if n <? 5 then Some n else None
  | _ => None
  end.
(** The enumeration, from the fields that [RisMessage] does not take itself: tag "type". *)
Definition de_body (ps : parsers) (rest : list (bytes * json)) : option ris_body :=
  l <<- de_object ["type"]%string (JObject rest) ;; t <<- field "type" de_variant l ;;
  if t =? 0 then u <<- de_update ps (JObject l) ;; Some (BodyUpdate u) else Some BodyOther.
Definition message_fields : list string := ["timestamp"; "peer"; "peer_asn"; "id"; "raw"; "host"]%string.
Definition is_field (names : list string) (k : bytes) : bool := existsb (fun n => bytes_eqb k (str n)) names.
(** A flattened [Option]: [None] where the enumeration cannot be read (serde's
    [visit_untagged_option]). *)
Definition de_ris_message (ps : parsers) (j : json) : option ris_message :=
  l <<- de_object message_fields j ;; t <<- field "timestamp" de_f64 l ;; p <<- field "peer" (de_ip ps) l ;; a <<- field "peer_asn" de_asn_text l ;;
  i <<- field "id" de_text l ;; r <<- opt_field "raw" de_text l ;; h <<- field "host" de_text l ;;
  Some (RisMessage t p a i r h (de_body ps (List.filter (fun x => negb (is_field message_fields (fst x))) l))).
(** Adjacently tagged: "type" and "data"; "data" may be absent where it is an [Option]. *)
Definition is_object (j : json) : bool := match j with JObject _ => true | _ => false end.
Definition de_ris_live (ps : parsers) (j : json) : option ris_live :=
  l <<- de_object ["type"; "data"]%string j ;; t <<- field "type" de_text l ;;
  if bytes_eqb t (str "ris_message") then m <<- field "data" (de_ris_message ps) l ;; Some (LiveMessage m)
  else if bytes_eqb t (str "ris_error") then _ <<- field "data" (fun d => o <<- de_object ["message"]%string d ;; field "message" de_text o) l ;; Some LiveOther
  else if bytes_eqb t (str "ris_rrc_list") || bytes_eqb t (str "pong") then
    _ <<- opt_field "data" (fun d => if is_object d then Some tt else None) l ;; Some LiveOther
  else if bytes_eqb t (str "ris_subscribe_ok") then
    _ <<- field "data" (fun d => o <<- de_object ["subscription"; "socketOptions"]%string d ;; _ <<- jget (str "subscription") o ;; jget (str "socketOptions") o) l ;; Some LiveOther
  else None.
Definition read_live (ps : parsers) (doc : option json) : rres ris_live :=
  match doc with None => RErr RIncorrectJson | Some j => match de_ris_live ps j with Some m => ROk m | None => RErr RIncorrectJson end end.

(** * Elements from the JSON fields (mod.rs) *)
(** mod.rs:66-80 [parse_prefix]. *)
Definition ris_prefix (ps : parsers) (s : bytes) : rres ipnet :=
  match ps_net ps s with Some n => ROk n | None => if bytes_eqb s (str "eor") then RErr REndOfRib else RErr (RIncorrectPrefix s) end.
(** mod.rs:134-148. *)
Definition ris_origin (o : option bytes) : rres (option origin) :=
  match o with
  | None => ROk None
  | Some s =>
      if bytes_eqb s (str "igp") || bytes_eqb s (str "IGP") then ROk (Some IGP)
      else if bytes_eqb s (str "egp") || bytes_eqb s (str "EGP") then ROk (Some EGP)
      else if bytes_eqb s (str "incomplete") || bytes_eqb s (str "INCOMPLETE") then ROk (Some INCOMPLETE)
      else RErr (RUnknownOrigin s)
  end.
(** mod.rs:150-168. *)
Definition ris_aggregator (ps : parsers) (o : option bytes) : rres (option (asn * N)) :=
  match o with
  | None => ROk None
  | Some s =>
      match split_once [58] s with
      | None => RErr (RIncorrectAggregator s)
      | Some (a, i) =>
          match parse_asn a, ps_ip4 ps i with Some a, Some i => ROk (Some (a, i)) | _, _ => RErr RIncorrectJson end
      end
  end.
(** mod.rs:170-235: the loops. *)
Fixpoint ris_each {A} (f : ipnet -> A) (ps : parsers) (l : list bytes) : rres (list A) :=
  match l with
  | [] => ROk []
  | s :: l' => n <=- ris_prefix ps s ;; r <=- ris_each f ps l' ;; ROk (f n :: r)
  end.
Fixpoint ris_announced (mk : ip -> ipnet -> elem) (ps : parsers) (l : list announcement) : rres (list elem) :=
  match l with
  | [] => ROk []
  | a :: l' => x <=- ris_each (mk (an_hop a)) ps (an_prefixes a) ;; r <=- ris_announced mk ps l' ;; ROk (x ++ r)
  end.
Definition or_nil {A} (o : option (list A)) : list A := match o with Some l => l | None => [] end.
(** mod.rs:87-242 [parse_ris_live_message]. *)
Definition ris_update_elems (ps : parsers) (m : ris_message) (u : ris_update) : rres (list elem) :=
  let cs := option_map (map (fun p => MPlain (CCustom (fst p) (snd p)))) (ru_comms u) in
  o <=- ris_origin (ru_origin u) ;; g <=- ris_aggregator ps (ru_aggr u) ;;
  a <=- ris_announced (fun h n => Elem (rm_time m) Announce (rm_peer m) (rm_asn m) None (Pfx n None) (Some h) (ru_path u) None o None (ru_med u) cs false
                                   (option_map fst g) (option_map snd g) None None None) ps (or_nil (ru_ann u)) ;;
  w <=- ris_each (fun n => Elem (rm_time m) Withdraw (rm_peer m) (rm_asn m) None (Pfx n None) None None None None None None None false
                            None None None None None) ps (or_nil (ru_wd u)) ;;
  ROk (a ++ w).
Definition parse_ris_live_message (ps : parsers) (doc : option json) : rres (list elem) :=
  m <=- read_live ps doc ;;
  match m with
  | LiveMessage m => match rm_body m with Some (BodyUpdate u) => ris_update_elems ps m u | _ => ROk [] end
  | LiveOther => ROk []
  end.

(** * Elements from the raw message (raw_bytes.rs) *)
(** [hex::decode]: pairs of hexadecimal digits of either case. *)
Definition hex_digit (c : N) : option N :=
  if (48 <=? c) && (c <=? 57) then Some (c - 48) else if (97 <=? c) && (c <=? 102) then Some (c - 87)
  else if (65 <=? c) && (c <=? 70) then Some (c - 55) else None.
Fixpoint hex_decode (s : bytes) : option bytes :=
  match s with
  | [] => Some []
  | [_] => None
  | a :: b :: s' => x <<- hex_digit a ;; y <<- hex_digit b ;; r <<- hex_decode s' ;; Some (x * 16 + y :: r)
  end.
(** raw_bytes.rs:114-134 [decode_ris_live_raw]. *)
Definition decode_ris_live_raw (ps : parsers) (doc : option json) : rres (ris_message * bytes) :=
  m <=- read_live ps doc ;;
  match m with
  | LiveOther => RErr RUnsupported
  | LiveMessage m =>
      match rm_raw m with
      | None => RErr RIncorrectRawBytes
      | Some s => match hex_decode s with Some b => ROk (m, b) | None => RErr RIncorrectRawBytes end
      end
  end.
(** raw_bytes.rs:136-143 [parse_raw_bgp_message_with_asn_fallback]. *)
Definition parse_raw_bgp (b : bytes) : rres bgp_msg :=
  match run (parse_bgp_message false Bits32) b with
  | Ok m => ROk m
  | Err _ => match run (parse_bgp_message false Bits16) b with Ok m => ROk m | Err _ => RErr RIncorrectRawBytes | Panic => RPanic end
  | Panic => RPanic
  end.
(** [f64::round] (half away from zero) of a float that is not negative, as an integer. *)
Definition f64_round (x : f64) : Z :=
  match x with
  | S754_finite false m e => if (0 <=? e)%Z then Zpos m * 2 ^ e else (2 * Zpos m + 2 ^ (- e)) / 2 ^ (1 - e)
  | S754_infinity false => 2 ^ 1100
  | _ => 0%Z
  end.
(** [f64::fract]: the number less its integer part, with its sign; of an infinity, NaN. *)
Definition f64_fract (x : f64) : f64 :=
  match x with
  | S754_finite s m e => if (0 <=? e)%Z then S754_zero false else SFsub 53 1024 x (binary_normalize 53 1024 (SpecFloat.cond_Zopp s (Zpos m / 2 ^ (- e))) 0 false)
  | S754_zero s => S754_zero false
  | _ => S754_nan
  end.
(** raw_bytes.rs:180-182 [get_micro_seconds]. *)
Definition get_micro_seconds (t : f64) : N :=
  N.min (N.min (Z.to_N (f64_round (SFmul 53 1024 (SFabs (f64_fract t)) (f64_of_N 1000000)))) (2 ^ 32 - 1)) 999999.
(** raw_bytes.rs:145-178 [parse_ris_live_raw_bgp_message]. *)
Definition ris_record (m : ris_message) (b : bgp_msg) : mrt_record :=
  MrtRecord (Hdr (f64_to_u32 (rm_time m)) (Some (get_micro_seconds (rm_time m))) 16 4 0)
    (MrtBgp4mp (MpMessage (MpMsg 4 (rm_asn m) 0 0 (rm_peer m) (match rm_peer m with V4 _ => V4 0 | V6 _ => V6 0 end) b))).
Definition ris_raw_elems (m : ris_message) (raw : bytes) : rres (list elem) :=
  b <=- parse_raw_bgp raw ;;
  match record_to_elems None (ris_record m b) with Ok (l, _) => ROk l | Err _ => RErr RIncorrectRawBytes | Panic => RPanic end.
(** raw_bytes.rs:27-31 [parse_ris_live_message_raw]. *)
Definition parse_ris_live_message_raw (ps : parsers) (doc : option json) : rres (list elem) :=
  '(m, raw) <=- decode_ris_live_raw ps doc ;; ris_raw_elems m raw.
(** raw_bytes.rs:62-110 [RisLiveRawFull], [parse_ris_live_message_raw_full]: host, id, peer,
    AS number, time, elements, attributes (the warnings are among them). *)
Record ris_full := RisFull {
  rf_host : bytes; rf_id : bytes; rf_peer : ip; rf_asn : asn; rf_time : f64; rf_elems : list elem; rf_attrs : attributes }.
Definition no_attributes : attributes := Attrs [] [] 0.
Definition parse_ris_live_message_raw_full (ps : parsers) (doc : option json) : rres ris_full :=
  '(m, raw) <=- decode_ris_live_raw ps doc ;; b <=- parse_raw_bgp raw ;;
  let at_ := match b with MUpdate u => u_attrs u | _ => no_attributes end in
  es <=- ris_raw_elems m raw ;; ROk (RisFull (rm_host m) (rm_id m) (rm_peer m) (rm_asn m) (rm_time m) es at_).
