(** Vocabulary of the theorems about RIS Live messages. *)
From Coq Require Import String Floats.SpecFloat.
From Verif Require Import Base Net AsPath Community Nlri Attr BgpMsg Elem ElemSpec Text Filter Json RisLive.

(** * Fields of JSON objects, in any order *)
(** The field [k] is there, once. *)
Definition once (l : list (bytes * json)) (k : string) (j : json) : Prop :=
  exists a b, l = a ++ (str k, j) :: b /\ ~ In (str k) (map fst (a ++ b)).
Definition lacks (l : list (bytes * json)) (k : string) : Prop := ~ In (str k) (map fst l).
(** It holds what [R] says; an optional one may be absent or null. *)
Definition must {A} (R : json -> A -> Prop) (l : list (bytes * json)) (k : string) (a : A) : Prop := exists j, once l k j /\ R j a.
Definition maybe {A} (R : json -> A -> Prop) (l : list (bytes * json)) (k : string) (o : option A) : Prop :=
  match o with Some a => must R l k a | None => lacks l k \/ once l k JNull end.

(** * What values say *)
Definition is_text (j : json) (s : bytes) : Prop := j = JText s.
Definition is_u (b : N) (j : json) (n : N) : Prop := j = JNum n /\ n < b.
Definition is_number (j : json) (f : f64) : Prop := j = JFloat f \/ exists n, j = JNum n /\ f = f64_of_N n.
Definition is_ip (ps : parsers) (j : json) (i : ip) : Prop := exists s, j = JText s /\ ps_ip ps s = Some i.
Definition is_asn_text (j : json) (a : asn) : Prop := exists s, j = JText s /\ parse_asn s = Some a.
Definition is_list {A} (R : json -> A -> Prop) (j : json) (l : list A) : Prop := exists js, j = JList js /\ Forall2 R js l.
Definition is_pair (j : json) (p : N * N) : Prop := j = JList [JNum (fst p); JNum (snd p)] /\ fst p < 2 ^ 32 /\ snd p < 2 ^ 16.
(** An AS path as C80 describes it. *)
Definition is_path (j : json) (p : aspath) : Prop := de_path j = Some p.
Definition is_announcement_of (ps : parsers) (j : json) (a : announcement) : Prop :=
  exists l, j = JObject l /\ must (is_ip ps) l "next_hop" (an_hop a) /\ must (is_list is_text) l "prefixes" (an_prefixes a).

(** The document is a message [m] of a collector (but for what the message is about). *)
Definition envelope (ps : parsers) (j : json) (d : list (bytes * json)) (m : ris_message) : Prop :=
  exists l, j = JObject l /\ must is_text l "type" (str "ris_message") /\ once l "data" (JObject d) /\
    must is_number d "timestamp" (rm_time m) /\ must (is_ip ps) d "peer" (rm_peer m) /\ must is_asn_text d "peer_asn" (rm_asn m) /\
    must is_text d "id" (rm_id m) /\ maybe is_text d "raw" (rm_raw m) /\ must is_text d "host" (rm_host m).
(** It is about the UPDATE [u]. *)
Definition about_update (ps : parsers) (d : list (bytes * json)) (u : ris_update) : Prop :=
  (once d "type" (JText (str "UPDATE")) \/ once d "type" (JNum 0)) /\
  maybe is_path d "path" (ru_path u) /\ maybe (is_list is_pair) d "community" (ru_comms u) /\ maybe is_text d "origin" (ru_origin u) /\
  maybe (is_u (2 ^ 32)) d "med" (ru_med u) /\ maybe is_text d "aggregator" (ru_aggr u) /\
  maybe (is_list (is_announcement_of ps)) d "announcements" (ru_ann u) /\ maybe (is_list is_text) d "withdrawals" (ru_wd u).
Definition update_doc (ps : parsers) (j : json) (m : ris_message) (u : ris_update) : Prop :=
  exists d, envelope ps j d m /\ about_update ps d u.
(** A message of another type. *)
Definition other_doc (j : json) : Prop :=
  exists l t, j = JObject l /\ must is_text l "type" t /\ In t (map str ["ris_error"; "ris_rrc_list"; "pong"; "ris_subscribe_ok"]%string).

(** * Elements *)
Inductive origin_text : bytes -> origin -> Prop :=
| ot_igp : origin_text (str "igp") IGP | ot_IGP : origin_text (str "IGP") IGP
| ot_egp : origin_text (str "egp") EGP | ot_EGP : origin_text (str "EGP") EGP
| ot_incomplete : origin_text (str "incomplete") INCOMPLETE | ot_INCOMPLETE : origin_text (str "INCOMPLETE") INCOMPLETE.
Definition origin_of (t : option bytes) (o : option origin) : Prop :=
  match t, o with Some s, Some x => origin_text s x | None, None => True | _, _ => False end.
(** AS number, colon, address. *)
Definition aggregator_of (ps : parsers) (t : option bytes) (g : option (asn * N)) : Prop :=
  match t, g with
  | Some s, Some (a, i) => exists x y, s = x ++ 58 :: y /\ ~ In 58 x /\ parse_asn x = Some a /\ ps_ip4 ps y = Some i
  | None, None => True
  | _, _ => False
  end.
(** The announced prefixes with their next hops; the texts of all prefixes. *)
Definition announced (u : ris_update) : list (ip * bytes) :=
  match ru_ann u with Some l => flat_map (fun a => map (pair (an_hop a)) (an_prefixes a)) l | None => [] end.
Definition withdrawn (u : ris_update) : list bytes := match ru_wd u with Some l => l | None => [] end.
Definition prefix_texts (u : ris_update) : list bytes := map snd (announced u) ++ withdrawn u.

Definition from_message (m : ris_message) (e : elem) : Prop :=
  e_time e = rm_time m /\ e_peer e = rm_peer m /\ e_asn e = rm_asn m /\ e_id e = None.
Definition announces (ps : parsers) (m : ris_message) (u : ris_update) (o : option origin) (g : option (asn * N)) (x : ip * bytes) (e : elem) : Prop :=
  from_message m e /\ e_type e = Announce /\ (exists n, ps_net ps (snd x) = Some n /\ e_prefix e = Pfx n None) /\ e_hop e = Some (fst x) /\
  e_path e = ru_path u /\ e_origin e = o /\ e_med e = ru_med u /\
  e_comms e = option_map (map (fun p => MPlain (CCustom (fst p) (snd p)))) (ru_comms u) /\
  e_aggr_asn e = option_map fst g /\ e_aggr_ip e = option_map snd g /\
  e_origins e = None /\ e_pref e = None /\ e_atomic e = false /\ e_otc e = None /\ e_unknown e = None /\ e_depr e = None.
Definition withdraws (ps : parsers) (m : ris_message) (s : bytes) (e : elem) : Prop :=
  from_message m e /\ e_type e = Withdraw /\ (exists n, ps_net ps s = Some n /\ e_prefix e = Pfx n None) /\ bare e.

(** What comes of an UPDATE: the first of its faults, or its elements. *)
Inductive outcome (ps : parsers) (m : ris_message) (u : ris_update) : rres (list elem) -> Prop :=
| out_origin s : ru_origin u = Some s -> (forall o, ~ origin_text s o) -> outcome ps m u (RErr (RUnknownOrigin s))
| out_no_colon o s : origin_of (ru_origin u) o -> ru_aggr u = Some s -> ~ In 58 s -> outcome ps m u (RErr (RIncorrectAggregator s))
| out_aggregator o s : origin_of (ru_origin u) o -> ru_aggr u = Some s -> In 58 s -> (forall g, ~ aggregator_of ps (Some s) g) ->
    outcome ps m u (RErr RIncorrectJson)
| out_eor o g a s b : origin_of (ru_origin u) o -> aggregator_of ps (ru_aggr u) g -> prefix_texts u = a ++ s :: b ->
    Forall (fun t => ps_net ps t <> None) a -> ps_net ps s = None -> s = str "eor" -> outcome ps m u (RErr REndOfRib)
| out_prefix o g a s b : origin_of (ru_origin u) o -> aggregator_of ps (ru_aggr u) g -> prefix_texts u = a ++ s :: b ->
    Forall (fun t => ps_net ps t <> None) a -> ps_net ps s = None -> s <> str "eor" -> outcome ps m u (RErr (RIncorrectPrefix s))
| out_elems o g es fs : origin_of (ru_origin u) o -> aggregator_of ps (ru_aggr u) g ->
    Forall2 (announces ps m u o g) (announced u) es -> Forall2 (withdraws ps m) (withdrawn u) fs -> outcome ps m u (ROk (es ++ fs)).

(** * Raw messages *)
(** Two hexadecimal digits, of either case, for each octet. *)
Inductive hex_char : N -> N -> Prop :=
| hex_dec i : i < 10 -> hex_char (48 + i) i
| hex_low i : i < 6 -> hex_char (97 + i) (10 + i)
| hex_cap i : i < 6 -> hex_char (65 + i) (10 + i).
Inductive hex_text : bytes -> bytes -> Prop :=
| hex_nil : hex_text [] []
| hex_cons c d x y s b : hex_char c x -> hex_char d y -> hex_text s b -> hex_text (c :: d :: s) (x * 16 + y :: b).
(** The message in [raw], read with AS numbers of four octets. *)
Definition raw_message (raw : bytes) (b : bgp_msg) : Prop := exists r, parse_bgp_message false Bits32 raw = Ok (b, r).
(** The document has the BGP message [b] in its field "raw". *)
Definition raw_doc (ps : parsers) (j : json) (m : ris_message) (b : bgp_msg) : Prop :=
  exists d s raw, envelope ps j d m /\ rm_raw m = Some s /\ hex_text s raw /\ raw_message raw b.
(** A number of microseconds as seconds, rounded once: what a timestamp written in decimals
    with six places is read as. *)
Definition micros (n : N) : f64 := f64_div (f64_of_N n) (f64_of_N 1000000).
Definition attributes_of (b : bgp_msg) : attributes := match b with MUpdate v => u_attrs v | _ => Attrs [] [] 0 end.

(** * JSON fields and raw message *)
(** The next hop of the announcements of an UPDATE with the attributes [vs]. *)
Definition hop_is (vs : list attr_value) (h : ip) : Prop :=
  exists reach hop, last_is sel_reach vs reach /\ last_is sel_hop vs hop /\
    match hop, reach with Some x, _ => Some x | None, Some n => option_map nh_addr (nl_next n) | None, None => None end = Some h.
Definition reads_as (ps : parsers) (s : bytes) (p : prefix) : Prop := exists n, ps_net ps s = Some n /\ p = Pfx n None.
(** The fields [u] show the UPDATE [v]: its attributes, one entry per announced prefix, its
    withdrawn prefixes. *)
Definition shows (ps : parsers) (u : ris_update) (v : update_msg) : Prop :=
  let vs := map a_value (at_inner (u_attrs v)) in
  exists reach unreach p p4 o g,
    last_is sel_reach vs reach /\ last_is sel_unreach vs unreach /\ last_is sel_path vs p /\ last_is sel_path4 vs p4 /\
    effective p p4 (ru_path u) /\ last_is sel_origin vs o /\ origin_of (ru_origin u) o /\ last_is sel_aggr vs g /\ aggregator_of ps (ru_aggr u) g /\
    last_is sel_med vs (ru_med u) /\
    flat_map comms_of vs = match ru_comms u with Some l => map (fun p => MPlain (CCustom (fst p) (snd p))) l | None => [] end /\
    Forall (fun x => hop_is vs (fst x)) (announced u) /\
    Forall2 (reads_as ps) (map snd (announced u)) (u_announced v ++ prefixes_of reach) /\
    Forall2 (reads_as ps) (withdrawn u) (u_withdrawn v ++ prefixes_of unreach).
(** [e] of the JSON fields and [e'] of the raw message are the same route; a missing MED is
    zero and a missing list empty. *)
Definition same_route (e e' : elem) : Prop :=
  e_type e = e_type e' /\ e_prefix e = e_prefix e' /\ e_time e = e_time e' /\ e_peer e = e_peer e' /\ e_asn e = e_asn e' /\ e_id e = e_id e' /\
  e_hop e = e_hop e' /\ e_path e = e_path e' /\ e_origin e = e_origin e' /\ e_aggr_asn e = e_aggr_asn e' /\ e_aggr_ip e = e_aggr_ip e' /\
  (match e_comms e with Some l => l | None => [] end) = (match e_comms e' with Some l => l | None => [] end) /\
  match e_type e with Announce => e_med e' = Some (match e_med e with Some x => x | None => 0 end) | Withdraw => e_med e' = e_med e end.
