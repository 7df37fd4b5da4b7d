(** Vocabulary of the theorems about diagnostic iteration. *)
From Verif Require Import Base Net AsPath Attr BgpMsg Bgp4mp TableDump Stream Framing MrtRecord Iter IterSpec Dissect DissectSpec Diagnostic.

(** ** What the events are *)
(** The path attribute blocks of a record, and its ROUTE-REFRESH messages. *)
Definition message_of (m : mrt_message) : option bgp_msg :=
  match m with
  | MrtBgp4mp (MpMessage x) => Some (mm_bgp x)
  | MrtLegacy (LgMessage x) => Some (lg_bgp x)
  | _ => None
  end.
Definition blocks (m : mrt_message) : list attributes :=
  match m with
  | MrtDump x => [td_attrs x]
  | MrtDumps l => map td_attrs l
  | MrtV2 (V2Rib b) => map re_attrs (rb_entries b)
  | _ => match message_of m with Some (MUpdate u) => [u_attrs u] | _ => [] end
  end.
Definition refreshes (m : mrt_message) : list refresh_msg := match message_of m with Some (MRefresh x) => [x] | _ => [] end.
(** All that was found wrong in a record that could be parsed. *)
Definition findings (m : mrt_message) : list warning := flat_map at_warnings (blocks m) ++ flat_map refresh_warnings (refreshes m).
(** The header at the start of some octets, if there is a whole one. *)
Definition header_in (b : bytes) : option header := match parse_common_header_s [Data b] with HOk h _ _ => Some h | HErr _ _ _ => None end.
(** A tree over some octets: its root covers them all, and all its nodes are right. *)
Definition tree_over (b : bytes) (t : node) : Prop :=
  dissect_mrt_bytes b = Ok t /\ nd_field t = F "mrt" /\ nd_off t = 0 /\ nd_len t = nlen b /\ all_nodes (node_ok b) t.
(** The event for what framing gives. *)
Inductive event_of : item raw -> event -> Prop :=
| eo_record r m : parse_raw r = Ok m -> event_of (inl r) (DRecord m r (findings (mr_msg m)))
| eo_body r e t : parse_raw r = Err e -> tree_over (raw_bytes r) t -> header_in (raw_bytes r) = Some (r_hdr r) ->
    event_of (inl r) (DError e (Some (r_hdr r)) (Some (raw_bytes r)) (Some t))
| eo_frame e b t : tree_over b t -> event_of (inr (e, Some b)) (DError e (header_in b) (Some b) (Some t)).
(** The list up to the first error, which is included. *)
Fixpoint through_error {A} (l : list (item A)) : list (item A) :=
  match l with [] => [] | inl a :: l' => inl a :: through_error l' | inr x :: _ => [inr x] end.
(** The octets of an event. *)
Definition event_octets (e : event) : bytes :=
  match e with DRecord _ r _ => raw_bytes r | DError _ _ (Some b) _ => b | DError _ _ None _ => [] end.
(** The event as the fallible iterators have it. *)
Definition as_item (e : event) : item mrt_record := match e with DRecord m _ _ => inl m | DError e _ c _ => inr (e, c) end.
Definition framed {A} (x : item A) : Prop := match x with inl _ => True | inr _ => False end.
(** The event with the tree added. *)
Inductive with_tree : event -> dissected -> Prop :=
| wt_record m r ws sws t : tree_over (raw_bytes r) t -> map snd sws = ws -> with_tree (DRecord m r ws) (XRecord m r sws t)
| wt_error e h c x : with_tree (DError e h c x) (XError e h c x).

(** ** Where the findings are *)
Definition within (b : bytes) (s : span) : Prop := fst s + snd s <= nlen b.
(** The span of a section, of the whole if there is none. *)
Definition span_of (t : node) (name : string) : span := match named (F name) t with n :: _ => nd_span n | [] => nd_span t end.
(** How the attributes of an UPDATE in a record of this subtype are read. *)
Definition record_cfg (st : N) : acfg := ACfg (if as4_subtype st then Bits32 else Bits16) (path_subtype st) None None None.
(** Where a finding about this attribute is: at it, but an error in the value of one of the
    attributes every route has is one of the list. *)
Definition place (t k : node) (w : warning) : span :=
  match w with WMalformedList _ _ => span_of t "bgp.update.path_attributes" | _ => nd_span k end.
(** What is found about an attribute, given the attributes before it: what is found when it
    stands alone, and that it is a duplicate. *)
Definition own_findings (cfg : acfg) (data : bytes) (before : list node) (k : node) (ws : list warning) : Prop :=
  exists c a, nd_field k = FAttr c /\ parse_attributes cfg (under data k) = Ok a /\
    ws = (if existsb (fun n => field_eqb (nd_field n) (FAttr c)) before then [WDuplicate c] else []) ++ at_warnings a.
Fixpoint all_findings (cfg : acfg) (data : bytes) (before : list node) (gs : list (node * list warning)) : Prop :=
  match gs with [] => True | (k, ws) :: gs' => own_findings cfg data before k ws /\ all_findings cfg data (before ++ [k]) gs' end.
(** Findings about the message as a whole, and their places: the attribute section for an
    attribute that is missing, the prefixes for those that cannot be read. *)
Definition wide_place (t : node) (w : warning) : span :=
  match w with
  | WMalformedNlri true _ _ => span_of t "bgp.update.nlri"
  | WMalformedNlri false _ _ => span_of t "bgp.update.withdrawn_routes"
  | _ => span_of t "bgp.update.path_attributes"
  end.
Definition wide (data : bytes) (t : node) (w : warning) : Prop :=
  match w with
  | WMissing _ => True
  | WMalformedNlri announced _ b =>
      map (under data) (named (F (if announced then "bgp.update.nlri" else "bgp.update.withdrawn_routes")) t) = [b]
  | _ => False
  end.
