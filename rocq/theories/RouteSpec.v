(** Vocabulary of the theorems about route-level iteration. *)
From Verif Require Import Base Net AsPath Attr BgpMsg Bgp4mp TableDump Stream Framing MrtRecord Elem ElemSpec Filter FilterSpec Iter IterSpec Route.

(** No AS4_PATH among the attributes. *)
Definition no_as4_path (a : attributes) : Prop := Forall (fun v => sel_path4 v = None) (map a_value (at_inner a)).
(** No complaint about a malformed prefix list of the UPDATE itself. *)
Definition sound_nlri (u : update_msg) : Prop :=
  Forall (fun w => match w with WMalformedNlri _ _ _ => False | _ => True end) (at_warnings (u_attrs u)).
Definition sound_bgp (b : bgp_msg) : Prop := match b with MUpdate u => sound_nlri u | _ => True end.
(** The records, under a peer table, for which the two ways to iterate can be compared: the
    peers of RIB entries are in the table, the prefix lists of UPDATE messages are well
    formed, entries of the old table dump format carry no AS4_PATH. *)
Definition comparable (t : option peer_table) (r : mrt_record) : Prop :=
  match mr_msg r with
  | MrtDump d => no_as4_path (td_attrs d)
  | MrtDumps l => Forall (fun d => no_as4_path (td_attrs d)) l
  | MrtV2 (V2Rib b) =>
      match t with
      | Some t => Forall (fun e => get_peer_by_id t (re_peer e) <> None) (rb_entries b)
      | None => False
      end
  | MrtBgp4mp (MpMessage m) => sound_bgp (mm_bgp m)
  | MrtLegacy (LgMessage m) => sound_bgp (lg_bgp m)
  | _ => True
  end.
(** The two representations of a peer table hold the same peers. *)
Definition same_peers (t : option peer_table) (l : option (list peer)) : Prop :=
  match t, l with
  | None, None => True
  | Some t, Some l => forall id, get_peer_by_id t id = nth_error l (N.to_nat id)
  | _, _ => False
  end.
(** What asking the routes of a record again and again gives: routes, then the end or an error. *)
Inductive drains : route_iter -> list route -> option perr -> Prop :=
| dr_end i i' : rt_next i = Ok (None, i') -> drains i [] None
| dr_err i e : rt_next i = Err e -> drains i [] (Some e)
| dr_some i r i' l e : rt_next i = Ok (Some r, i') -> drains i' l e -> drains i (r :: l) e.
(** The routes and errors of a source, its records being [chunks] of it; [true] marks the errors
    of the framing. *)
Definition ritem := (route + (bool * (perr * option bytes)))%type.
Inductive routes_of : option (list peer) -> list (item raw) -> list ritem -> Prop :=
| ro_end t : routes_of t [] []
| ro_frame t x l o : routes_of t l o -> routes_of t (inr x :: l) (inr (true, x) :: o)
| ro_bad t w e l o : parse_raw_routes w t = Err e -> routes_of t l o ->
    routes_of t (inl w :: l) (inr (false, (e, Some (raw_bytes w))) :: o)
| ro_rec t w i t' rs e l o : parse_raw_routes w t = Ok (i, t') -> drains i rs e -> routes_of t' l o ->
    routes_of t (inl w :: l)
      (map inl rs ++ match e with Some e => [inr (false, (e, Some (raw_bytes w)))] | None => [] end ++ o).
(** What the fallible iterator reports of those. *)
Definition reported (x : ritem) : item route := match x with inl r => inl r | inr (_, e) => inr e end.
(** What the default iterator takes: with core dumps it ends at the first error in a record. *)
Fixpoint usable_routes (core : bool) (l : list ritem) : list route :=
  match l with
  | [] => []
  | inl r :: l' => r :: usable_routes core l'
  | inr (framing, (e, _)) :: l' => if (if framing : bool then stops core e else core) then [] else usable_routes core l'
  end.
(** Sources on which the two ways to iterate are to agree: each record is accepted and
    comparable, or refused without stopping element iteration and without a route. *)
Inductive agreeing : option peer_table -> list (item raw) -> Prop :=
| ag_end t : agreeing t []
| ag_frame t x l : agreeing t l -> agreeing t (inr x :: l)
| ag_rec t w r l : parse_raw w = Ok r -> comparable t r -> agreeing (table_after t r) l -> agreeing t (inl w :: l)
| ag_bad t w e l : parse_raw w = Err e -> stops false e = false ->
    (forall t' i t'' rs eo, parse_raw_routes w t' = Ok (i, t'') -> drains i rs eo -> rs = []) ->
    agreeing t l -> agreeing t (inl w :: l).
