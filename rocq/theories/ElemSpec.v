(** Vocabulary of the theorems about elements. *)
From Verif Require Import Base Net AsPath Community Nlri Attr BgpMsg Bgp4mp TableDump Stream Framing MrtRecord Elem.

(** [o] is what the last value selected by [f] holds, if one is selected. *)
Definition last_is {A} (f : attr_value -> option A) (l : list attr_value) (o : option A) : Prop :=
  match o with
  | Some a => exists before v after, l = before ++ v :: after /\ f v = Some a /\ Forall (fun x => f x = None) after
  | None => Forall (fun x => f x = None) l
  end.
Definition sel_origin (v : attr_value) := match v with AOrigin x => Some x | _ => None end.
Definition sel_path (v : attr_value) := match v with AAsPath x => Some x | _ => None end.
Definition sel_path4 (v : attr_value) := match v with AAs4Path x => Some x | _ => None end.
Definition sel_hop (v : attr_value) := match v with ANextHop x => Some x | _ => None end.
Definition sel_med (v : attr_value) := match v with AMed x => Some x | _ => None end.
Definition sel_pref (v : attr_value) := match v with ALocalPref x => Some x | _ => None end.
Definition sel_otc (v : attr_value) := match v with AOtc x => Some x | _ => None end.
Definition sel_reach (v : attr_value) := match v with AMpReach x => Some x | _ => None end.
Definition sel_unreach (v : attr_value) := match v with AMpUnreach x => Some x | _ => None end.
Definition sel_aggr (v : attr_value) :=
  match v with AAggregator a i | AAs4Aggregator a i => Some (a, i) | _ => None end.
(** What an attribute contributes to the lists of an element. *)
Definition comms_of (v : attr_value) : list meta_community :=
  match v with
  | ACommunities l => map MPlain l | AExtCommunities l => map MExtended l
  | AIpv6ExtCommunities l => map MIpv6Extended l | ALargeCommunities l => map MLarge l | _ => []
  end.
Definition unknown_of (v : attr_value) := match v with AUnknown c b | ARaw c b => [(c, b)] | _ => [] end.
Definition depr_of (v : attr_value) := match v with ADeprecated c b => [(c, b)] | _ => [] end.
(** A list field of an element: absent instead of empty. *)
Definition opt_list_is {A} (o : option (list A)) (l : list A) : Prop :=
  match o with Some x => x = l /\ x <> [] | None => l = [] end.
(** The path of a route: AS_PATH, AS4_PATH or their RFC 6793 merge (C09). *)
Definition effective (p p4 o : option aspath) : Prop :=
  match p, p4 with
  | Some a, Some b => exists m, merge_aspath_as4path a b = Ok m /\ o = Some m
  | Some a, None | None, Some a => o = Some a
  | None, None => o = None
  end.
(** [e] carries the attributes [vs], its path being [path]. *)
Definition carries (vs : list attr_value) (path : option aspath) (e : elem) : Prop :=
  e_path e = path /\ e_origins e = option_map iter_origins path /\
  last_is sel_origin vs (e_origin e) /\ last_is sel_otc vs (e_otc e) /\
  (exists reach hop, last_is sel_reach vs reach /\ last_is sel_hop vs hop /\
     e_hop e = match hop, reach with
               | Some h, _ => Some h
               | None, Some n => option_map nh_addr (nl_next n)
               | None, None => None
               end) /\
  (exists o, last_is sel_pref vs o /\ e_pref e = Some (match o with Some x => x | None => 0 end)) /\
  (exists o, last_is sel_med vs o /\ e_med e = Some (match o with Some x => x | None => 0 end)) /\
  (exists o, last_is sel_aggr vs o /\ e_aggr_asn e = option_map fst o /\ e_aggr_ip e = option_map snd o) /\
  (e_atomic e = true <-> In AAtomicAggregate vs) /\
  opt_list_is (e_comms e) (flat_map comms_of vs) /\
  opt_list_is (e_unknown e) (flat_map unknown_of vs) /\
  opt_list_is (e_depr e) (flat_map depr_of vs).
(** [e] carries no attributes. *)
Definition bare (e : elem) : Prop :=
  e_hop e = None /\ e_path e = None /\ e_origins e = None /\ e_origin e = None /\ e_pref e = None /\ e_med e = None /\
  e_comms e = None /\ e_atomic e = false /\ e_aggr_asn e = None /\ e_aggr_ip e = None /\ e_otc e = None /\
  e_unknown e = None /\ e_depr e = None.
Definition prefixes_of (o : option nlri) : list prefix := match o with Some n => nl_prefixes n | None => [] end.

(** The elements of an UPDATE: announcements, then withdrawals, each the standard prefixes
    first and the multiprotocol prefixes after them. *)
Definition update_elems (m : update_msg) (t : f64) (pi : ip) (pa : asn) (l : list elem) : Prop :=
  let vs := map a_value (at_inner (u_attrs m)) in
  exists reach unreach p p4 path,
    last_is sel_reach vs reach /\ last_is sel_unreach vs unreach /\
    last_is sel_path vs p /\ last_is sel_path4 vs p4 /\ effective p p4 path /\
    map (fun e => (e_type e, e_prefix e)) l =
      map (pair Announce) (u_announced m ++ prefixes_of reach) ++ map (pair Withdraw) (u_withdrawn m ++ prefixes_of unreach) /\
    Forall (fun e => e_time e = t /\ e_peer e = pi /\ e_asn e = pa /\ e_id e = None /\
                     match e_type e with Announce => carries vs path e | Withdraw => bare e end) l.
(** The element of a RIB entry of [pe] for [p]. *)
Definition rib_elem (p : prefix) (pe : peer) (r : rib_entry) (e : elem) : Prop :=
  let vs := map a_value (at_inner (re_attrs r)) in
  e_type e = Announce /\ e_prefix e = p /\ e_time e = f64_of_N (re_time r) /\
  e_peer e = pe_ip pe /\ e_asn e = pe_asn pe /\ e_id e = Some (pe_id pe) /\
  exists q q4 path, last_is sel_path vs q /\ last_is sel_path4 vs q4 /\ effective q q4 path /\ carries vs path e.
(** The element of a TABLE_DUMP entry; its path is the AS_PATH alone. *)
Definition dump_elem (d : dump) (e : elem) : Prop :=
  let vs := map a_value (at_inner (td_attrs d)) in
  e_type e = Announce /\ e_prefix e = td_prefix d /\ e_time e = f64_of_N (td_time d) /\
  e_peer e = td_peer d /\ e_asn e = td_asn d /\ e_id e = None /\
  exists q, last_is sel_path vs q /\ carries vs q e.
(** The entries up to the first one whose peer the table does not know. *)
Fixpoint known_entries (t : peer_table) (l : list rib_entry) : list (peer * rib_entry) :=
  match l with
  | [] => []
  | e :: l' => match get_peer_by_id t (re_peer e) with Some p => (p, e) :: known_entries t l' | None => [] end
  end.
(** What a record yields. *)
Definition bgp_elems (b : bgp_msg) (t : f64) (pi : ip) (pa : asn) (l : list elem) : Prop :=
  match b with MUpdate u => update_elems u t pi pa l | _ => l = [] end.
Definition record_elems (t : option peer_table) (r : mrt_record) (l : list elem) : Prop :=
  match mr_msg r with
  | MrtDump d => exists e, l = [e] /\ dump_elem d e
  | MrtDumps ds => Forall2 dump_elem ds l
  | MrtV2 (V2Rib b) =>
      match t with
      | Some t => Forall2 (fun x e => rib_elem (rb_prefix b) (fst x) (snd x) e) (known_entries t (rb_entries b)) l
      | None => l = []
      end
  | MrtV2 _ => l = []
  | MrtBgp4mp (MpMessage m) => bgp_elems (mm_bgp m) (record_time (mr_hdr r)) (mm_peer m) (mm_peer_as m) l
  | MrtLegacy (LgMessage m) => bgp_elems (lg_bgp m) (record_time (mr_hdr r)) (lg_peer m) (lg_peer_as m) l
  | MrtBgp4mp (MpStateChange _) | MrtLegacy (LgStateChange _) => l = []
  end.
(** The table in force after a record. *)
Definition table_after (t : option peer_table) (r : mrt_record) : option peer_table :=
  match mr_msg r with MrtV2 (V2Peers p) => Some p | _ => t end.

(** An element after a passage through path attributes: the peer's BGP identifier and the
    ATOMIC_AGGREGATE mark are lost, absent LOCAL_PREF and MED become zero, communities are
    grouped by kind, an aggregator without address gets the address 0.0.0.0. *)
Definition is_plain (c : meta_community) := match c with MPlain _ => true | _ => false end.
Definition is_extended_comm (c : meta_community) := match c with MExtended _ => true | _ => false end.
Definition is_large (c : meta_community) := match c with MLarge _ => true | _ => false end.
Definition is_ipv6_comm (c : meta_community) := match c with MIpv6Extended _ => true | _ => false end.
Definition regroup (l : list meta_community) : list meta_community :=
  filter is_plain l ++ filter is_extended_comm l ++ filter is_large l ++ filter is_ipv6_comm l.
Definition nonempty_opt {A} (o : option (list A)) : option (list A) := match o with Some [] => None | _ => o end.
Definition or_zero (o : option N) : N := match o with Some x => x | None => 0 end.
Definition reread (e : elem) : elem :=
  match e_type e with
  | Withdraw => Elem (e_time e) Withdraw (e_peer e) (e_asn e) None (e_prefix e) None None None None None None None false None None None None None
  | Announce =>
      Elem (e_time e) Announce (e_peer e) (e_asn e) None (e_prefix e) (e_hop e) (e_path e) (option_map iter_origins (e_path e)) (e_origin e)
        (Some (or_zero (e_pref e))) (Some (or_zero (e_med e))) (nonempty_opt (option_map regroup (e_comms e))) false
        (e_aggr_asn e) (option_map (fun _ => or_zero (e_aggr_ip e)) (e_aggr_asn e)) (e_otc e)
        (nonempty_opt (e_unknown e)) (nonempty_opt (e_depr e))
  end.
