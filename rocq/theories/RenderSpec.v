(** Vocabulary of the theorems about the layered text: a reader of it. *)
From Coq Require Import String.
From Verif Require Import Base Net NetSpec AsPath Community CommunitySpec Mpls Nlri Attr BgpMsg Cap Bgp4mp TableDump Framing MrtRecord Elem Text Psv PsvSpec Render.
Local Open Scope string_scope.
Local Open Scope list_scope.
Local Open Scope N_scope.

(** * Reading the text *)
(** The lines of a text, each ended by a line feed. *)
Definition lines (s : bytes) : list bytes := removelast (split_on 10 s).
Definition unlines (l : list bytes) : bytes := flat_map (fun x => x ++ [10]) l.
(** What follows [p] in [s]. *)
Fixpoint after (p s : bytes) : option bytes :=
  match p, s with
  | [], _ => Some s
  | x :: p', y :: s' => if x =? y then after p' s' else None
  | _ :: _, [] => None
  end.
(** A line [t] below [d] others: two blanks for each. *)
Fixpoint deep (d : nat) (t : bytes) : bytes := match d with O => t | S d' => 32 :: 32 :: deep d' t end.
(** What follows [key] in the first line of depth [d] that begins with it. *)
Fixpoint value (d : nat) (key : string) (ls : list bytes) : option bytes :=
  match ls with
  | [] => None
  | l :: ls' => match after (deep d (str key)) l with Some v => Some v | None => value d key ls' end
  end.
(** The lines at depth [d] or deeper that [ls] begins with. *)
Fixpoint inside (d : nat) (ls : list bytes) : list bytes :=
  match ls with
  | [] => []
  | l :: ls' => match after (deep d []) l with Some t => t :: inside d ls' | None => [] end
  end.
(** The lines under the first heading [head] of depth [d]. *)
Fixpoint under (d : nat) (head : string) (ls : list bytes) : list bytes :=
  match ls with
  | [] => []
  | l :: ls' => if bytes_eqb l (deep d (str head)) then inside (S d) ls' else under d head ls'
  end.
(** The parts of [ls] that follow the lines with [p], each up to the next such line. *)
Fixpoint until (p : bytes -> bool) (ls : list bytes) : list bytes :=
  match ls with [] => [] | l :: ls' => if p l then [] else l :: until p ls' end.
Fixpoint parts (p : bytes -> bool) (ls : list bytes) : list (list bytes) :=
  match ls with [] => [] | l :: ls' => if p l then until p ls' :: parts p ls' else parts p ls' end.
Definition begins (key : string) (l : bytes) : bool := match after (str key) l with Some _ => true | None => false end.
Definition is_line (d : nat) (t : string) (l : bytes) : bool := bytes_eqb l (deep d (str t)).

(** * What is assumed of the texts that are not modelled *)
(** Addresses and numbers are as in C88; nothing has a line feed. *)
Definition one_line (t : bytes) : Prop := ~ In 10 t.
Definition rtexts_ok (T : rtexts) : Prop :=
  shows_ok (rt T) /\ (forall i, one_line (sh_ip (rt T) i)) /\ (forall b, one_line (sh_single (rt T) b)) /\ (forall e, one_line (rt_error T e)) /\ (forall e, one_line (rt_reason T e)) /\
  (forall v, one_line (rt_debug T v)) /\ (forall m k, one_line (rt_key T m k)).

(** * Values the fields of a record can have *)
Definition attr_fine (v : attr_value) : Prop :=
  match v with
  | ANextHop i => ip_ok i
  | AAggregator _ i | AAs4Aggregator _ i | AOriginatorId i => i < 2 ^ 32
  | AExtCommunities l => Forall ext_ok l
  | AIpv6ExtCommunities l => Forall ipv6_ext_ok l
  | ALargeCommunities l => Forall large_ok l
  | AMpReach n => all_opt (fun h => ip_ok (nh_addr h)) (nl_next n) /\ Forall (fun p => net_ok (p_net p)) (nl_prefixes n) /\
      all_opt (Forall (fun p => net_ok (lp_net p))) (nl_labeled n)
  | AMpUnreach n => Forall (fun p => net_ok (p_net p)) (nl_prefixes n)
  | _ => True
  end.
Definition warn_fine (w : warning) : Prop :=
  match w with
  | WFlags c e a => c < 256 /\ e < 256 /\ a < 256
  | WLength c _ _ | WMissing c | WDuplicate c | WPartial c _ | WMalformedList c _ | WOptional c _ => c < 256
  | _ => True
  end.
Definition update_fine (u : update_msg) : Prop :=
  Forall (fun p => net_ok (p_net p)) (u_withdrawn u ++ u_announced u) /\
  Forall attr_fine (values (u_attrs u)) /\ Forall warn_fine (at_warnings (u_attrs u)).

(** * What a record holds *)
Definition message_in (r : mrt_record) : option bgp_msg :=
  match mr_msg r with
  | MrtBgp4mp (MpMessage m) => Some (mm_bgp m) | MrtLegacy (LgMessage m) => Some (lg_bgp m) | _ => None
  end.
Definition update_in (r : mrt_record) : option update_msg := match message_in r with Some (MUpdate u) => Some u | _ => None end.
Definition states_in (r : mrt_record) : option (bgp_state * bgp_state) :=
  match mr_msg r with
  | MrtBgp4mp (MpStateChange m) => Some (ms_old m, ms_new m) | MrtLegacy (LgStateChange m) => Some (ls_old m, ls_new m) | _ => None
  end.
(** The far end of the session, and the near end. *)
Definition from_in (r : mrt_record) : option (ip * asn) :=
  match mr_msg r with
  | MrtBgp4mp (MpStateChange m) => Some (ms_peer m, ms_peer_as m) | MrtBgp4mp (MpMessage m) => Some (mm_peer m, mm_peer_as m)
  | MrtLegacy (LgStateChange m) => Some (ls_peer m, ls_peer_as m) | MrtLegacy (LgMessage m) => Some (lg_peer m, lg_peer_as m)
  | _ => None
  end.
Definition to_in (r : mrt_record) : option (ip * asn) :=
  match mr_msg r with
  | MrtBgp4mp (MpStateChange m) => Some (ms_local m, ms_local_as m) | MrtBgp4mp (MpMessage m) => Some (mm_local m, mm_local_as m)
  | MrtLegacy (LgMessage m) => Some (lg_local m, lg_local_as m)
  | _ => None
  end.
(** The TABLE_DUMP entries of a record. *)
Definition dumps_in (r : mrt_record) : option (list dump) :=
  match mr_msg r with MrtDump m => Some [m] | MrtDumps l => Some l | _ => None end.
(** The routes of multiprotocol attributes. *)
Definition mp_withdrawn (v : attr_value) : list prefix := match v with AMpUnreach n => nl_prefixes n | _ => [] end.
Definition mp_announced (v : attr_value) : list prefix := match v with AMpReach n => nl_prefixes n | _ => [] end.
Definition mp_labeled (v : attr_value) : list labeled := match v with AMpReach n => items (nl_labeled n) | _ => [] end.
Definition ls_routes (v : attr_value) : N := match v with AMpReach n | AMpUnreach n => nlen (items (nl_ls n)) | _ => 0 end.
Definition fs_rules (v : attr_value) : N := match v with AMpReach n | AMpUnreach n => nlen (items (nl_fs n)) | _ => 0 end.
Definition total (f : attr_value -> N) (l : list attr_value) : N := fold_right (fun v n => f v + n) 0 l.

(** * The texts of the parts *)
Definition net_text (T : rtexts) (n : ipnet) : bytes := sh_ip (rt T) (net_addr n) ++ str "/" ++ dec (net_len n).
Definition route_text (T : rtexts) (p : prefix) : bytes := net_text T (p_net p).
Definition labeled_text (T : rtexts) (p : labeled) : bytes :=
  net_text T (lp_net p) ++ str " labels=[" ++ join (str ", ") (map dec (lp_labels p)) ++ str "]" ++
  match lp_id p with Some i => str " path-id " ++ dec i | None => [] end.
Definition end_text (T : rtexts) (x : ip * asn) : bytes := sh_ip (rt T) (fst x) ++ str " AS" ++ dec (snd x).
(** Seconds, or seconds and microseconds, these with six digits or more. *)
Definition time_text (h : header) (t : bytes) : Prop :=
  match h_us h with
  | None => t = dec (h_ts h)
  | Some us => exists z, t = dec (h_ts h) ++ str "." ++ repeat 48 z ++ dec us /\
      (6 <= z + length (dec us))%nat /\ (z = 0%nat \/ z + length (dec us) = 6)%nat
  end.
Definition family_text (a : afi) (s : safi) : bytes := afi_name a ++ str "/" ++ safi_name s.
(** The line of an attribute, as [name: text]. *)
Definition attr_text (T : rtexts) (v : attr_value) : bytes :=
  let is name t := str name ++ str ": " ++ t in
  let spaced l := join (str " ") l in
  let octets n := dec n ++ str " bytes" in
  match v with
  | AOrigin IGP => is "ORIGIN" (str "IGP") | AOrigin EGP => is "ORIGIN" (str "EGP") | AOrigin INCOMPLETE => is "ORIGIN" (str "INCOMPLETE")
  | AAsPath p => is "AS_PATH" (show_path p)
  | AAs4Path p => is "AS4_PATH" (show_path p)
  | ANextHop i => is "NEXT_HOP" (sh_ip (rt T) i)
  | AMed n => is "MULTI_EXIT_DISC" (dec n)
  | ALocalPref n => is "LOCAL_PREF" (dec n)
  | AOtc a => is "ONLY_TO_CUSTOMER" (dec a)
  | AAtomicAggregate => str "ATOMIC_AGGREGATE"
  | AAggregator a i => is "AGGREGATOR" (str "AS" ++ dec a ++ str " by " ++ sh_ip (rt T) (V4 i))
  | AAs4Aggregator a i => is "AS4_AGGREGATOR" (str "AS" ++ dec a ++ str " by " ++ sh_ip (rt T) (V4 i))
  | ACommunities l => is "COMMUNITIES" (spaced (map (fun c => show_meta (rt T) (MPlain c)) l))
  | ALargeCommunities l => is "LARGE_COMMUNITIES" (spaced (map (fun c => show_meta (rt T) (MLarge c)) l))
  | AExtCommunities l => is "EXTENDED_COMMUNITIES" (spaced (map (fun c => show_meta (rt T) (MExtended c)) l))
  | AIpv6ExtCommunities l => is "IPV6_EXTENDED_COMMUNITIES" (spaced (map (fun c => show_meta (rt T) (MIpv6Extended c)) l))
  | AOriginatorId i => is "ORIGINATOR_ID" (sh_ip (rt T) (V4 i))
  | AClusters l => is "CLUSTER_LIST" (spaced (map dec l))
  | AMpReach n => is "MP_REACH_NLRI" (family_text (nl_afi n) (nl_safi n) ++
      match option_map nh_addr (nl_next n) with Some i => str " next-hop " ++ sh_ip (rt T) i | None => [] end)
  | AMpUnreach n => is "MP_UNREACH_NLRI" (family_text (nl_afi n) (nl_safi n))
  | AAigp _ => is "AIGP" (rt_debug T v)
  | ABfd _ => is "BFD_DISCRIMINATOR" (rt_debug T v)
  | ATrafficEng _ => is "TRAFFIC_ENGINEERING" (rt_debug T v)
  | ATunnelEncap _ => is "TUNNEL_ENCAPSULATION" (rt_debug T v)
  | ALinkStateAttr a => is "BGP_LS" (debug_ls T a)
  | APrefixSid _ => is "BGP_PREFIX_SID" (rt_debug T v)
  | ABier _ => is "BIER" (rt_debug T v)
  | ASfp _ => is "SFP" (rt_debug T v)
  | AAttrSet a => is "ATTR_SET" (str "attributes of AS" ++ dec a)
  | ADevelopment b => is "DEVELOPMENT" (octets (nlen b))
  | ARaw c b => str "RAW ATTRIBUTE (type " ++ dec c ++ str "): " ++ octets (nlen b)
  | ADeprecated c b => str "DEPRECATED (type " ++ dec c ++ str "): " ++ octets (nlen b)
  | AUnknown c b => str "UNKNOWN (type " ++ dec c ++ str "): " ++ octets (nlen b)
  end.
(** The line of a capability. *)
Definition cap_text (c : capability) : bytes :=
  cap_name (cap_type c) ++
  match cap_val c with
  | CvMp a s => str ": " ++ family_text a s
  | CvAs4 n => str ": AS" ++ dec n
  | CvAddPath l => str ": " ++ dec (nlen l) ++ str " address families"
  | _ => []
  end.
Definition caps_in (o : open_msg) : list capability :=
  flat_map (fun p => match op_value p with PvCaps l => l | PvRaw _ => [] end) (o_params o).

(** The top line of a message. *)
Definition msg_heading (m : bgp_msg) : string :=
  match m with MOpen _ => "OPEN:" | MUpdate _ => "UPDATE:" | MNotif _ => "NOTIFICATION:" | MKeepAlive => "KEEPALIVE:" | MRefresh _ => "ROUTE_REFRESH:" end.
(** The line of a warning. *)
Definition warn_text (T : rtexts) (w : warning) : bytes :=
  let about what c t := str what ++ atype_name c ++ t in
  match w with
  | WFlags c e a => about "Attribute flags error for " c (str ": expected 0x" ++ low_octet e ++ str ", got 0x" ++ low_octet a)
  | WLength c e a => about "Attribute length error for " c
      (match e with Some n => str ": expected " ++ dec n ++ str ", got " | None => str ": invalid length " end ++ dec a)
  | WMissing c => about "Missing well-known mandatory attribute: " c []
  | WDuplicate c => about "Duplicate attribute: " c []
  | WPartial c e => about "Partial attribute error for " c (str ": " ++ rt_reason T e)
  | WOptional c e => about "Optional attribute error for " c (str ": " ++ rt_reason T e)
  | WMalformedList _ e => str "Malformed attribute list: " ++ rt_reason T e
  | WMalformedNlri a e _ => str (if a then "Malformed NLRI (announced): " else "Malformed NLRI (withdrawn): ") ++ rt_reason T e
  | WRefreshSubtype s => str "Unknown ROUTE-REFRESH message subtype: " ++ dec s
  | WRefreshLength s n => str "Invalid ROUTE-REFRESH message length for subtype " ++ dec s ++ str ": body is " ++ dec n ++ str " bytes, expected 4"
  end.

(** * Names of codes *)
(** Types of MRT records. *)
Definition record_types : list (N * string) :=
  [(0, "NULL"); (1, "START"); (2, "DIE"); (3, "I_AM_DEAD"); (4, "PEER_DOWN"); (5, "BGP"); (6, "RIP"); (7, "IDRP");
   (8, "RIPNG"); (9, "BGP4PLUS"); (10, "BGP4PLUS_01"); (11, "OSPFv2"); (12, "TABLE_DUMP"); (13, "TABLE_DUMP_V2");
   (16, "BGP4MP"); (17, "BGP4MP_ET"); (32, "ISIS"); (33, "ISIS_ET"); (48, "OSPFv3"); (49, "OSPFv3_ET")].
(** Subtypes of BGP4MP. *)
Definition bgp4mp_types : list (N * string) :=
  [(0, "StateChange"); (1, "Message"); (4, "MessageAs4"); (5, "StateChangeAs4"); (6, "MessageLocal");
   (7, "MessageAs4Local"); (8, "MessageAddpath"); (9, "MessageAs4Addpath"); (10, "MessageLocalAddpath");
   (11, "MessageLocalAs4Addpath")].
(** Subtypes of TABLE_DUMP_V2. *)
Definition table_types : list (N * string) :=
  [(1, "PeerIndexTable"); (2, "RibIpv4Unicast"); (3, "RibIpv4Multicast"); (4, "RibIpv6Unicast");
   (5, "RibIpv6Multicast"); (6, "RibGeneric"); (7, "GeoPeerTable"); (8, "RibIpv4UnicastAddPath");
   (9, "RibIpv4MulticastAddPath"); (10, "RibIpv6UnicastAddPath"); (11, "RibIpv6MulticastAddPath");
   (12, "RibGenericAddPath")].
(** Address families, subsequent families. *)
Definition families : list (afi * string) := [(AIpv4, "Ipv4"); (AIpv6, "Ipv6"); (ALinkState, "LinkState")].
Definition subfamilies : list (safi * string) :=
  [(SUnicast, "Unicast"); (SMulticast, "Multicast"); (SMulticastUnicast, "UnicastMulticast"); (SMplsLabel, "MplsLabel");
   (SLinkState, "LinkState"); (SLinkStateVpn, "LinkStateVpn"); (SMplsVpn, "MplsVpn"); (SMulticastVpn, "MulticastVpn");
   (SFlowSpec, "FlowSpec"); (SFlowSpecVpn, "FlowSpecL3Vpn")].
(** An octet in hexadecimal. *)
Definition digit_at (n : N) : N := nth (N.to_nat n) (str "0123456789abcdef") 0.
Definition hexadecimal (b : N) : bytes := [digit_at (b / 16); digit_at (b mod 16)].
(** Codes of capabilities. *)
Definition capabilities : list (N * string) :=
  [(1, "MULTIPROTOCOL_EXTENSIONS_FOR_BGP_4"); (2, "ROUTE_REFRESH_CAPABILITY_FOR_BGP_4");
   (3, "OUTBOUND_ROUTE_FILTERING_CAPABILITY"); (5, "EXTENDED_NEXT_HOP_ENCODING"); (6, "BGP_EXTENDED_MESSAGE");
   (7, "BGPSEC_CAPABILITY"); (8, "MULTIPLE_LABELS_CAPABILITY"); (9, "BGP_ROLE"); (64, "GRACEFUL_RESTART_CAPABILITY");
   (65, "SUPPORT_FOR_4_OCTET_AS_NUMBER_CAPABILITY"); (67, "SUPPORT_FOR_DYNAMIC_CAPABILITY");
   (68, "MULTISESSION_BGP_CAPABILITY"); (69, "ADD_PATH_CAPABILITY"); (70, "ENHANCED_ROUTE_REFRESH_CAPABILITY");
   (71, "LONG_LIVED_GRACEFUL_RESTART_CAPABILITY"); (72, "ROUTING_POLICY_DISTRIBUTION"); (73, "FQDN_CAPABILITY")].
(** Codes of attributes. *)
Definition attribute_types : list (N * string) :=
  [(0, "RESERVED"); (1, "ORIGIN"); (2, "AS_PATH"); (3, "NEXT_HOP"); (4, "MULTI_EXIT_DISCRIMINATOR");
   (5, "LOCAL_PREFERENCE"); (6, "ATOMIC_AGGREGATE"); (7, "AGGREGATOR"); (8, "COMMUNITIES"); (9, "ORIGINATOR_ID");
   (10, "CLUSTER_LIST"); (14, "MP_REACHABLE_NLRI"); (15, "MP_UNREACHABLE_NLRI"); (16, "EXTENDED_COMMUNITIES");
   (17, "AS4_PATH"); (18, "AS4_AGGREGATOR"); (22, "PMSI_TUNNEL"); (23, "TUNNEL_ENCAPSULATION");
   (24, "TRAFFIC_ENGINEERING"); (25, "IPV6_ADDRESS_SPECIFIC_EXTENDED_COMMUNITIES"); (26, "AIGP");
   (27, "PE_DISTINGUISHER_LABELS"); (29, "BGP_LS_ATTRIBUTE"); (32, "LARGE_COMMUNITIES"); (33, "BGPSEC_PATH");
   (35, "ONLY_TO_CUSTOMER"); (37, "SFP_ATTRIBUTE"); (38, "BFD_DISCRIMINATOR"); (40, "BGP_PREFIX_SID"); (41, "BIER");
   (128, "ATTR_SET"); (255, "DEVELOPMENT")].

(** * What a line tells *)
Definition attr_alike (T : rtexts) (v w : attr_value) : Prop :=
  match v, w with
  | AAsPath p, AAsPath q | AAs4Path p, AAs4Path q => walk (Some p) = walk (Some q)
  | AExtCommunities l, AExtCommunities m => Forall2 same_comm (map MExtended l) (map MExtended m)
  | AMpReach a, AMpReach b =>
      nl_afi a = nl_afi b /\ nl_safi a = nl_safi b /\ option_map nh_addr (nl_next a) = option_map nh_addr (nl_next b)
  | AMpUnreach a, AMpUnreach b => nl_afi a = nl_afi b /\ nl_safi a = nl_safi b
  | AAigp _, AAigp _ | ABfd _, ABfd _ | ATrafficEng _, ATrafficEng _ | ATunnelEncap _, ATunnelEncap _ | APrefixSid _, APrefixSid _
  | ABier _, ABier _ | ASfp _, ASfp _ => rt_debug T v = rt_debug T w
  | ALinkStateAttr a, ALinkStateAttr b => debug_ls T a = debug_ls T b
  | ADevelopment a, ADevelopment b => nlen a = nlen b
  | ARaw c a, ARaw d b | ADeprecated c a, ADeprecated d b | AUnknown c a, AUnknown d b => c = d /\ nlen a = nlen b
  | _, _ => v = w
  end.
Definition warn_alike (T : rtexts) (v w : warning) : Prop :=
  match v, w with
  | WPartial c e, WPartial d f | WOptional c e, WOptional d f => c = d /\ rt_reason T e = rt_reason T f
  | WMalformedList _ e, WMalformedList _ f => rt_reason T e = rt_reason T f
  | WMalformedNlri a e _, WMalformedNlri b f _ => a = b /\ rt_reason T e = rt_reason T f
  | _, _ => v = w
  end.
