(** Layered text of MRT records (/repo/src/render/text.rs), with the texts of validation
    warnings (/repo/src/error.rs), next hops and type names it is made of. *)
From Coq Require Import String.
From Verif Require Import Base Net AsPath Community Mpls Nlri LinkState Tlv Attr BgpError Cap BgpMsg Bgp4mp TableDump Framing MrtRecord Text Psv.
Local Open Scope string_scope.
Local Open Scope list_scope.
Local Open Scope N_scope.

(** What is taken from std and from derived [Debug] code without being modelled: the
    addresses and binary32 numbers (as in Psv.v), [Debug] of a NOTIFICATION's error code, the
    reason texts of warnings, [Debug] of AIGP, BFD, traffic engineering, tunnel, prefix SID,
    BIER and SFP attributes, and the names of the keys of the three BGP-LS maps. *)
Record rtexts := RTexts {
  rt : shows; rt_error : bgp_error -> bytes; rt_reason : perr -> bytes; rt_debug : attr_value -> bytes;
  rt_key : N -> N -> bytes }.

(** text.rs:15 [INDENT], repeated; a line at a depth. *)
Definition pad (d : nat) : bytes := List.concat (repeat (str "  ") d).
Definition ln (d : nat) (t : bytes) : bytes := pad d ++ t ++ [10].

(** * Derived [Debug] of enumerations *)
(** models/mrt/mod.rs:238-265 [EntryType]. *)
Definition etype_name (t : N) : bytes :=
  match t with
  | 0 => str "NULL" | 1 => str "START" | 2 => str "DIE" | 3 => str "I_AM_DEAD" | 4 => str "PEER_DOWN" | 5 => str "BGP"
  | 6 => str "RIP" | 7 => str "IDRP" | 8 => str "RIPNG" | 9 => str "BGP4PLUS" | 10 => str "BGP4PLUS_01" | 11 => str "OSPFv2"
  | 12 => str "TABLE_DUMP" | 13 => str "TABLE_DUMP_V2" | 16 => str "BGP4MP" | 17 => str "BGP4MP_ET" | 32 => str "ISIS"
  | 33 => str "ISIS_ET" | 48 => str "OSPFv3" | 49 => str "OSPFv3_ET" | _ => []
  end.
(** models/mrt/bgp4mp.rs:42-56 [Bgp4MpType]. *)
Definition mp_name (t : N) : bytes :=
  match t with
  | 0 => str "StateChange" | 1 => str "Message" | 4 => str "MessageAs4" | 5 => str "StateChangeAs4" | 6 => str "MessageLocal"
  | 7 => str "MessageAs4Local" | 8 => str "MessageAddpath" | 9 => str "MessageAs4Addpath" | 10 => str "MessageLocalAddpath"
  | 11 => str "MessageLocalAs4Addpath" | _ => []
  end.
(** models/mrt/table_dump_v2.rs:35-51 [TableDumpV2Type]. *)
Definition v2_name (t : N) : bytes :=
  match t with
  | 1 => str "PeerIndexTable" | 2 => str "RibIpv4Unicast" | 3 => str "RibIpv4Multicast" | 4 => str "RibIpv6Unicast"
  | 5 => str "RibIpv6Multicast" | 6 => str "RibGeneric" | 7 => str "GeoPeerTable" | 8 => str "RibIpv4UnicastAddPath"
  | 9 => str "RibIpv4MulticastAddPath" | 10 => str "RibIpv6UnicastAddPath" | 11 => str "RibIpv6MulticastAddPath"
  | 12 => str "RibGenericAddPath" | _ => []
  end.
(** models/mrt/bgp4mp.rs:10-22 [BgpState]. *)
Definition state_name (s : bgp_state) : bytes :=
  match s with
  | StIdle => str "Idle" | StConnect => str "Connect" | StActive => str "Active" | StOpenSent => str "OpenSent"
  | StOpenConfirm => str "OpenConfirm" | StEstablished => str "Established" | StClearing => str "Clearing" | StDeleted => str "Deleted"
  end.
(** models/network/afi.rs:19-27 [Afi], 39-66 [Safi]. *)
Definition afi_name (a : afi) : bytes :=
  match a with AIpv4 => str "Ipv4" | AIpv6 => str "Ipv6" | ALinkState => str "LinkState" end.
Definition safi_name (s : safi) : bytes :=
  match s with
  | SUnicast => str "Unicast" | SMulticast => str "Multicast" | SMulticastUnicast => str "UnicastMulticast" | SMplsLabel => str "MplsLabel"
  | SLinkState => str "LinkState" | SLinkStateVpn => str "LinkStateVpn" | SMplsVpn => str "MplsVpn" | SMulticastVpn => str "MulticastVpn"
  | SFlowSpec => str "FlowSpec" | SFlowSpecVpn => str "FlowSpecL3Vpn"
  end.
(** models/bgp/capabilities.rs:32-57 [BgpCapabilityType]. *)
Definition cap_name (t : N) : bytes :=
  match t with
  | 1 => str "MULTIPROTOCOL_EXTENSIONS_FOR_BGP_4" | 2 => str "ROUTE_REFRESH_CAPABILITY_FOR_BGP_4"
  | 3 => str "OUTBOUND_ROUTE_FILTERING_CAPABILITY" | 5 => str "EXTENDED_NEXT_HOP_ENCODING" | 6 => str "BGP_EXTENDED_MESSAGE"
  | 7 => str "BGPSEC_CAPABILITY" | 8 => str "MULTIPLE_LABELS_CAPABILITY" | 9 => str "BGP_ROLE" | 64 => str "GRACEFUL_RESTART_CAPABILITY"
  | 65 => str "SUPPORT_FOR_4_OCTET_AS_NUMBER_CAPABILITY" | 67 => str "SUPPORT_FOR_DYNAMIC_CAPABILITY"
  | 68 => str "MULTISESSION_BGP_CAPABILITY" | 69 => str "ADD_PATH_CAPABILITY" | 70 => str "ENHANCED_ROUTE_REFRESH_CAPABILITY"
  | 71 => str "LONG_LIVED_GRACEFUL_RESTART_CAPABILITY" | 72 => str "ROUTING_POLICY_DISTRIBUTION" | 73 => str "FQDN_CAPABILITY"
  | n => str "Unknown(" ++ dec n ++ str ")"
  end.
(** models/bgp/attributes/mod.rs:62-109 [AttrType]. *)
Definition atype_name (c : N) : bytes :=
  match c with
  | 0 => str "RESERVED" | 1 => str "ORIGIN" | 2 => str "AS_PATH" | 3 => str "NEXT_HOP" | 4 => str "MULTI_EXIT_DISCRIMINATOR"
  | 5 => str "LOCAL_PREFERENCE" | 6 => str "ATOMIC_AGGREGATE" | 7 => str "AGGREGATOR" | 8 => str "COMMUNITIES" | 9 => str "ORIGINATOR_ID"
  | 10 => str "CLUSTER_LIST" | 14 => str "MP_REACHABLE_NLRI" | 15 => str "MP_UNREACHABLE_NLRI" | 16 => str "EXTENDED_COMMUNITIES"
  | 17 => str "AS4_PATH" | 18 => str "AS4_AGGREGATOR" | 22 => str "PMSI_TUNNEL" | 23 => str "TUNNEL_ENCAPSULATION"
  | 24 => str "TRAFFIC_ENGINEERING" | 25 => str "IPV6_ADDRESS_SPECIFIC_EXTENDED_COMMUNITIES" | 26 => str "AIGP"
  | 27 => str "PE_DISTINGUISHER_LABELS" | 29 => str "BGP_LS_ATTRIBUTE" | 32 => str "LARGE_COMMUNITIES" | 33 => str "BGPSEC_PATH"
  | 35 => str "ONLY_TO_CUSTOMER" | 37 => str "SFP_ATTRIBUTE" | 38 => str "BFD_DISCRIMINATOR" | 40 => str "BGP_PREFIX_SID"
  | 41 => str "BIER" | 128 => str "ATTR_SET" | 255 => str "DEVELOPMENT"
  | n => str "Unknown(" ++ dec n ++ str ")"
  end.

(** * Leaves *)
(** [{:02x}] of an octet. *)
Definition low_digit (n : N) : N := if n <? 10 then 48 + n else 87 + n.
Definition low_octet (b : N) : bytes := [low_digit (b / 16); low_digit (b mod 16)].
(** [{:06}] of a number. *)
Definition six (n : N) : bytes := repeat 48 (6 - length (dec n)) ++ dec n.
(** error.rs:301-354 [Display for BgpValidationWarning], for the warnings that are built. *)
Definition show_warning (T : rtexts) (w : warning) : bytes :=
  match w with
  | WFlags c e a => str "Attribute flags error for " ++ atype_name c ++ str ": expected 0x" ++ low_octet e ++ str ", got 0x" ++ low_octet a
  | WLength c (Some e) a => str "Attribute length error for " ++ atype_name c ++ str ": expected " ++ dec e ++ str ", got " ++ dec a
  | WLength c None a => str "Attribute length error for " ++ atype_name c ++ str ": invalid length " ++ dec a
  | WMissing c => str "Missing well-known mandatory attribute: " ++ atype_name c
  | WDuplicate c => str "Duplicate attribute: " ++ atype_name c
  | WPartial c e => str "Partial attribute error for " ++ atype_name c ++ str ": " ++ rt_reason T e
  | WMalformedList _ e => str "Malformed attribute list: " ++ rt_reason T e
  | WOptional c e => str "Optional attribute error for " ++ atype_name c ++ str ": " ++ rt_reason T e
  | WMalformedNlri a e _ => str "Malformed NLRI (" ++ (if a then str "announced" else str "withdrawn") ++ str "): " ++ rt_reason T e
  | WRefreshSubtype s => str "Unknown ROUTE-REFRESH message subtype: " ++ dec s
  | WRefreshLength s n => str "Invalid ROUTE-REFRESH message length for subtype " ++ dec s ++ str ": body is " ++ dec n ++ str " bytes, expected 4"
  end.
(** models/network/nexthop.rs:89-99 [Display for NextHopAddress]. *)
Definition show_hop (T : shows) (n : nexthop) : bytes :=
  match n with
  | NH4 a => sh_ip T (V4 a) | NH6 a => sh_ip T (V6 a) | NH6L a _ => sh_ip T (V6 a)
  | NHVpn _ a => sh_ip T (V6 a) | NHVpnL _ a _ _ => sh_ip T (V6 a)
  end.
(** linkstate.rs:293-301 derived [Debug for LinkStateAttribute], 175-180 [Debug for Tlv]; a
    [HashMap] prints its bindings in the order it iterates over them. *)
Definition debug_octets (b : bytes) : bytes := str "[" ++ join (str ", ") (map dec b) ++ str "]".
Definition debug_kmap (name : N -> bytes) (m : kmap) : bytes :=
  str "{" ++ join (str ", ") (map (fun kv => name (fst kv) ++ str ": " ++ debug_octets (snd kv)) m) ++ str "}".
Definition debug_tlv (t : tlv) : bytes :=
  str "Tlv { tlv_type: " ++ dec (t_type t) ++ str ", value: " ++ debug_octets (t_value t) ++ str " }".
Definition debug_ls (T : rtexts) (a : ls_attr) : bytes :=
  str "LinkStateAttribute { node_attributes: " ++ debug_kmap (rt_key T 0) (la_node a) ++
  str ", link_attributes: " ++ debug_kmap (rt_key T 1) (la_link a) ++
  str ", prefix_attributes: " ++ debug_kmap (rt_key T 2) (la_prefix a) ++
  str ", unknown_attributes: [" ++ join (str ", ") (map debug_tlv (la_unknown a)) ++ str "] }".

(** * Attributes *)
(** text.rs:259-330 [render_attribute] (it is always [Some]); the contents of an ATTR_SET are
    not printed. *)
Definition spaced {A} (f : A -> bytes) (l : list A) : bytes := join (str " ") (map f l).
Definition sized (n : N) : bytes := dec n ++ str " bytes".
Definition render_attribute (T : rtexts) (v : attr_value) : bytes :=
  match v with
  | AOrigin o => str "ORIGIN: " ++ show_origin o
  | AAsPath p => str "AS_PATH: " ++ show_path p
  | AAs4Path p => str "AS4_PATH: " ++ show_path p
  | ANextHop i => str "NEXT_HOP: " ++ sh_ip (rt T) i
  | AMed n => str "MULTI_EXIT_DISC: " ++ dec n
  | ALocalPref n => str "LOCAL_PREF: " ++ dec n
  | AOtc a => str "ONLY_TO_CUSTOMER: " ++ show_asn a
  | AAtomicAggregate => str "ATOMIC_AGGREGATE"
  | AAggregator a i => str "AGGREGATOR: AS" ++ show_asn a ++ str " by " ++ sh_ip (rt T) (V4 i)
  | AAs4Aggregator a i => str "AS4_AGGREGATOR: AS" ++ show_asn a ++ str " by " ++ sh_ip (rt T) (V4 i)
  | ACommunities l => str "COMMUNITIES: " ++ spaced show_community l
  | ALargeCommunities l => str "LARGE_COMMUNITIES: " ++ spaced show_large l
  | AExtCommunities l => str "EXTENDED_COMMUNITIES: " ++ spaced (show_ext (rt T)) l
  | AIpv6ExtCommunities l => str "IPV6_EXTENDED_COMMUNITIES: " ++ spaced (show_ipv6_ext (rt T)) l
  | AOriginatorId i => str "ORIGINATOR_ID: " ++ sh_ip (rt T) (V4 i)
  | AClusters l => str "CLUSTER_LIST: " ++ spaced dec l
  | AMpReach n => str "MP_REACH_NLRI: " ++ afi_name (nl_afi n) ++ str "/" ++ safi_name (nl_safi n) ++
      match nl_next n with Some h => str " next-hop " ++ show_hop (rt T) h | None => [] end
  | AMpUnreach n => str "MP_UNREACH_NLRI: " ++ afi_name (nl_afi n) ++ str "/" ++ safi_name (nl_safi n)
  | AAigp _ => str "AIGP: " ++ rt_debug T v
  | ABfd _ => str "BFD_DISCRIMINATOR: " ++ rt_debug T v
  | ATrafficEng _ => str "TRAFFIC_ENGINEERING: " ++ rt_debug T v
  | ATunnelEncap _ => str "TUNNEL_ENCAPSULATION: " ++ rt_debug T v
  | ALinkStateAttr a => str "BGP_LS: " ++ debug_ls T a
  | APrefixSid _ => str "BGP_PREFIX_SID: " ++ rt_debug T v
  | ABier _ => str "BIER: " ++ rt_debug T v
  | ASfp _ => str "SFP: " ++ rt_debug T v
  | AAttrSet a => str "ATTR_SET: attributes of AS" ++ show_asn a
  | ADevelopment b => str "DEVELOPMENT: " ++ sized (nlen b)
  | ARaw c b => str "RAW ATTRIBUTE (type " ++ dec c ++ str "): " ++ sized (nlen b)
  | ADeprecated c b => str "DEPRECATED (type " ++ dec c ++ str "): " ++ sized (nlen b)
  | AUnknown c b => str "UNKNOWN (type " ++ dec c ++ str "): " ++ sized (nlen b)
  end.
(** A heading and the lines under it, if there are any. *)
Definition section_out (d : nat) (head : bytes) (l : list bytes) : bytes :=
  match l with [] => [] | _ => ln d head ++ flat_map (ln (S d)) l end.
(** text.rs:394-415 [render_attributes_block]. *)
Definition render_attributes_block (T : rtexts) (d : nat) (a : attributes) : bytes :=
  section_out d (str "ATTRIBUTES:") (map (fun x => render_attribute T (a_value x)) (at_inner a)) ++
  section_out d (str "WARNINGS:") (map (show_warning T) (at_warnings a)).

(** * Messages *)
(** text.rs:170-257 [render_update]; 214-236 a labelled route. *)
Definition show_labeled (T : rtexts) (p : labeled) : bytes :=
  show_net (rt T) (lp_net p) ++ str " labels=[" ++ join (str ", ") (map dec (lp_labels p)) ++ str "]" ++
  match lp_id p with Some i => str " path-id " ++ dec i | None => [] end.
(** text.rs:175-198: the multiprotocol routes of the attributes, in their order. *)
Record gathered := Gathered {
  g_withdrawn : list prefix; g_announced : list prefix; g_labeled : list labeled; g_ls : N; g_fs : N }.
Definition opt_len {A} (o : option (list A)) : N := match o with Some l => nlen l | None => 0 end.
Definition opt_items {A} (o : option (list A)) : list A := match o with Some l => l | None => [] end.
Fixpoint gather (g : gathered) (l : list attribute) : gathered :=
  match l with
  | [] => g
  | a :: l' =>
      gather match a_value a with
             | AMpUnreach n => Gathered (g_withdrawn g ++ nl_prefixes n) (g_announced g) (g_labeled g)
                                 (g_ls g + opt_len (nl_ls n)) (g_fs g + opt_len (nl_fs n))
             | AMpReach n => Gathered (g_withdrawn g) (g_announced g ++ nl_prefixes n) (g_labeled g ++ opt_items (nl_labeled n))
                               (g_ls g + opt_len (nl_ls n)) (g_fs g + opt_len (nl_fs n))
             | _ => g
             end l'
  end.
Definition render_update (T : rtexts) (u : update_msg) : bytes :=
  let g := gather (Gathered (u_withdrawn u) (u_announced u) [] 0 0) (at_inner (u_attrs u)) in
  section_out 1 (str "WITHDRAWN:") (map (show_prefix (rt T)) (g_withdrawn g)) ++
  section_out 1 (str "ANNOUNCED:") (map (show_prefix (rt T)) (g_announced g)) ++
  section_out 1 (str "ANNOUNCED (labeled):") (map (show_labeled T) (g_labeled g)) ++
  (if 0 <? g_ls g then ln 1 (str "LINK_STATE_NLRI: " ++ dec (g_ls g) ++ str " entries (BGP-LS)") else []) ++
  (if 0 <? g_fs g then ln 1 (str "FLOWSPEC_NLRI: " ++ dec (g_fs g) ++ str " rules (RFC 8955)") else []) ++
  section_out 1 (str "ATTRIBUTES:") (map (fun x => render_attribute T (a_value x)) (at_inner (u_attrs u))) ++
  section_out 1 (str "WARNINGS:") (map (show_warning T) (at_warnings (u_attrs u))).
(** text.rs:155-168 [capability_summary]. *)
Definition capability_summary (c : capability) : bytes :=
  match cap_val c with
  | CvMp a s => cap_name (cap_type c) ++ str ": " ++ afi_name a ++ str "/" ++ safi_name s
  | CvAs4 n => cap_name (cap_type c) ++ str ": AS" ++ dec n
  | CvAddPath l => cap_name (cap_type c) ++ str ": " ++ dec (nlen l) ++ str " address families"
  | _ => cap_name (cap_type c)
  end.
Definition param_caps (p : opt_param) : list capability := match op_value p with PvCaps l => l | PvRaw _ => [] end.
(** text.rs:110-153 [render_bgp_message]. *)
Definition render_bgp_message (T : rtexts) (m : bgp_msg) : bytes :=
  match m with
  | MOpen o =>
      ln 0 (str "OPEN:") ++ ln 1 (str "VERSION: " ++ dec (o_version o)) ++ ln 1 (str "MY_AS: " ++ show_asn (o_asn o)) ++
      ln 1 (str "HOLD_TIME: " ++ dec (o_hold o) ++ str "s") ++ ln 1 (str "BGP_ID: " ++ sh_ip (rt T) (V4 (o_id o))) ++
      match o_params o with
      | [] => []
      | ps => ln 1 (str "CAPABILITIES:") ++ flat_map (fun p => flat_map (fun c => ln 2 (capability_summary c)) (param_caps p)) ps
      end
  | MUpdate u => ln 0 (str "UPDATE:") ++ render_update T u
  | MNotif n => ln 0 (str "NOTIFICATION:") ++
      ln 1 (str "ERROR: " ++ rt_error T (nt_error n) ++ str " (" ++ dec (nlen (nt_data n)) ++ str " bytes of data)")
  | MKeepAlive => ln 0 (str "KEEPALIVE:")
  | MRefresh r => ln 0 (str "ROUTE_REFRESH:") ++
      ln 1 (str "AFI: " ++ dec (rf_afi r) ++ str " SAFI: " ++ dec (rf_safi r) ++ str " SUBTYPE: " ++ dec (rf_subtype r))
  end.

(** * Records *)
Definition show_end (T : rtexts) (i : ip) (a : asn) : bytes := sh_ip (rt T) i ++ str " AS" ++ show_asn a.
Definition render_states (o n : bgp_state) : bytes :=
  ln 0 (str "STATE_CHANGE:") ++ ln 1 (str "OLD_STATE: " ++ state_name o) ++ ln 1 (str "NEW_STATE: " ++ state_name n).
(** text.rs:87-108 [render_bgp4mp]. *)
Definition render_bgp4mp (T : rtexts) (m : bgp4mp) : bytes :=
  match m with
  | MpStateChange m =>
      ln 0 (str "FROM: " ++ show_end T (ms_peer m) (ms_peer_as m)) ++ ln 0 (str "TO: " ++ show_end T (ms_local m) (ms_local_as m)) ++
      render_states (ms_old m) (ms_new m)
  | MpMessage m =>
      ln 0 (str "FROM: " ++ show_end T (mm_peer m) (mm_peer_as m)) ++ ln 0 (str "TO: " ++ show_end T (mm_local m) (mm_local_as m)) ++
      render_bgp_message T (mm_bgp m)
  end.
(** text.rs:58-78 [render_legacy_bgp]. *)
Definition render_legacy (T : rtexts) (m : legacy) : bytes :=
  match m with
  | LgMessage m =>
      ln 0 (str "FROM: " ++ show_end T (lg_peer m) (lg_peer_as m)) ++ ln 0 (str "TO: " ++ show_end T (lg_local m) (lg_local_as m)) ++
      render_bgp_message T (lg_bgp m)
  | LgStateChange m =>
      ln 0 (str "FROM: " ++ show_end T (ls_peer m) (ls_peer_as m)) ++ render_states (ls_old m) (ls_new m)
  end.
(** text.rs:332-338 [render_table_dump]. *)
Definition render_dump (T : rtexts) (m : dump) : bytes :=
  ln 0 (str "RIB_ENTRY:") ++ ln 1 (str "PREFIX: " ++ show_prefix (rt T) (td_prefix m)) ++
  ln 1 (str "PEER: " ++ show_end T (td_peer m) (td_asn m)) ++ ln 1 (str "ORIGINATED: " ++ dec (td_time m)) ++
  render_attributes_block T 1 (td_attrs m).
(** [sort_by_key] on the numbers of the peers. *)
Fixpoint sort_in (x : N * peer) (l : list (N * peer)) : list (N * peer) :=
  match l with [] => [x] | y :: l' => if fst x <=? fst y then x :: l else y :: sort_in x l' end.
Fixpoint sort_peers (l : list (N * peer)) : list (N * peer) :=
  match l with [] => [] | x :: l' => sort_in x (sort_peers l') end.
(** text.rs:340-392 [render_table_dump_v2].  Simplified: a generic entry has no contents in
    the model (no reader gives one); its line is the heading alone. *)
Definition render_rib_entry (T : rtexts) (e : rib_entry) : bytes :=
  ln 1 (str "RIB_ENTRY:") ++ ln 2 (str "PEER_INDEX: " ++ dec (re_peer e)) ++ ln 2 (str "ORIGINATED: " ++ dec (re_time e)) ++
  render_attributes_block T 2 (re_attrs e).
Definition render_dump_v2 (T : rtexts) (m : dump_v2) : bytes :=
  match m with
  | V2Peers t =>
      ln 0 (str "PEER_INDEX_TABLE: " ++ dec (nlen (pt_peers t)) ++ str " peers") ++
      flat_map (fun x => ln 1 (str "PEER[" ++ dec (fst x) ++ str "]: " ++ show_end T (pe_ip (snd x)) (pe_asn (snd x)))) (sort_peers (pt_peers t))
  | V2Rib r =>
      ln 0 (str "RIB_AFI: " ++ v2_name (rb_type r) ++ str " PREFIX: " ++ show_prefix (rt T) (rb_prefix r) ++ str " (" ++
            dec (nlen (rb_entries r)) ++ str " entries)") ++
      flat_map (render_rib_entry T) (rb_entries r)
  | V2Generic => ln 0 (str "RIB_GENERIC:")
  | V2Geo t => ln 0 (str "GEO_PEER_TABLE: " ++ dec (nlen (gt_peers t)) ++ str " peers")
  end.
(** text.rs:80-85 [entry_subtype_name]. *)
Definition subtype_name (r : mrt_record) : bytes :=
  match mr_msg r with MrtBgp4mp m => mp_name (mp_type m) | _ => dec (h_sub (mr_hdr r)) end.
(** text.rs:30-56 [format_record], 20-24 [format_record_with_hex]. *)
Definition format_record (T : rtexts) (r : mrt_record) : bytes :=
  ln 0 (str "TIME: " ++ match h_us (mr_hdr r) with Some us => dec (h_ts (mr_hdr r)) ++ str "." ++ six us | None => dec (h_ts (mr_hdr r)) end) ++
  ln 0 (str "TYPE: " ++ etype_name (h_type (mr_hdr r)) ++ str "/" ++ subtype_name r) ++
  match mr_msg r with
  | MrtBgp4mp m => render_bgp4mp T m
  | MrtLegacy m => render_legacy T m
  | MrtDump m => render_dump T m
  | MrtDumps l => ln 0 (str "TABLE_DUMP: " ++ dec (nlen l) ++ str " entries") ++ flat_map (render_dump T) l
  | MrtV2 m => render_dump_v2 T m
  end.
Definition format_record_with_hex (T : rtexts) (r : mrt_record) (hex : bytes) : bytes :=
  format_record T r ++ ln 1 (str "HEX: " ++ hex).
