(** JSON forms of NLRI, path attributes and BGP messages (the serde implementations and derives
    in /repo/src/models/bgp, /repo/src/models/network).  As in Json.v, a JSON value is a tree, and
    of the encodings a derived reader accepts the one that is written is modelled. *)
From Coq Require Import String.
From Verif Require Import Base Net AsPath Community Mpls FlowSpec Tlv LinkState Nlri Attr Cap BgpError BgpMsg Elem Text Filter TextDump Json.
Local Open Scope string_scope. Local Open Scope list_scope. Local Open Scope N_scope.

(** * Derived forms *)
Definition ser_list {A} (f : A -> json) (l : list A) : json := JList (map f l).
(** Variants with a payload: an object with one key. *)
Definition tagged (k : string) (v : json) : json := jobj [(k, v)].
Fixpoint lookup {A} (k : bytes) (table : list (string * A)) : option A :=
  match table with [] => None | (n, a) :: t => if bytes_eqb k (str n) then Some a else lookup k t end.
Definition de_variant {A} (table : list (string * (json -> option A))) (j : json) : option A :=
  '(k, v) <<- de_tag j ;; f <<- lookup k table ;; f v.
(** Variants without payload: a text. *)
Definition ser_unit {A} (name : A -> string) (a : A) : json := JText (str (name a)).
Definition de_unit {A} (name : A -> string) (all : list A) (j : json) : option A :=
  s <<- de_text j ;; find (fun a => bytes_eqb s (str (name a))) all.
(** Enumerations represented by their discriminants: the names of the discriminants. *)
Definition code_name (names : list (N * string)) (n : N) : string :=
  match find (fun p => fst p =? n) names with Some p => snd p | None => "" end.
Definition ser_code (names : list (N * string)) : N -> json := ser_unit (code_name names).
Definition de_code (names : list (N * string)) : json -> option N := de_unit (code_name names) (map fst names).
(** [u64]; [Vec<u8>] and [Bytes]. *)
Definition de_u64 : json -> option N := de_num (2 ^ 64).
Definition de_u32 : json -> option N := de_num (2 ^ 32).
Definition de_u16 : json -> option N := de_num (2 ^ 16).
Definition de_octets : json -> option bytes := de_list de_byte.
(** Tuples of two. *)
Definition de_pair {A B} (f : json -> option A) (g : json -> option B) (j : json) : option (A * B) :=
  match j with JList [x; y] => a <<- f x ;; b <<- g y ;; Some (a, b) | _ => None end.

(** * NLRI *)
(** network/afi.rs:9-16 [Afi], 39-67 [Safi]. *)
Definition afi_text (a : afi) : string := match a with AIpv4 => "Ipv4" | AIpv6 => "Ipv6" | ALinkState => "LinkState" end.
Definition ser_afi : afi -> json := ser_unit afi_text.
Definition de_afi : json -> option afi := de_unit afi_text [AIpv4; AIpv6; ALinkState].
Definition safi_text (s : safi) : string :=
  match s with
  | SUnicast => "Unicast" | SMulticast => "Multicast" | SMulticastUnicast => "UnicastMulticast" | SMplsLabel => "MplsLabel"
  | SLinkState => "LinkState" | SLinkStateVpn => "LinkStateVpn" | SMplsVpn => "MplsVpn" | SMulticastVpn => "MulticastVpn"
  | SFlowSpec => "FlowSpec" | SFlowSpecVpn => "FlowSpecL3Vpn"
  end.
Definition ser_safi : safi -> json := ser_unit safi_text.
Definition de_safi : json -> option safi :=
  de_unit safi_text [SUnicast; SMulticast; SMulticastUnicast; SMplsLabel; SLinkState; SLinkStateVpn; SMplsVpn; SMulticastVpn; SFlowSpec; SFlowSpecVpn].
(** network/nexthop.rs:6-9 [RouteDistinguisher]: its eight octets. *)
Definition ser_rd (n : N) : json := ser_bytes (be 8 n).
Definition de_rd (j : json) : option N := b <<- de_array 8 de_byte j ;; Some (be_val b).
(** network/nexthop.rs:35-48 [NextHopAddress]. *)
Definition ser_nexthop (tx : texts) (h : nexthop) : json :=
  match h with
  | NH4 a => tagged "Ipv4" (ser_ip4 tx a)
  | NH6 a => tagged "Ipv6" (ser_ip6 tx a)
  | NH6L a b => tagged "Ipv6LinkLocal" (JList [ser_ip6 tx a; ser_ip6 tx b])
  | NHVpn d a => tagged "VpnIpv6" (JList [ser_rd d; ser_ip6 tx a])
  | NHVpnL d a e b => tagged "VpnIpv6LinkLocal" (JList [ser_rd d; ser_ip6 tx a; ser_rd e; ser_ip6 tx b])
  end.
Definition de_nexthop (ps : parsers) : json -> option nexthop := de_variant [
  ("Ipv4", fun v => a <<- de_ip4 ps v ;; Some (NH4 a));
  ("Ipv6", fun v => a <<- de_ip6 ps v ;; Some (NH6 a));
  ("Ipv6LinkLocal", fun v => '(a, b) <<- de_pair (de_ip6 ps) (de_ip6 ps) v ;; Some (NH6L a b));
  ("VpnIpv6", fun v => '(d, a) <<- de_pair de_rd (de_ip6 ps) v ;; Some (NHVpn d a));
  ("VpnIpv6LinkLocal", fun v =>
     match v with
     | JList [x; y; z; w] => d <<- de_rd x ;; a <<- de_ip6 ps y ;; e <<- de_rd z ;; b <<- de_ip6 ps w ;; Some (NHVpnL d a e b)
     | _ => None
     end)].
(** network/mpls.rs:107-126 [MplsLabel]: a number above 20 bits is refused. *)
Definition ser_label (l : N) : json := JNum l.
Definition de_label (j : json) : option N := n <<- de_u32 j ;; label_try_new n.
(** network/mpls.rs:261-272 [LabeledNetworkPrefix]. *)
Definition ser_net (tx : texts) (n : ipnet) : json := JText (tx_net tx n).
Definition ser_labeled (tx : texts) (p : labeled) : json :=
  jobj [("prefix", ser_net tx (lp_net p)); ("labels", ser_list ser_label (lp_labels p)); ("path_id", jopt JNum (lp_id p))].
Definition de_labeled (ps : parsers) (j : json) : option labeled :=
  l <<- de_object ["prefix"; "labels"; "path_id"] j ;; n <<- field "prefix" (de_net ps) l ;;
  ls <<- field "labels" (de_list de_label) l ;; i <<- opt_field "path_id" de_u32 l ;; Some (Labeled n ls i).
(** flowspec/operators.rs:3-39 [NumericOperator], [BitmaskOperator]. *)
Definition ser_numop (o : numop) : json :=
  jobj [("end_of_list", JBool (no_end o)); ("and_with_next", JBool (no_and o)); ("value_length", JNum (no_len o)); ("less_than", JBool (no_lt o));
        ("greater_than", JBool (no_gt o)); ("equal", JBool (no_eq o)); ("value", JNum (no_val o))].
Definition de_numop (j : json) : option numop :=
  l <<- de_object ["end_of_list"; "and_with_next"; "value_length"; "less_than"; "greater_than"; "equal"; "value"] j ;;
  e <<- field "end_of_list" de_bool l ;; a <<- field "and_with_next" de_bool l ;; n <<- field "value_length" de_byte l ;;
  lt <<- field "less_than" de_bool l ;; gt <<- field "greater_than" de_bool l ;; eq <<- field "equal" de_bool l ;; v <<- field "value" de_u64 l ;;
  Some (NumOp e a n lt gt eq v).
Definition ser_bitop (o : bitop) : json :=
  jobj [("end_of_list", JBool (bo_end o)); ("and_with_next", JBool (bo_and o)); ("value_length", JNum (bo_len o)); ("not", JBool (bo_not o));
        ("match_flag", JBool (bo_match o)); ("bitmask", JNum (bo_val o))].
Definition de_bitop (j : json) : option bitop :=
  l <<- de_object ["end_of_list"; "and_with_next"; "value_length"; "not"; "match_flag"; "bitmask"] j ;;
  e <<- field "end_of_list" de_bool l ;; a <<- field "and_with_next" de_bool l ;; n <<- field "value_length" de_byte l ;;
  nt <<- field "not" de_bool l ;; m <<- field "match_flag" de_bool l ;; v <<- field "bitmask" de_u64 l ;; Some (BitOp e a n nt m v).
(** flowspec/mod.rs:12-53 [FlowSpecNlri], [FlowSpecComponent]. *)
Definition ser_offset (tx : texts) (o : N) (p : prefix) : json := jobj [("offset", JNum o); ("prefix", ser_prefix tx p)].
Definition de_offset (ps : parsers) (j : json) : option (N * prefix) :=
  l <<- de_object ["offset"; "prefix"] j ;; o <<- field "offset" de_byte l ;; p <<- field "prefix" (de_prefix ps) l ;; Some (o, p).
Definition ser_comp (tx : texts) (c : fs_comp) : json :=
  match c with
  | FDestPrefix p => tagged "DestinationPrefix" (ser_prefix tx p) | FSrcPrefix p => tagged "SourcePrefix" (ser_prefix tx p)
  | FIpProto l => tagged "IpProtocol" (ser_list ser_numop l) | FPort l => tagged "Port" (ser_list ser_numop l)
  | FDestPort l => tagged "DestinationPort" (ser_list ser_numop l) | FSrcPort l => tagged "SourcePort" (ser_list ser_numop l)
  | FIcmpType l => tagged "IcmpType" (ser_list ser_numop l) | FIcmpCode l => tagged "IcmpCode" (ser_list ser_numop l)
  | FTcpFlags l => tagged "TcpFlags" (ser_list ser_bitop l) | FPktLen l => tagged "PacketLength" (ser_list ser_numop l)
  | FDscp l => tagged "Dscp" (ser_list ser_numop l) | FFragment l => tagged "Fragment" (ser_list ser_bitop l)
  | FFlowLabel l => tagged "FlowLabel" (ser_list ser_numop l)
  | FDestPrefix6 o p => tagged "DestinationIpv6Prefix" (ser_offset tx o p) | FSrcPrefix6 o p => tagged "SourceIpv6Prefix" (ser_offset tx o p)
  end.
Definition de_numops {A} (f : list numop -> A) (v : json) : option A := l <<- de_list de_numop v ;; Some (f l).
Definition de_bitops {A} (f : list bitop -> A) (v : json) : option A := l <<- de_list de_bitop v ;; Some (f l).
Definition de_comp (ps : parsers) : json -> option fs_comp := de_variant [
  ("DestinationPrefix", fun v => p <<- de_prefix ps v ;; Some (FDestPrefix p)); ("SourcePrefix", fun v => p <<- de_prefix ps v ;; Some (FSrcPrefix p));
  ("IpProtocol", de_numops FIpProto); ("Port", de_numops FPort); ("DestinationPort", de_numops FDestPort); ("SourcePort", de_numops FSrcPort);
  ("IcmpType", de_numops FIcmpType); ("IcmpCode", de_numops FIcmpCode); ("TcpFlags", de_bitops FTcpFlags); ("PacketLength", de_numops FPktLen);
  ("Dscp", de_numops FDscp); ("Fragment", de_bitops FFragment); ("FlowLabel", de_numops FFlowLabel);
  ("DestinationIpv6Prefix", fun v => '(o, p) <<- de_offset ps v ;; Some (FDestPrefix6 o p));
  ("SourceIpv6Prefix", fun v => '(o, p) <<- de_offset ps v ;; Some (FSrcPrefix6 o p))].
Definition ser_flow (tx : texts) (l : list fs_comp) : json := jobj [("components", ser_list (ser_comp tx) l)].
Definition de_flow (ps : parsers) (j : json) : option (list fs_comp) :=
  l <<- de_object ["components"] j ;; field "components" (de_list (de_comp ps)) l.
(** linkstate.rs:174-180 [Tlv], attributes/mod.rs:594-616 [RawTlv8] and the like; [bound] is that
    of the type of [tlv_type]. *)
Definition ser_tlv (t : tlv) : json := jobj [("tlv_type", JNum (t_type t)); ("value", ser_bytes (t_value t))].
Definition de_tlv (bound : N) (j : json) : option tlv :=
  l <<- de_object ["tlv_type"; "value"] j ;; t <<- field "tlv_type" (de_num bound) l ;; v <<- field "value" de_octets l ;; Some (Tlv t v).
(** linkstate.rs:8-40 [NlriType], [ProtocolId]. *)
Definition nlri_type_names : list (N * string) :=
  [(0, "Reserved"); (1, "Node"); (2, "Link"); (3, "Ipv4TopologyPrefix"); (4, "Ipv6TopologyPrefix"); (5, "SrPolicyCandidatePath"); (6, "Srv6Sid");
   (7, "StubLink")].
Definition protocol_names : list (N * string) :=
  [(0, "Reserved"); (1, "IsisL1"); (2, "IsisL2"); (3, "Ospfv2"); (4, "Direct"); (5, "Static"); (6, "Ospfv3"); (7, "Bgp"); (8, "RsvpTe");
   (9, "SegmentRouting")].
(** linkstate.rs:188-199 [NodeDescriptor]. *)
Definition ser_node (d : node_desc) : json :=
  jobj [("autonomous_system", jopt JNum (nd_as d)); ("bgp_ls_identifier", jopt JNum (nd_ls_id d)); ("ospf_area_id", jopt JNum (nd_area d));
        ("igp_router_id", jopt ser_bytes (nd_router d)); ("unknown_tlvs", ser_list ser_tlv (nd_unknown d))].
Definition de_node (j : json) : option node_desc :=
  l <<- de_object ["autonomous_system"; "bgp_ls_identifier"; "ospf_area_id"; "igp_router_id"; "unknown_tlvs"] j ;;
  a <<- opt_field "autonomous_system" de_u32 l ;; b <<- opt_field "bgp_ls_identifier" de_u32 l ;; c <<- opt_field "ospf_area_id" de_u32 l ;;
  r <<- opt_field "igp_router_id" de_octets l ;; u <<- field "unknown_tlvs" (de_list (de_tlv (2 ^ 16))) l ;; Some (NodeDesc a b c r u).
(** linkstate.rs:201-213 [LinkDescriptor]. *)
Definition ser_link (tx : texts) (d : link_desc) : json :=
  jobj [("link_local_remote_identifiers", jopt (fun p => JList [JNum (fst p); JNum (snd p)]) (ld_ids d));
        ("ipv4_interface_address", jopt (ser_ip4 tx) (ld_if4 d)); ("ipv4_neighbor_address", jopt (ser_ip4 tx) (ld_nb4 d));
        ("ipv6_interface_address", jopt (ser_ip6 tx) (ld_if6 d)); ("ipv6_neighbor_address", jopt (ser_ip6 tx) (ld_nb6 d));
        ("multi_topology_id", jopt JNum (ld_mt d)); ("unknown_tlvs", ser_list ser_tlv (ld_unknown d))].
Definition de_link (ps : parsers) (j : json) : option link_desc :=
  l <<- de_object ["link_local_remote_identifiers"; "ipv4_interface_address"; "ipv4_neighbor_address"; "ipv6_interface_address";
                   "ipv6_neighbor_address"; "multi_topology_id"; "unknown_tlvs"] j ;;
  i <<- opt_field "link_local_remote_identifiers" (de_pair de_u32 de_u32) l ;; a <<- opt_field "ipv4_interface_address" (de_ip4 ps) l ;;
  b <<- opt_field "ipv4_neighbor_address" (de_ip4 ps) l ;; c <<- opt_field "ipv6_interface_address" (de_ip6 ps) l ;;
  d <<- opt_field "ipv6_neighbor_address" (de_ip6 ps) l ;; m <<- opt_field "multi_topology_id" de_u16 l ;;
  u <<- field "unknown_tlvs" (de_list (de_tlv (2 ^ 16))) l ;; Some (LinkDesc i a b c d m u).
(** linkstate.rs:215-223 [PrefixDescriptor].  Simplified: the prefix has no path identifier (its
    parser never sets one). *)
Definition ser_reach (tx : texts) (n : ipnet) : json := ser_prefix tx (Pfx n None).
Definition de_reach (ps : parsers) (j : json) : option ipnet := p <<- de_prefix ps j ;; Some (p_net p).
Definition ser_pdesc (tx : texts) (d : prefix_desc) : json :=
  jobj [("multi_topology_id", jopt JNum (pd_mt d)); ("ospf_route_type", jopt JNum (pd_ospf d));
        ("ip_reachability_information", jopt (ser_reach tx) (pd_reach d)); ("unknown_tlvs", ser_list ser_tlv (pd_unknown d))].
Definition de_pdesc (ps : parsers) (j : json) : option prefix_desc :=
  l <<- de_object ["multi_topology_id"; "ospf_route_type"; "ip_reachability_information"; "unknown_tlvs"] j ;;
  m <<- opt_field "multi_topology_id" de_u16 l ;; o <<- opt_field "ospf_route_type" de_byte l ;;
  r <<- opt_field "ip_reachability_information" (de_reach ps) l ;; u <<- field "unknown_tlvs" (de_list (de_tlv (2 ^ 16))) l ;;
  Some (PrefixDesc m o r u).
(** linkstate.rs:225-236 [LinkStateNlri]. *)
Definition ser_ls (tx : texts) (n : ls_nlri) : json :=
  jobj [("nlri_type", ser_code nlri_type_names (ln_type n)); ("protocol_id", ser_code protocol_names (ln_proto n)); ("identifier", JNum (ln_id n));
        ("local_node_descriptors", ser_node (ln_local n)); ("remote_node_descriptors", jopt ser_node (ln_remote n));
        ("link_descriptors", jopt (ser_link tx) (ln_link n)); ("prefix_descriptors", jopt (ser_pdesc tx) (ln_prefix n))].
Definition de_ls (ps : parsers) (j : json) : option ls_nlri :=
  l <<- de_object ["nlri_type"; "protocol_id"; "identifier"; "local_node_descriptors"; "remote_node_descriptors"; "link_descriptors";
                   "prefix_descriptors"] j ;;
  t <<- field "nlri_type" (de_code nlri_type_names) l ;; p <<- field "protocol_id" (de_code protocol_names) l ;; i <<- field "identifier" de_u64 l ;;
  a <<- field "local_node_descriptors" de_node l ;; b <<- opt_field "remote_node_descriptors" de_node l ;;
  c <<- opt_field "link_descriptors" (de_link ps) l ;; d <<- opt_field "prefix_descriptors" (de_pdesc ps) l ;; Some (LsNlri t p i a b c d).
(** attributes/nlri.rs:7-32 [Nlri]. *)
Definition ser_nlri (tx : texts) (n : nlri) : json :=
  jobj [("afi", ser_afi (nl_afi n)); ("safi", ser_safi (nl_safi n)); ("next_hop", jopt (ser_nexthop tx) (nl_next n));
        ("prefixes", ser_list (ser_prefix tx) (nl_prefixes n)); ("labeled_prefixes", jopt (ser_list (ser_labeled tx)) (nl_labeled n));
        ("link_state_nlris", jopt (ser_list (ser_ls tx)) (nl_ls n)); ("flowspec_nlris", jopt (ser_list (ser_flow tx)) (nl_fs n))].
Definition de_nlri (ps : parsers) (j : json) : option nlri :=
  l <<- de_object ["afi"; "safi"; "next_hop"; "prefixes"; "labeled_prefixes"; "link_state_nlris"; "flowspec_nlris"] j ;;
  a <<- field "afi" de_afi l ;; s <<- field "safi" de_safi l ;; h <<- opt_field "next_hop" (de_nexthop ps) l ;;
  p <<- field "prefixes" (de_list (de_prefix ps)) l ;; b <<- opt_field "labeled_prefixes" (de_list (de_labeled ps)) l ;;
  c <<- opt_field "link_state_nlris" (de_list (de_ls ps)) l ;; f <<- opt_field "flowspec_nlris" (de_list (de_flow ps)) l ;;
  Some (Nlri a s h p b c f).

(** * Attributes *)
(** linkstate.rs:82-172: the names of the keys of the three maps. *)
Definition node_names : list (N * string) :=
  [(0, "Reserved"); (1024, "NodeFlagBits"); (1025, "OpaqueNodeAttribute"); (1026, "NodeName"); (1027, "IsisAreaIdentifier");
   (1028, "Ipv4RouterIdOfLocalNode"); (1029, "Ipv6RouterIdOfLocalNode"); (1034, "SrCapabilities"); (1035, "SrAlgorithm"); (1036, "SrLocalBlock");
   (1037, "SrmsPreference")].
Definition link_names : list (N * string) :=
  [(0, "Reserved"); (1028, "Ipv4RouterIdOfLocalNode"); (1029, "Ipv6RouterIdOfLocalNode"); (1030, "Ipv4RouterIdOfRemoteNode");
   (1031, "Ipv6RouterIdOfRemoteNode"); (1088, "AdministrativeGroup"); (1089, "MaximumLinkBandwidth"); (1090, "MaxReservableLinkBandwidth");
   (1091, "UnreservedBandwidth"); (1092, "TeDefaultMetric"); (1093, "LinkProtectionType"); (1094, "MplsProtocolMask"); (1095, "IgpMetric");
   (1096, "SharedRiskLinkGroups"); (1097, "OpaqueLinkAttribute"); (1098, "LinkName"); (1099, "SrAdjacencySid"); (1100, "SrLanAdjacencySid");
   (1101, "PeerNodeSid"); (1102, "PeerAdjacencySid"); (1103, "PeerSetSid"); (1114, "UnidirectionalLinkDelay");
   (1115, "MinMaxUnidirectionalLinkDelay"); (1116, "UnidirectionalDelayVariation"); (1117, "UnidirectionalLinkLoss");
   (1118, "UnidirectionalResidualBandwidth"); (1119, "UnidirectionalAvailableBandwidth"); (1120, "UnidirectionalUtilizedBandwidth");
   (1172, "L2BundleMemberAttributes"); (1122, "ApplicationSpecificLinkAttributes")].
Definition prefix_names : list (N * string) :=
  [(0, "Reserved"); (1152, "IgpFlags"); (1153, "IgpRouteTag"); (1154, "IgpExtendedRouteTag"); (1155, "PrefixMetric"); (1156, "OspfForwardingAddress");
   (1157, "OpaquePrefixAttribute"); (1158, "PrefixSid"); (1159, "RangeSid"); (1161, "SidLabelIndex"); (1162, "SidLabelBinding");
   (1163, "Srv6LocatorTlv"); (1170, "PrefixAttributeFlags"); (1171, "SourceRouterIdentifier"); (1174, "SourceOspfRouterId")].
(** A [HashMap] whose keys are named: an object with one member per entry, in the order [ord] of
    iteration, which is arbitrary; read by inserting one member after the other. *)
Definition ser_map (names : list (N * string)) (ord : kmap -> kmap) (m : kmap) : json :=
  JObject (map (fun kv => (str (code_name names (fst kv)), ser_bytes (snd kv))) (ord m)).
Definition de_entry (names : list (N * string)) (p : bytes * json) : option (N * bytes) :=
  k <<- de_code names (JText (fst p)) ;; v <<- de_octets (snd p) ;; Some (k, v).
Definition de_map (names : list (N * string)) (j : json) : option kmap :=
  match j with
  | JObject l => es <<- all_of (de_entry names) l ;; Some (fold_left (fun m kv => kinsert (fst kv) (snd kv) m) es [])
  | _ => None
  end.
(** linkstate.rs:292-301 [LinkStateAttribute]. *)
Definition ser_ls_attr (ord : kmap -> kmap) (a : ls_attr) : json :=
  jobj [("node_attributes", ser_map node_names ord (la_node a)); ("link_attributes", ser_map link_names ord (la_link a));
        ("prefix_attributes", ser_map prefix_names ord (la_prefix a)); ("unknown_attributes", ser_list ser_tlv (la_unknown a))].
Definition de_ls_attr (j : json) : option ls_attr :=
  l <<- de_object ["node_attributes"; "link_attributes"; "prefix_attributes"; "unknown_attributes"] j ;;
  n <<- field "node_attributes" (de_map node_names) l ;; k <<- field "link_attributes" (de_map link_names) l ;;
  p <<- field "prefix_attributes" (de_map prefix_names) l ;; u <<- field "unknown_attributes" (de_list (de_tlv (2 ^ 16))) l ;; Some (LsAttr n k p u).
(** tunnel_encap.rs:6-57 [TunnelType], 59-110 [SubTlvType]. *)
Definition tunnel_names : list (N * string) :=
  [(0, "Reserved"); (1, "L2tpv3OverIp"); (2, "Gre"); (3, "TransmitTunnelEndpoint"); (4, "IpsecTunnelMode"); (5, "IpInIpWithIpsecTransport");
   (6, "MplsInIpWithIpsecTransport"); (7, "IpInIp"); (8, "Vxlan"); (9, "Nvgre"); (10, "Mpls"); (11, "MplsInGre"); (12, "VxlanGpe"); (13, "MplsInUdp");
   (14, "Ipv6Tunnel"); (15, "SrPolicy"); (16, "Bare"); (17, "SrTunnel"); (18, "CloudSecurity"); (19, "Geneve"); (20, "AnyEncapsulation");
   (21, "GtpTunnel"); (22, "DpsTunnel")].
Definition sub_names : list (N * string) :=
  [(0, "Reserved"); (1, "Encapsulation"); (2, "ProtocolType"); (3, "IpsecTunnelAuthenticator"); (4, "Color"); (5, "LoadBalancingBlock");
   (6, "TunnelEgressEndpoint"); (7, "DsField"); (8, "UdpDestinationPort"); (9, "EmbeddedLabelHandling"); (10, "MplsLabelStack"); (11, "PrefixSid");
   (12, "Preference"); (13, "BindingSid"); (14, "Enlp"); (15, "Priority"); (16, "SpiSiRepresentation"); (17, "Ipv6SidStructure"); (18, "Ipv4Sid");
   (19, "Ipv6Sid"); (20, "Srv6BindingSid"); (128, "SegmentList"); (129, "PolicyCandidatePathName")].
(** tunnel_encap.rs:112-118 [SubTlv], 129-135 [TunnelEncapTlv], 223-228 [TunnelEncapAttribute]. *)
Definition ser_sub_tlv (t : tlv) : json := jobj [("sub_tlv_type", ser_code sub_names (t_type t)); ("value", ser_bytes (t_value t))].
Definition de_sub_tlv (j : json) : option tlv :=
  l <<- de_object ["sub_tlv_type"; "value"] j ;; t <<- field "sub_tlv_type" (de_code sub_names) l ;; v <<- field "value" de_octets l ;; Some (Tlv t v).
Definition ser_tunnel (t : tunnel) : json := jobj [("tunnel_type", ser_code tunnel_names (tn_type t)); ("sub_tlvs", ser_list ser_sub_tlv (tn_subs t))].
Definition de_tunnel (j : json) : option tunnel :=
  l <<- de_object ["tunnel_type"; "sub_tlvs"] j ;; t <<- field "tunnel_type" (de_code tunnel_names) l ;;
  s <<- field "sub_tlvs" (de_list de_sub_tlv) l ;; Some (Tunnel t s).
Definition ser_tunnels (l : list tunnel) : json := jobj [("tunnel_tlvs", ser_list ser_tunnel l)].
Definition de_tunnels (j : json) : option (list tunnel) :=
  l <<- de_object ["tunnel_tlvs"] j ;; field "tunnel_tlvs" (de_list de_tunnel) l.
(** attributes/mod.rs:649-670 [TrafficEngineering]. *)
Definition ser_te (t : traffic_eng) : json :=
  jobj [("switching_capability", JNum (te_cap t)); ("encoding", JNum (te_enc t)); ("reserved", JNum (te_reserved t));
        ("max_lsp_bandwidth", ser_list ser_f32 (te_bw t)); ("switching_capability_specific", ser_bytes (te_specific t))].
Definition de_te (j : json) : option traffic_eng :=
  l <<- de_object ["switching_capability"; "encoding"; "reserved"; "max_lsp_bandwidth"; "switching_capability_specific"] j ;;
  c <<- field "switching_capability" de_byte l ;; e <<- field "encoding" de_byte l ;; r <<- field "reserved" de_u16 l ;;
  b <<- field "max_lsp_bandwidth" (de_array 8 de_f32) l ;; s <<- field "switching_capability_specific" de_octets l ;; Some (TE c e r b s).
(** attributes/mod.rs:618-647 [BfdDiscriminatorAttribute], [BgpPrefixSidAttribute], [BierAttribute],
    [SfpAttribute]. *)
Definition ser_bfd (b : bfd) : json :=
  jobj [("mode", JNum (bfd_mode b)); ("discriminator", JNum (bfd_disc b)); ("tlvs", ser_list ser_tlv (bfd_tlvs b))].
Definition de_bfd (j : json) : option bfd :=
  l <<- de_object ["mode"; "discriminator"; "tlvs"] j ;; m <<- field "mode" de_byte l ;; d <<- field "discriminator" de_u32 l ;;
  t <<- field "tlvs" (de_list (de_tlv 256)) l ;; Some (Bfd m d t).
Definition ser_tlvs (l : list tlv) : json := jobj [("tlvs", ser_list ser_tlv l)].
Definition de_tlvs (bound : N) (j : json) : option (list tlv) := l <<- de_object ["tlvs"] j ;; field "tlvs" (de_list (de_tlv bound)) l.
(** attributes/mod.rs:550-567 [AigpTlv], [Aigp]. *)
Definition ser_aigp_tlv (t : aigp_tlv) : json :=
  jobj [("tlv_type", JNum (ai_type t)); ("length", JNum (ai_len t)); ("value", ser_bytes (ai_value t))].
Definition de_aigp_tlv (j : json) : option aigp_tlv :=
  l <<- de_object ["tlv_type"; "length"; "value"] j ;; t <<- field "tlv_type" de_byte l ;; n <<- field "length" de_u16 l ;;
  v <<- field "value" de_octets l ;; Some (AigpTlv t n v).
Definition ser_aigp (l : list aigp_tlv) : json := jobj [("tlvs", ser_list ser_aigp_tlv l)].
Definition de_aigp (j : json) : option (list aigp_tlv) := l <<- de_object ["tlvs"] j ;; field "tlvs" (de_list de_aigp_tlv) l.
(** attributes/mod.rs:736-749: the variants [Aggregator] and [As4Aggregator]. *)
Definition ser_aggr (tx : texts) (a : asn) (i : N) : json := jobj [("asn", ser_asn a); ("id", ser_ip4 tx i)].
Definition de_aggr (ps : parsers) (j : json) : option (asn * N) :=
  l <<- de_object ["asn"; "id"] j ;; a <<- field "asn" de_asn l ;; i <<- field "id" (de_ip4 ps) l ;; Some (a, i).
(** attributes/mod.rs:704-792 [AttributeValue].  [AttrSet] is not modelled (its nested attributes
    are not in [attr_value]): it is null here and never read. *)
Definition ser_value (tx : texts) (ord : kmap -> kmap) (v : attr_value) : json :=
  match v with
  | AOrigin o => tagged "Origin" (ser_origin o)
  | AAsPath p => tagged "AsPath" (ser_path p)
  | AAs4Path p => tagged "As4Path" (ser_path p)
  | ANextHop i => tagged "NextHop" (ser_ip tx i)
  | AMed n => tagged "MultiExitDiscriminator" (JNum n)
  | ALocalPref n => tagged "LocalPreference" (JNum n)
  | AOtc a => tagged "OnlyToCustomer" (ser_asn a)
  | AAtomicAggregate => JText (str "AtomicAggregate")
  | AAggregator a i => tagged "Aggregator" (ser_aggr tx a i)
  | AAs4Aggregator a i => tagged "As4Aggregator" (ser_aggr tx a i)
  | ACommunities l => tagged "Communities" (ser_list ser_plain l)
  | AExtCommunities l => tagged "ExtendedCommunities" (ser_list (ser_ext tx) l)
  | AIpv6ExtCommunities l => tagged "Ipv6AddressSpecificExtendedCommunities" (ser_list (ser_ipv6_ext tx) l)
  | ALargeCommunities l => tagged "LargeCommunities" (ser_list ser_large l)
  | AOriginatorId i => tagged "OriginatorId" (ser_ip4 tx i)
  | AClusters l => tagged "Clusters" (ser_list JNum l)
  | AMpReach n => tagged "MpReachNlri" (ser_nlri tx n)
  | AMpUnreach n => tagged "MpUnreachNlri" (ser_nlri tx n)
  | ALinkStateAttr a => tagged "LinkState" (ser_ls_attr ord a)
  | ATunnelEncap l => tagged "TunnelEncapsulation" (ser_tunnels l)
  | ATrafficEng t => tagged "TrafficEngineering" (ser_te t)
  | ABfd b => tagged "BfdDiscriminator" (ser_bfd b)
  | APrefixSid l => tagged "BgpPrefixSid" (ser_tlvs l)
  | ABier l => tagged "Bier" (ser_tlvs l)
  | ASfp l => tagged "Sfp" (ser_tlvs l)
  | ADevelopment b => tagged "Development" (ser_bytes b)
  | ARaw c b => tagged "Raw" (ser_raw (c, b))
  | ADeprecated c b => tagged "Deprecated" (ser_raw (c, b))
  | AUnknown c b => tagged "Unknown" (ser_raw (c, b))
  | AAigp l => tagged "Aigp" (ser_aigp l)
  | AAttrSet _ => JNull
  end.
Definition de_into {A B} (f : json -> option A) (g : A -> B) (j : json) : option B := a <<- f j ;; Some (g a).
Definition de_value (ps : parsers) (j : json) : option attr_value :=
  match j with
  | JText s => if bytes_eqb s (str "AtomicAggregate") then Some AAtomicAggregate else None
  | _ => de_variant [
      ("Origin", de_into de_origin AOrigin); ("AsPath", de_into de_path AAsPath); ("As4Path", de_into de_path AAs4Path);
      ("NextHop", de_into (de_ip ps) ANextHop); ("MultiExitDiscriminator", de_into de_u32 AMed); ("LocalPreference", de_into de_u32 ALocalPref);
      ("OnlyToCustomer", de_into de_asn AOtc);
      ("Aggregator", de_into (de_aggr ps) (fun p => AAggregator (fst p) (snd p)));
      ("As4Aggregator", de_into (de_aggr ps) (fun p => AAs4Aggregator (fst p) (snd p)));
      ("Communities", de_into (de_list de_plain) ACommunities); ("ExtendedCommunities", de_into (de_list (de_ext ps)) AExtCommunities);
      ("Ipv6AddressSpecificExtendedCommunities", de_into (de_list (de_ipv6_ext ps)) AIpv6ExtCommunities);
      ("LargeCommunities", de_into (de_list de_large) ALargeCommunities); ("OriginatorId", de_into (de_ip4 ps) AOriginatorId);
      ("Clusters", de_into (de_list de_u32) AClusters); ("MpReachNlri", de_into (de_nlri ps) AMpReach);
      ("MpUnreachNlri", de_into (de_nlri ps) AMpUnreach); ("LinkState", de_into de_ls_attr ALinkStateAttr);
      ("TunnelEncapsulation", de_into de_tunnels ATunnelEncap); ("TrafficEngineering", de_into de_te ATrafficEng);
      ("BfdDiscriminator", de_into de_bfd ABfd); ("BgpPrefixSid", de_into (de_tlvs 256) APrefixSid); ("Bier", de_into (de_tlvs (2 ^ 16)) ABier);
      ("Sfp", de_into (de_tlvs 256) ASfp); ("Development", de_into de_octets ADevelopment);
      ("Raw", de_into de_raw (fun r => ARaw (fst r) (snd r))); ("Deprecated", de_into de_raw (fun r => ADeprecated (fst r) (snd r)));
      ("Unknown", de_into de_raw (fun r => AUnknown (fst r) (snd r))); ("Aigp", de_into de_aigp AAigp)] j
  end.
(** attributes/mod.rs:23-54 [AttrFlags]: the text that the bitflags crate gives it, the names of
    the flags that are set, then the remaining bits in hexadecimal. *)
Definition flag_names : list (N * string) := [(7, "OPTIONAL"); (6, "TRANSITIVE"); (5, "PARTIAL"); (4, "EXTENDED")].
Definition nibble (n : N) : N := if n <? 10 then 48 + n else 87 + n.
Definition flag_words (f : N) : list bytes :=
  map (fun p => str (snd p)) (List.filter (fun p => N.testbit f (fst p)) flag_names) ++
  (if f mod 16 =? 0 then [] else [str "0x" ++ [nibble (f mod 16)]]).
Definition show_flags (f : N) : bytes := join (str " | ") (flag_words f).
(** [u8::from_str_radix] in base 16. *)
Definition hex_val (c : N) : option N :=
  if (48 <=? c) && (c <=? 57) then Some (c - 48) else if (97 <=? c) && (c <=? 102) then Some (c - 87)
  else if (65 <=? c) && (c <=? 70) then Some (c - 55) else None.
Fixpoint hex_digits (acc : N) (s : bytes) : option N :=
  match s with
  | [] => Some acc
  | c :: s' => d <<- hex_val c ;; if acc * 16 + d <? 256 then hex_digits (acc * 16 + d) s' else None
  end.
Definition parse_hex8 (s : bytes) : option N :=
  match s with [] => None | 43 :: [] => None | 43 :: s' => hex_digits 0 s' | _ => hex_digits 0 s end.
(** bitflags' [from_str]: words between bars, in any order; an empty word is refused. *)
Definition parse_flag (w : bytes) : option N :=
  let w := trim w in
  match w with
  | [] => None
  | 48 :: 120 :: h => parse_hex8 h
  | _ => p <<- find (fun p => bytes_eqb w (str (snd p))) flag_names ;; Some (2 ^ fst p)
  end.
Definition parse_flags (s : bytes) : option N :=
  match trim s with
  | [] => Some 0
  | _ => fs <<- all_of parse_flag (split_on 124 s) ;; Some (fold_left N.lor fs 0)
  end.
Definition ser_flags (f : N) : json := JText (show_flags f).
Definition de_flags (j : json) : option N := s <<- de_text j ;; parse_flags s.
(** attributes/mod.rs:513-521 [Attribute]. *)
Definition ser_attr (tx : texts) (ord : kmap -> kmap) (a : attribute) : json :=
  jobj [("value", ser_value tx ord (a_value a)); ("flag", ser_flags (a_flag a))].
Definition de_attr (ps : parsers) (j : json) : option attribute :=
  l <<- de_object ["value"; "flag"] j ;; v <<- field "value" (de_value ps) l ;; f <<- field "flag" de_flags l ;; Some (Attr v f).
(** attributes/mod.rs:483-510 [Serialize], [Deserialize for Attributes]: the list alone is written;
    the reader has no warnings and the mask of the list. *)
Definition ser_attrs (tx : texts) (ord : kmap -> kmap) (a : attributes) : json := ser_list (ser_attr tx ord) (at_inner a).
Definition de_attrs (ps : parsers) (j : json) : option attributes := l <<- de_list (de_attr ps) j ;; Some (attrs_of_list l).

(** * Messages *)
(** capabilities.rs:31-58 [BgpCapabilityType], by its octet: a code without a name is [Unknown]. *)
Definition cap_names : list (N * string) :=
  [(1, "MULTIPROTOCOL_EXTENSIONS_FOR_BGP_4"); (2, "ROUTE_REFRESH_CAPABILITY_FOR_BGP_4"); (3, "OUTBOUND_ROUTE_FILTERING_CAPABILITY");
   (5, "EXTENDED_NEXT_HOP_ENCODING"); (6, "BGP_EXTENDED_MESSAGE"); (7, "BGPSEC_CAPABILITY"); (8, "MULTIPLE_LABELS_CAPABILITY"); (9, "BGP_ROLE");
   (64, "GRACEFUL_RESTART_CAPABILITY"); (65, "SUPPORT_FOR_4_OCTET_AS_NUMBER_CAPABILITY"); (67, "SUPPORT_FOR_DYNAMIC_CAPABILITY");
   (68, "MULTISESSION_BGP_CAPABILITY"); (69, "ADD_PATH_CAPABILITY"); (70, "ENHANCED_ROUTE_REFRESH_CAPABILITY");
   (71, "LONG_LIVED_GRACEFUL_RESTART_CAPABILITY"); (72, "ROUTING_POLICY_DISTRIBUTION"); (73, "FQDN_CAPABILITY")].
Definition ser_cap_type (n : N) : json :=
  if existsb (N.eqb n) (map fst cap_names) then ser_code cap_names n else tagged "Unknown" (JNum n).
Definition de_cap_type (j : json) : option N :=
  match j with JText _ => de_code cap_names j | _ => de_variant [("Unknown", de_byte)] j end.
(** capabilities.rs:75-96, 176-183, 226-250, 314-368, 446-448, 485-487, 523-577: the payloads. *)
Definition ser_enh (e : enh_entry) : json :=
  jobj [("nlri_afi", ser_afi (en_afi e)); ("nlri_safi", ser_safi (en_safi e)); ("nexthop_afi", ser_afi (en_next e))].
Definition de_enh (j : json) : option enh_entry :=
  l <<- de_object ["nlri_afi"; "nlri_safi"; "nexthop_afi"] j ;; a <<- field "nlri_afi" de_afi l ;; s <<- field "nlri_safi" de_safi l ;;
  n <<- field "nexthop_afi" de_afi l ;; Some (Enh a s n).
Definition ser_gr (g : gr_family) : json :=
  jobj [("afi", ser_afi (gr_afi g)); ("safi", ser_safi (gr_safi g)); ("forwarding_state", JBool (gr_fwd g))].
Definition de_gr (j : json) : option gr_family :=
  l <<- de_object ["afi"; "safi"; "forwarding_state"] j ;; a <<- field "afi" de_afi l ;; s <<- field "safi" de_safi l ;;
  f <<- field "forwarding_state" de_bool l ;; Some (GrF a s f).
Definition mode_text (m : ap_mode) : string := match m with APReceive => "Receive" | APSend => "Send" | APBoth => "SendReceive" end.
Definition ser_ap (f : ap_family) : json :=
  jobj [("afi", ser_afi (ap_afi f)); ("safi", ser_safi (ap_safi f)); ("send_receive", ser_unit mode_text (ap_mode_ f))].
Definition de_ap (j : json) : option ap_family :=
  l <<- de_object ["afi"; "safi"; "send_receive"] j ;; a <<- field "afi" de_afi l ;; s <<- field "safi" de_safi l ;;
  m <<- field "send_receive" (de_unit mode_text [APReceive; APSend; APBoth]) l ;; Some (ApF a s m).
Definition role_text (r : role) : string :=
  match r with
  | RProvider => "Provider" | RServer => "RouteServer" | RServerClient => "RouteServerClient" | RCustomer => "Customer" | RPeer => "Peer"
  end.
(** models/bgp/mod.rs:189-217 [CapabilityValue]. *)
Definition ser_cap_value (v : cap_value) : json :=
  match v with
  | CvRaw b => tagged "Raw" (ser_bytes b)
  | CvMp a s => tagged "MultiprotocolExtensions" (jobj [("afi", ser_afi a); ("safi", ser_safi s)])
  | CvRefresh => tagged "RouteRefresh" JNull
  | CvEnh l => tagged "ExtendedNextHop" (jobj [("entries", ser_list ser_enh l)])
  | CvRestart g => tagged "GracefulRestart" (jobj [("restart_state", JBool (gr_state g)); ("restart_time", JNum (gr_time g));
                                                   ("address_families", ser_list ser_gr (gr_families g))])
  | CvAs4 n => tagged "FourOctetAs" (jobj [("asn", JNum n)])
  | CvAddPath l => tagged "AddPath" (jobj [("address_families", ser_list ser_ap l)])
  | CvRole r => tagged "BgpRole" (jobj [("role", ser_unit role_text r)])
  | CvExtMsg => tagged "BgpExtendedMessage" JNull
  end.
Definition de_null {A} (a : A) (j : json) : option A := match j with JNull => Some a | _ => None end.
Definition de_cap_value : json -> option cap_value := de_variant [
  ("Raw", de_into de_octets CvRaw);
  ("MultiprotocolExtensions", fun j => l <<- de_object ["afi"; "safi"] j ;; a <<- field "afi" de_afi l ;; s <<- field "safi" de_safi l ;; Some (CvMp a s));
  ("RouteRefresh", de_null CvRefresh);
  ("ExtendedNextHop", fun j => l <<- de_object ["entries"] j ;; e <<- field "entries" (de_list de_enh) l ;; Some (CvEnh e));
  ("GracefulRestart", fun j =>
     l <<- de_object ["restart_state"; "restart_time"; "address_families"] j ;; s <<- field "restart_state" de_bool l ;;
     t <<- field "restart_time" de_u16 l ;; f <<- field "address_families" (de_list de_gr) l ;; Some (CvRestart (Gr s t f)));
  ("FourOctetAs", fun j => l <<- de_object ["asn"] j ;; n <<- field "asn" de_u32 l ;; Some (CvAs4 n));
  ("AddPath", fun j => l <<- de_object ["address_families"] j ;; f <<- field "address_families" (de_list de_ap) l ;; Some (CvAddPath f));
  ("BgpRole", fun j => l <<- de_object ["role"] j ;;
     r <<- field "role" (de_unit role_text [RProvider; RServer; RServerClient; RCustomer; RPeer]) l ;; Some (CvRole r));
  ("BgpExtendedMessage", de_null CvExtMsg)].
(** models/bgp/mod.rs:153-187 [BgpOpenMessage], [OptParam], [ParamValue], [Capability]. *)
Definition ser_cap (c : capability) : json := jobj [("ty", ser_cap_type (cap_type c)); ("value", ser_cap_value (cap_val c))].
Definition de_cap (j : json) : option capability :=
  l <<- de_object ["ty"; "value"] j ;; t <<- field "ty" de_cap_type l ;; v <<- field "value" de_cap_value l ;; Some (Cap t v).
Definition ser_param_value (p : param_value) : json :=
  match p with PvRaw b => tagged "Raw" (ser_bytes b) | PvCaps l => tagged "Capacities" (ser_list ser_cap l) end.
Definition de_param_value : json -> option param_value :=
  de_variant [("Raw", de_into de_octets PvRaw); ("Capacities", de_into (de_list de_cap) PvCaps)].
Definition ser_param (p : opt_param) : json := jobj [("param_type", JNum (op_type p)); ("param_value", ser_param_value (op_value p))].
Definition de_param (j : json) : option opt_param :=
  l <<- de_object ["param_type"; "param_value"] j ;; t <<- field "param_type" de_byte l ;; v <<- field "param_value" de_param_value l ;; Some (Param t v).
Definition ser_open (tx : texts) (m : open_msg) : json :=
  jobj [("version", JNum (o_version m)); ("asn", ser_asn (o_asn m)); ("hold_time", JNum (o_hold m)); ("bgp_identifier", ser_ip4 tx (o_id m));
        ("extended_length", JBool (o_extended m)); ("opt_params", ser_list ser_param (o_params m))].
Definition de_open (ps : parsers) (j : json) : option open_msg :=
  l <<- de_object ["version"; "asn"; "hold_time"; "bgp_identifier"; "extended_length"; "opt_params"] j ;;
  v <<- field "version" de_byte l ;; a <<- field "asn" de_asn l ;; h <<- field "hold_time" de_u16 l ;; i <<- field "bgp_identifier" (de_ip4 ps) l ;;
  e <<- field "extended_length" de_bool l ;; p <<- field "opt_params" (de_list de_param) l ;; Some (Open v a h i e p).
(** models/bgp/mod.rs:219-257 [BgpUpdateMessage]. *)
Definition ser_update (tx : texts) (ord : kmap -> kmap) (m : update_msg) : json :=
  jobj [("withdrawn_prefixes", ser_list (ser_prefix tx) (u_withdrawn m)); ("attributes", ser_attrs tx ord (u_attrs m));
        ("announced_prefixes", ser_list (ser_prefix tx) (u_announced m))].
Definition de_update (ps : parsers) (j : json) : option update_msg :=
  l <<- de_object ["withdrawn_prefixes"; "attributes"; "announced_prefixes"] j ;; w <<- field "withdrawn_prefixes" (de_list (de_prefix ps)) l ;;
  a <<- field "attributes" (de_attrs ps) l ;; n <<- field "announced_prefixes" (de_list (de_prefix ps)) l ;; Some (Update w a n).
(** error.rs:87-232: the names of subcodes; [Unknown] carries its octet. *)
Definition ser_catch {A} (name : A -> option string) (code : A -> N) (a : A) : json :=
  match name a with Some s => JText (str s) | None => tagged "Unknown" (JNum (code a)) end.
Definition de_catch {A} (name : A -> option string) (all : list A) (unknown : N -> A) (j : json) : option A :=
  match j with
  | JText s => find (fun a => match name a with Some n => bytes_eqb s (str n) | None => false end) all
  | _ => de_variant [("Unknown", de_into de_byte unknown)] j
  end.
Definition header_error_name (e : header_error) : option string :=
  match e with
  | HUnspecific => Some "UNSPECIFIC" | HNotSync => Some "CONNECTION_NOT_SYNCHRONIZED" | HBadLength => Some "BAD_MESSAGE_LENGTH"
  | HBadType => Some "BAD_MESSAGE_TYPE" | HUnknown _ => None
  end.
Definition header_errors : list header_error := [HUnspecific; HNotSync; HBadLength; HBadType].
Definition open_error_name (e : open_error) : option string :=
  match e with
  | OUnspecific => Some "UNSPECIFIC" | OVersion => Some "UNSUPPORTED_VERSION_NUMBER" | OBadPeerAs => Some "BAD_PEER_AS"
  | OBadId => Some "BAD_BGP_IDENTIFIER" | OParameter => Some "UNSUPPORTED_OPTIONAL_PARAMETER" | OHoldTime => Some "UNACCEPTABLE_HOLD_TIME"
  | OCapacity => Some "UNSUPPORTED_CAPACITY" | ORoleMismatch => Some "ROLE_MISMATCH" | OUnknown _ => None
  end.
Definition open_errors : list open_error := [OUnspecific; OVersion; OBadPeerAs; OBadId; OParameter; OHoldTime; OCapacity; ORoleMismatch].
Definition update_error_name (e : update_error) : option string :=
  match e with
  | UUnspecific => Some "UNSPECIFIC" | UAttrList => Some "MALFORMED_ATTRIBUTE_LIST" | UUnrecognized => Some "UNRECOGNIZED_WELL_KNOWN_ATTRIBUTE"
  | UMissing => Some "MISSING_WELL_KNOWN_ATTRIBUTE" | UFlags => Some "ATTRIBUTE_FLAGS_ERROR" | ULength => Some "ATTRIBUTE_LENGTH_ERROR"
  | UOrigin => Some "INVALID_ORIGIN_ERROR" | UNextHop => Some "INVALID_NEXT_HOP_ATTRIBUTE" | UOptional => Some "OPTIONAL_ATTRIBUTE_ERROR"
  | UNetwork => Some "INVALID_NETWORK_FIELD" | UAsPath => Some "MALFORMED_AS_PATH" | UUnknown _ => None
  end.
Definition update_errors : list update_error :=
  [UUnspecific; UAttrList; UUnrecognized; UMissing; UFlags; ULength; UOrigin; UNextHop; UOptional; UNetwork; UAsPath].
Definition fsm_error_name (e : fsm_error) : option string :=
  match e with
  | FUnspecified => Some "UNSPECIFIED" | FOpenSent => Some "RECEIVE_UNEXPECTED_MESSAGE_IN_OPENSENT_State"
  | FOpenConfirm => Some "RECEIVE_UNEXPECTED_MESSAGE_IN_OPENCONFIRM_STATE" | FEstablished => Some "RECEIVE_UNEXPECTED_MESSAGE_IN_ESTABLISHED_STATE"
  | FUnknown _ => None
  end.
Definition fsm_errors : list fsm_error := [FUnspecified; FOpenSent; FOpenConfirm; FEstablished].
Definition cease_name (e : cease) : option string :=
  match e with
  | CReserved => Some "RESERVED" | CMaxPrefixes => Some "MAXIMUM_NUMBER_OF_PREFIXES_REACHED" | CShutdown => Some "ADMINISTRATIVE_SHUTDOWN"
  | CDeconfigured => Some "PEER_DE_CONFIGURED" | CReset => Some "ADMINISTRATIVE_RESET" | CRejected => Some "CONNECTION_REJECTED"
  | CConfigChange => Some "OTHER_CONFIGURATION_CHANGE" | CCollision => Some "CONNECTION_COLLISION_RESOLUTION" | CResources => Some "OUT_OF_RESOURCES"
  | CHardReset => Some "HARD_RESET" | CBfdDown => Some "BFD_DOWN" | CUnknown _ => None
  end.
Definition ceases : list cease :=
  [CReserved; CMaxPrefixes; CShutdown; CDeconfigured; CReset; CRejected; CConfigChange; CCollision; CResources; CHardReset; CBfdDown].
Definition refresh_error_name (e : refresh_error) : option string :=
  match e with RReserved => Some "RESERVED" | RLength => Some "INVALID_MESSAGE_LENGTH" | RUnknown _ => None end.
(** error.rs:25-41 [BgpError]. *)
Definition ser_error (e : bgp_error) : json :=
  match e with
  | EReserved n => tagged "Reserved" (JNum n)
  | EHeader h => tagged "MessageHeaderError" (ser_catch header_error_name header_error_code h)
  | EOpen o => tagged "OpenError" (ser_catch open_error_name open_error_code o)
  | EUpdate u => tagged "UpdateError" (ser_catch update_error_name update_error_code u)
  | EHoldTimer n => tagged "HoldTimerExpired" (JNum n)
  | EFsm f => tagged "FiniteStateMachineError" (ser_catch fsm_error_name fsm_error_code f)
  | ECease c => tagged "CeaseNotification" (ser_catch cease_name cease_code c)
  | ERefresh r => tagged "RouteFreshError" (ser_catch refresh_error_name refresh_error_code r)
  | EUnknown c s => tagged "Unknown" (JList [JNum c; JNum s])
  end.
Definition de_error : json -> option bgp_error := de_variant [
  ("Reserved", de_into de_byte EReserved); ("MessageHeaderError", de_into (de_catch header_error_name header_errors HUnknown) EHeader);
  ("OpenError", de_into (de_catch open_error_name open_errors OUnknown) EOpen);
  ("UpdateError", de_into (de_catch update_error_name update_errors UUnknown) EUpdate); ("HoldTimerExpired", de_into de_byte EHoldTimer);
  ("FiniteStateMachineError", de_into (de_catch fsm_error_name fsm_errors FUnknown) EFsm);
  ("CeaseNotification", de_into (de_catch cease_name ceases CUnknown) ECease);
  ("RouteFreshError", de_into (de_catch refresh_error_name [RReserved; RLength] RUnknown) ERefresh);
  ("Unknown", de_into (de_pair de_byte de_byte) (fun p => EUnknown (fst p) (snd p)))].
(** models/bgp/mod.rs:259-264 [BgpNotificationMessage], 79-89 [BgpRouteRefreshMessage]. *)
Definition ser_notif (m : notif_msg) : json := jobj [("error", ser_error (nt_error m)); ("data", ser_bytes (nt_data m))].
Definition de_notif (j : json) : option notif_msg :=
  l <<- de_object ["error"; "data"] j ;; e <<- field "error" de_error l ;; d <<- field "data" de_octets l ;; Some (Notif e d).
Definition ser_refresh (m : refresh_msg) : json :=
  jobj [("afi", JNum (rf_afi m)); ("subtype", JNum (rf_subtype m)); ("safi", JNum (rf_safi m)); ("data", ser_bytes (rf_data m))].
Definition de_refresh (j : json) : option refresh_msg :=
  l <<- de_object ["afi"; "subtype"; "safi"; "data"] j ;; a <<- field "afi" de_u16 l ;; t <<- field "subtype" de_byte l ;;
  s <<- field "safi" de_byte l ;; d <<- field "data" de_octets l ;; Some (Refresh a t s d).
(** models/bgp/mod.rs:46-54 [BgpMessage]. *)
Definition ser_msg (tx : texts) (ord : kmap -> kmap) (m : bgp_msg) : json :=
  match m with
  | MOpen o => tagged "Open" (ser_open tx o)
  | MUpdate u => tagged "Update" (ser_update tx ord u)
  | MNotif n => tagged "Notification" (ser_notif n)
  | MKeepAlive => JText (str "KeepAlive")
  | MRefresh r => tagged "RouteRefresh" (ser_refresh r)
  end.
Definition de_msg (ps : parsers) (j : json) : option bgp_msg :=
  match j with
  | JText s => if bytes_eqb s (str "KeepAlive") then Some MKeepAlive else None
  | _ => de_variant [("Open", de_into (de_open ps) MOpen); ("Update", de_into (de_update ps) MUpdate); ("Notification", de_into de_notif MNotif);
                     ("RouteRefresh", de_into de_refresh MRefresh)] j
  end.
