(** C98, C99: the names in JSON of what messages and records contain. *)
From Coq Require Import String.
From Verif Require Import Base Net AsPath Community Mpls FlowSpec Tlv LinkState Nlri Attr Cap BgpError BgpMsg Elem Text Filter TextDump Framing TableDump Bgp4mp MrtRecord Json JsonMsg JsonMsgSpec JsonRec.
Local Open Scope string_scope. Local Open Scope list_scope. Local Open Scope N_scope.

(** The objects inside messages have the fields of their types, in the order of their declarations. *)
Theorem C98_members tx ord :
  (forall p : labeled, members (ser_labeled tx p) = map str
    ["prefix"; "labels"; "path_id"]) /\
  (forall o : numop, members (ser_numop o) = map str
    ["end_of_list"; "and_with_next"; "value_length"; "less_than"; "greater_than"; "equal"; "value"]) /\
  (forall o : bitop, members (ser_bitop o) = map str
    ["end_of_list"; "and_with_next"; "value_length"; "not"; "match_flag"; "bitmask"]) /\
  (forall l : list fs_comp, members (ser_flow tx l) = map str
    ["components"]) /\
  (forall t : tlv, members (ser_tlv t) = map str
    ["tlv_type"; "value"]) /\
  (forall d : node_desc, members (ser_node d) = map str
    ["autonomous_system"; "bgp_ls_identifier"; "ospf_area_id"; "igp_router_id"; "unknown_tlvs"]) /\
  (forall d : link_desc, members (ser_link tx d) = map str
    ["link_local_remote_identifiers"; "ipv4_interface_address"; "ipv4_neighbor_address"; "ipv6_interface_address"; "ipv6_neighbor_address";
    "multi_topology_id"; "unknown_tlvs"]) /\
  (forall d : prefix_desc, members (ser_pdesc tx d) = map str
    ["multi_topology_id"; "ospf_route_type"; "ip_reachability_information"; "unknown_tlvs"]) /\
  (forall n : ls_nlri, members (ser_ls tx n) = map str
    ["nlri_type"; "protocol_id"; "identifier"; "local_node_descriptors"; "remote_node_descriptors"; "link_descriptors"; "prefix_descriptors"]) /\
  (forall n : nlri, members (ser_nlri tx n) = map str
    ["afi"; "safi"; "next_hop"; "prefixes"; "labeled_prefixes"; "link_state_nlris"; "flowspec_nlris"]) /\
  (forall a : ls_attr, members (ser_ls_attr ord a) = map str
    ["node_attributes"; "link_attributes"; "prefix_attributes"; "unknown_attributes"]) /\
  (forall t : tlv, members (ser_sub_tlv t) = map str
    ["sub_tlv_type"; "value"]) /\
  (forall t : tunnel, members (ser_tunnel t) = map str
    ["tunnel_type"; "sub_tlvs"]) /\
  (forall l : list tunnel, members (ser_tunnels l) = map str
    ["tunnel_tlvs"]) /\
  (forall t : traffic_eng, members (ser_te t) = map str
    ["switching_capability"; "encoding"; "reserved"; "max_lsp_bandwidth"; "switching_capability_specific"]) /\
  (forall b : bfd, members (ser_bfd b) = map str
    ["mode"; "discriminator"; "tlvs"]) /\
  (forall l : list tlv, members (ser_tlvs l) = map str
    ["tlvs"]) /\
  (forall t : aigp_tlv, members (ser_aigp_tlv t) = map str
    ["tlv_type"; "length"; "value"]) /\
  (forall l : list aigp_tlv, members (ser_aigp l) = map str
    ["tlvs"]) /\
  (forall e : enh_entry, members (ser_enh e) = map str
    ["nlri_afi"; "nlri_safi"; "nexthop_afi"]) /\
  (forall g : gr_family, members (ser_gr g) = map str
    ["afi"; "safi"; "forwarding_state"]) /\
  (forall f : ap_family, members (ser_ap f) = map str
    ["afi"; "safi"; "send_receive"]) /\
  (forall p : opt_param, members (ser_param p) = map str
    ["param_type"; "param_value"]) /\
  (forall c : capability, members (ser_cap c) = map str
    ["ty"; "value"]).
Proof. repeat (split; [intros; reflexivity|]); intros; reflexivity. Qed.
Print Assumptions C98_members.
(** Enumerations that are known by a number: each number is written as the name of its variant. *)
Definition named (j : N -> json) (l : list (N * string)) : Prop := Forall (fun p => j (fst p) = JText (str (snd p))) l.
Theorem C98_codes :
  named (ser_code node_names)
    [(0, "Reserved"); (1024, "NodeFlagBits"); (1025, "OpaqueNodeAttribute"); (1026, "NodeName"); (1027, "IsisAreaIdentifier"); (1028,
    "Ipv4RouterIdOfLocalNode"); (1029, "Ipv6RouterIdOfLocalNode"); (1034, "SrCapabilities"); (1035, "SrAlgorithm"); (1036, "SrLocalBlock"); (1037,
    "SrmsPreference")] /\
  named (ser_code link_names)
    [(0, "Reserved"); (1028, "Ipv4RouterIdOfLocalNode"); (1029, "Ipv6RouterIdOfLocalNode"); (1030, "Ipv4RouterIdOfRemoteNode"); (1031,
    "Ipv6RouterIdOfRemoteNode"); (1088, "AdministrativeGroup"); (1089, "MaximumLinkBandwidth"); (1090, "MaxReservableLinkBandwidth"); (1091,
    "UnreservedBandwidth"); (1092, "TeDefaultMetric"); (1093, "LinkProtectionType"); (1094, "MplsProtocolMask"); (1095, "IgpMetric"); (1096,
    "SharedRiskLinkGroups"); (1097, "OpaqueLinkAttribute"); (1098, "LinkName"); (1099, "SrAdjacencySid"); (1100, "SrLanAdjacencySid"); (1101,
    "PeerNodeSid"); (1102, "PeerAdjacencySid"); (1103, "PeerSetSid"); (1114, "UnidirectionalLinkDelay"); (1115, "MinMaxUnidirectionalLinkDelay");
    (1116, "UnidirectionalDelayVariation"); (1117, "UnidirectionalLinkLoss"); (1118, "UnidirectionalResidualBandwidth"); (1119,
    "UnidirectionalAvailableBandwidth"); (1120, "UnidirectionalUtilizedBandwidth"); (1172, "L2BundleMemberAttributes"); (1122,
    "ApplicationSpecificLinkAttributes")] /\
  named (ser_code prefix_names)
    [(0, "Reserved"); (1152, "IgpFlags"); (1153, "IgpRouteTag"); (1154, "IgpExtendedRouteTag"); (1155, "PrefixMetric"); (1156,
    "OspfForwardingAddress"); (1157, "OpaquePrefixAttribute"); (1158, "PrefixSid"); (1159, "RangeSid"); (1161, "SidLabelIndex"); (1162,
    "SidLabelBinding"); (1163, "Srv6LocatorTlv"); (1170, "PrefixAttributeFlags"); (1171, "SourceRouterIdentifier"); (1174, "SourceOspfRouterId")] /\
  named (ser_code nlri_type_names)
    [(0, "Reserved"); (1, "Node"); (2, "Link"); (3, "Ipv4TopologyPrefix"); (4, "Ipv6TopologyPrefix"); (5, "SrPolicyCandidatePath"); (6, "Srv6Sid");
    (7, "StubLink")] /\
  named (ser_code protocol_names)
    [(0, "Reserved"); (1, "IsisL1"); (2, "IsisL2"); (3, "Ospfv2"); (4, "Direct"); (5, "Static"); (6, "Ospfv3"); (7, "Bgp"); (8, "RsvpTe"); (9,
    "SegmentRouting")] /\
  named (ser_code tunnel_names)
    [(0, "Reserved"); (1, "L2tpv3OverIp"); (2, "Gre"); (3, "TransmitTunnelEndpoint"); (4, "IpsecTunnelMode"); (5, "IpInIpWithIpsecTransport"); (6,
    "MplsInIpWithIpsecTransport"); (7, "IpInIp"); (8, "Vxlan"); (9, "Nvgre"); (10, "Mpls"); (11, "MplsInGre"); (12, "VxlanGpe"); (13, "MplsInUdp");
    (14, "Ipv6Tunnel"); (15, "SrPolicy"); (16, "Bare"); (17, "SrTunnel"); (18, "CloudSecurity"); (19, "Geneve"); (20, "AnyEncapsulation"); (21,
    "GtpTunnel"); (22, "DpsTunnel")] /\
  named (ser_code sub_names)
    [(0, "Reserved"); (1, "Encapsulation"); (2, "ProtocolType"); (3, "IpsecTunnelAuthenticator"); (4, "Color"); (5, "LoadBalancingBlock"); (6,
    "TunnelEgressEndpoint"); (7, "DsField"); (8, "UdpDestinationPort"); (9, "EmbeddedLabelHandling"); (10, "MplsLabelStack"); (11, "PrefixSid"); (12,
    "Preference"); (13, "BindingSid"); (14, "Enlp"); (15, "Priority"); (16, "SpiSiRepresentation"); (17, "Ipv6SidStructure"); (18, "Ipv4Sid"); (19,
    "Ipv6Sid"); (20, "Srv6BindingSid"); (128, "SegmentList"); (129, "PolicyCandidatePathName")] /\
  named ser_cap_type
    [(1, "MULTIPROTOCOL_EXTENSIONS_FOR_BGP_4"); (2, "ROUTE_REFRESH_CAPABILITY_FOR_BGP_4"); (3, "OUTBOUND_ROUTE_FILTERING_CAPABILITY"); (5,
    "EXTENDED_NEXT_HOP_ENCODING"); (6, "BGP_EXTENDED_MESSAGE"); (7, "BGPSEC_CAPABILITY"); (8, "MULTIPLE_LABELS_CAPABILITY"); (9, "BGP_ROLE"); (64,
    "GRACEFUL_RESTART_CAPABILITY"); (65, "SUPPORT_FOR_4_OCTET_AS_NUMBER_CAPABILITY"); (67, "SUPPORT_FOR_DYNAMIC_CAPABILITY"); (68,
    "MULTISESSION_BGP_CAPABILITY"); (69, "ADD_PATH_CAPABILITY"); (70, "ENHANCED_ROUTE_REFRESH_CAPABILITY"); (71,
    "LONG_LIVED_GRACEFUL_RESTART_CAPABILITY"); (72, "ROUTING_POLICY_DISTRIBUTION"); (73, "FQDN_CAPABILITY")] /\
  (forall n, n < 256 -> ~ In n (map fst cap_names) -> ser_cap_type n = JObject [(str "Unknown", JNum n)]).
Proof.
  repeat (split; [unfold named; repeat constructor|]). unfold named. intros n _ H. unfold ser_cap_type. destruct (existsb (N.eqb n) (map fst cap_names)) eqn:E; [|reflexivity].
  exfalso. apply H. apply existsb_exists in E as (m & I & X). apply N.eqb_eq in X. subst m. exact I.
Qed.
Print Assumptions C98_codes.
(** The keys of the three maps of a link-state attribute. *)
Theorem C98_map_keys ord a : ser_ls_attr ord a = JObject [
  (str "node_attributes", ser_map node_names ord (la_node a)); (str "link_attributes", ser_map link_names ord (la_link a));
  (str "prefix_attributes", ser_map prefix_names ord (la_prefix a)); (str "unknown_attributes", ser_list ser_tlv (la_unknown a))] /\
  forall names m, map JText (members (ser_map names ord m)) = map (fun kv => ser_code names (fst kv)) (ord m).
Proof. split; [reflexivity|]. intros names m. unfold ser_map. cbn [members]. rewrite !map_map. reflexivity. Qed.
Print Assumptions C98_map_keys.
(** Subcodes of NOTIFICATION errors, by the octet on the wire. *)
Theorem C98_errors :
  Forall (fun p => ser_error (error_of 1 (fst p)) = JObject [(str "MessageHeaderError", JText (str (snd p)))])
    [(0, "UNSPECIFIC"); (1, "CONNECTION_NOT_SYNCHRONIZED"); (2, "BAD_MESSAGE_LENGTH"); (3, "BAD_MESSAGE_TYPE")] /\
  Forall (fun p => ser_error (error_of 2 (fst p)) = JObject [(str "OpenError", JText (str (snd p)))])
    [(0, "UNSPECIFIC"); (1, "UNSUPPORTED_VERSION_NUMBER"); (2, "BAD_PEER_AS"); (3, "BAD_BGP_IDENTIFIER"); (4, "UNSUPPORTED_OPTIONAL_PARAMETER"); (6,
    "UNACCEPTABLE_HOLD_TIME"); (7, "UNSUPPORTED_CAPACITY"); (11, "ROLE_MISMATCH")] /\
  Forall (fun p => ser_error (error_of 3 (fst p)) = JObject [(str "UpdateError", JText (str (snd p)))])
    [(0, "UNSPECIFIC"); (1, "MALFORMED_ATTRIBUTE_LIST"); (2, "UNRECOGNIZED_WELL_KNOWN_ATTRIBUTE"); (3, "MISSING_WELL_KNOWN_ATTRIBUTE"); (4,
    "ATTRIBUTE_FLAGS_ERROR"); (5, "ATTRIBUTE_LENGTH_ERROR"); (6, "INVALID_ORIGIN_ERROR"); (8, "INVALID_NEXT_HOP_ATTRIBUTE"); (9,
    "OPTIONAL_ATTRIBUTE_ERROR"); (10, "INVALID_NETWORK_FIELD"); (11, "MALFORMED_AS_PATH")] /\
  Forall (fun p => ser_error (error_of 5 (fst p)) = JObject [(str "FiniteStateMachineError", JText (str (snd p)))])
    [(0, "UNSPECIFIED"); (1, "RECEIVE_UNEXPECTED_MESSAGE_IN_OPENSENT_State"); (2, "RECEIVE_UNEXPECTED_MESSAGE_IN_OPENCONFIRM_STATE"); (3,
    "RECEIVE_UNEXPECTED_MESSAGE_IN_ESTABLISHED_STATE")] /\
  Forall (fun p => ser_error (error_of 6 (fst p)) = JObject [(str "CeaseNotification", JText (str (snd p)))])
    [(0, "RESERVED"); (1, "MAXIMUM_NUMBER_OF_PREFIXES_REACHED"); (2, "ADMINISTRATIVE_SHUTDOWN"); (3, "PEER_DE_CONFIGURED"); (4,
    "ADMINISTRATIVE_RESET"); (5, "CONNECTION_REJECTED"); (6, "OTHER_CONFIGURATION_CHANGE"); (7, "CONNECTION_COLLISION_RESOLUTION"); (8,
    "OUT_OF_RESOURCES"); (9, "HARD_RESET"); (10, "BFD_DOWN")] /\
  Forall (fun p => ser_error (error_of 7 (fst p)) = JObject [(str "RouteFreshError", JText (str (snd p)))])
    [(0, "RESERVED"); (1, "INVALID_MESSAGE_LENGTH")] /\
  (forall s, ser_error (error_of 0 s) = JObject [(str "Reserved", JNum s)] /\ ser_error (error_of 4 s) = JObject [(str "HoldTimerExpired", JNum s)]) /\
  (forall c s, 7 < c -> ser_error (error_of c s) = JObject [(str "Unknown", JList [JNum c; JNum s])]).
Proof.
  repeat (split; [repeat constructor|]). intros c s H. destruct c as [|p]; [discriminate H|]. do 3 (destruct p as [p|p|]; try discriminate H; try reflexivity).
Qed.
Print Assumptions C98_errors.
(** The objects inside records. *)
Theorem C99_members tx ord :
  (forall p : peer, members (ser_peer tx p) = map str
    ["peer_type"; "peer_bgp_id"; "peer_ip"; "peer_asn"]) /\
  (forall g : geo_peer, members (ser_geo_peer tx g) = map str
    ["peer"; "peer_latitude"; "peer_longitude"]) /\
  (forall e : rib_entry, members (ser_rib_entry tx ord e) = map str
    ["peer_index"; "originated_time"; "path_id"; "attributes"]).
Proof. repeat (split; [intros; reflexivity|]); intros; reflexivity. Qed.
Print Assumptions C99_members.
Theorem C99_codes :
  named (ser_code entry_names)
    [(0, "NULL"); (1, "START"); (2, "DIE"); (3, "I_AM_DEAD"); (4, "PEER_DOWN"); (5, "BGP"); (6, "RIP"); (7, "IDRP"); (8, "RIPNG"); (9, "BGP4PLUS");
    (10, "BGP4PLUS_01"); (11, "OSPFv2"); (12, "TABLE_DUMP"); (13, "TABLE_DUMP_V2"); (16, "BGP4MP"); (17, "BGP4MP_ET"); (32, "ISIS"); (33, "ISIS_ET");
    (48, "OSPFv3"); (49, "OSPFv3_ET")] /\
  named (ser_code rib_names)
    [(1, "PeerIndexTable"); (2, "RibIpv4Unicast"); (3, "RibIpv4Multicast"); (4, "RibIpv6Unicast"); (5, "RibIpv6Multicast"); (6, "RibGeneric"); (7,
    "GeoPeerTable"); (8, "RibIpv4UnicastAddPath"); (9, "RibIpv4MulticastAddPath"); (10, "RibIpv6UnicastAddPath"); (11, "RibIpv6MulticastAddPath");
    (12, "RibGenericAddPath")] /\
  named (ser_code mp_names)
    [(0, "StateChange"); (1, "Message"); (4, "MessageAs4"); (5, "StateChangeAs4"); (6, "MessageLocal"); (7, "MessageAs4Local"); (8, "MessageAddpath");
    (9, "MessageAs4Addpath"); (10, "MessageLocalAddpath"); (11, "MessageLocalAs4Addpath")].
Proof. repeat (split; [unfold named; repeat constructor|]). unfold named; repeat constructor. Qed.
Print Assumptions C99_codes.
Theorem C99_states : map ser_state [StIdle; StConnect; StActive; StOpenSent; StOpenConfirm; StEstablished; StClearing; StDeleted] =
  map (fun w => JText (str w)) ["Idle"; "Connect"; "Active"; "OpenSent"; "OpenConfirm"; "Established"; "Clearing"; "Deleted"].
Proof. reflexivity. Qed.
Print Assumptions C99_states.
(** Variants with a payload: an object with one member that has the name of the variant. *)
Theorem C98_variants tx :
  (forall c, members (ser_comp tx c) = [str (match c with
      | FDestPrefix _ => "DestinationPrefix" | FSrcPrefix _ => "SourcePrefix" | FIpProto _ => "IpProtocol" | FPort _ => "Port" | FDestPort _ =>
      "DestinationPort" | FSrcPort _ => "SourcePort" | FIcmpType _ => "IcmpType" | FIcmpCode _ => "IcmpCode" | FTcpFlags _ => "TcpFlags" | FPktLen _
      => "PacketLength" | FDscp _ => "Dscp" | FFragment _ => "Fragment" | FFlowLabel _ => "FlowLabel" | FDestPrefix6 _ _ => "DestinationIpv6Prefix" |
      FSrcPrefix6 _ _ => "SourceIpv6Prefix"
      end)]) /\
  (forall h, members (ser_nexthop tx h) = [str (match h with
      | NH4 _ => "Ipv4" | NH6 _ => "Ipv6" | NH6L _ _ => "Ipv6LinkLocal" | NHVpn _ _ => "VpnIpv6" | NHVpnL _ _ _ _ => "VpnIpv6LinkLocal"
      end)]) /\
  (forall v, exists x, ser_cap_value v = JObject [(str (match v with
      | CvRaw _ => "Raw" | CvMp _ _ => "MultiprotocolExtensions" | CvRefresh => "RouteRefresh" | CvEnh _ => "ExtendedNextHop" | CvRestart _ =>
      "GracefulRestart" | CvAs4 _ => "FourOctetAs" | CvAddPath _ => "AddPath" | CvRole _ => "BgpRole" | CvExtMsg => "BgpExtendedMessage"
      end), x)] /\ members x = map str (match v with
      | CvMp _ _ => ["afi"; "safi"] | CvEnh _ => ["entries"] | CvRestart _ => ["restart_state"; "restart_time"; "address_families"] | CvAs4 _ =>
      ["asn"] | CvAddPath _ => ["address_families"] | CvRole _ => ["role"] | _ => []
      end)) /\
  (forall v, members (ser_param_value v) = [str (match v with PvRaw _ => "Raw" | PvCaps _ => "Capacities" end)]).
Proof.
  split; [intros []; reflexivity|]. split; [intros []; reflexivity|]. split; [intros []; eexists; split; reflexivity|intros []; reflexivity].
Qed.
Print Assumptions C98_variants.
(** An attribute that is aggregated by somebody, and roles and directions. *)
Theorem C98_words tx a i :
  ser_aggr tx a i = JObject [(str "asn", ser_asn a); (str "id", ser_ip4 tx i)] /\
  map (ser_unit role_text) [RProvider; RServer; RServerClient; RCustomer; RPeer] = map (fun w => JText (str w)) ["Provider"; "RouteServer"; "RouteServerClient"; "Customer"; "Peer"] /\
  map (ser_unit mode_text) [APReceive; APSend; APBoth] = map (fun w => JText (str w)) ["Receive"; "Send"; "SendReceive"].
Proof. repeat split. Qed.
Print Assumptions C98_words.
