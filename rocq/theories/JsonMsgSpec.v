(** Vocabulary: the values that the fields of NLRI, attributes and messages can have. *)
From Coq Require Import String Sorting.Permutation.
From Verif Require Import Base Net NetSpec AsPath Community Mpls FlowSpec Tlv LinkState LinkStateSpec Nlri Attr Cap BgpError BgpMsg Elem Text Filter Json JsonSpec.
Local Open Scope string_scope. Local Open Scope list_scope. Local Open Scope N_scope.

Definition u8v (n : N) : Prop := n < 256.
Definition u16v (n : N) : Prop := n < 2 ^ 16.
Definition u32v (n : N) : Prop := n < 2 ^ 32.
Definition u64v (n : N) : Prop := n < 2 ^ 64.
Definition u128v (n : N) : Prop := n < 2 ^ 128.
(** A map is iterated over in some order. *)
Definition any_order (ord : kmap -> kmap) : Prop := forall m, Permutation (ord m) m.

(** * NLRI *)
Definition hop_ranged (h : nexthop) : Prop :=
  match h with
  | NH4 a => u32v a | NH6 a => u128v a | NH6L a b => u128v a /\ u128v b | NHVpn d a => u64v d /\ u128v a
  | NHVpnL d a e b => u64v d /\ u128v a /\ u64v e /\ u128v b
  end.
Definition labeled_ranged (p : labeled) : Prop := net_ok (lp_net p) /\ Forall (fun l => l < 2 ^ 20) (lp_labels p) /\ opt_all u32v (lp_id p).
Definition num_ranged (o : numop) : Prop := u8v (no_len o) /\ u64v (no_val o).
Definition bit_ranged (o : bitop) : Prop := u8v (bo_len o) /\ u64v (bo_val o).
Definition comp_ranged (c : fs_comp) : Prop :=
  match c with
  | FDestPrefix p | FSrcPrefix p => prefix_ok p
  | FDestPrefix6 o p | FSrcPrefix6 o p => u8v o /\ prefix_ok p
  | FIpProto l | FPort l | FDestPort l | FSrcPort l | FIcmpType l | FIcmpCode l | FPktLen l | FDscp l | FFlowLabel l => Forall num_ranged l
  | FTcpFlags l | FFragment l => Forall bit_ranged l
  end.
Definition tlv_ranged (bound : N) (t : tlv) : Prop := t_type t < bound /\ bytes_ok (t_value t).
Definition node_ranged (d : node_desc) : Prop :=
  opt_all u32v (nd_as d) /\ opt_all u32v (nd_ls_id d) /\ opt_all u32v (nd_area d) /\ opt_all bytes_ok (nd_router d) /\
  Forall (tlv_ranged (2 ^ 16)) (nd_unknown d).
Definition link_ranged (d : link_desc) : Prop :=
  opt_all (fun p => u32v (fst p) /\ u32v (snd p)) (ld_ids d) /\ opt_all u32v (ld_if4 d) /\ opt_all u32v (ld_nb4 d) /\
  opt_all u128v (ld_if6 d) /\ opt_all u128v (ld_nb6 d) /\ opt_all u16v (ld_mt d) /\ Forall (tlv_ranged (2 ^ 16)) (ld_unknown d).
Definition pdesc_ranged (d : prefix_desc) : Prop :=
  opt_all u16v (pd_mt d) /\ opt_all u8v (pd_ospf d) /\ opt_all net_ok (pd_reach d) /\ Forall (tlv_ranged (2 ^ 16)) (pd_unknown d).
(** NLRI types go up to 7, protocols up to 9. *)
Definition ls_ranged (n : ls_nlri) : Prop :=
  ln_type n <= 7 /\ ln_proto n <= 9 /\ u64v (ln_id n) /\ node_ranged (ln_local n) /\ opt_all node_ranged (ln_remote n) /\
  opt_all link_ranged (ln_link n) /\ opt_all pdesc_ranged (ln_prefix n).
Definition nlri_ranged (n : nlri) : Prop :=
  opt_all hop_ranged (nl_next n) /\ Forall prefix_ok (nl_prefixes n) /\ opt_all (Forall labeled_ranged) (nl_labeled n) /\
  opt_all (Forall ls_ranged) (nl_ls n) /\ opt_all (Forall (Forall comp_ranged)) (nl_fs n).

(** * Attributes *)
(** The keys of the three maps of a link-state attribute; 0 is the reserved type.  The types of
    router identifiers of nodes can also be those of a link attribute. *)
Definition keyed (types : list N) (m : kmap) : Prop := increasing_keys m /\ Forall (fun kv => In (fst kv) types /\ bytes_ok (snd kv)) m.
Definition ls_attr_ranged (a : ls_attr) : Prop :=
  keyed (0 :: node_types) (la_node a) /\ keyed (0 :: 1028 :: 1029 :: 1030 :: 1031 :: link_types) (la_link a) /\
  keyed (0 :: prefix_types) (la_prefix a) /\ Forall (tlv_ranged (2 ^ 16)) (la_unknown a).
Definition sub_ranged (t : tlv) : Prop := (t_type t <= 20 \/ t_type t = 128 \/ t_type t = 129) /\ bytes_ok (t_value t).
Definition tunnel_ranged (t : tunnel) : Prop := tn_type t <= 22 /\ Forall sub_ranged (tn_subs t).
Definition te_ranged (t : traffic_eng) : Prop :=
  u8v (te_cap t) /\ u8v (te_enc t) /\ u16v (te_reserved t) /\ nlen (te_bw t) = 8 /\ bytes_ok (te_specific t).
Definition aigp_ranged (t : aigp_tlv) : Prop := u8v (ai_type t) /\ u16v (ai_len t) /\ bytes_ok (ai_value t).
(** Values of the types of the fields; [AttrSet] is not modelled. *)
Definition av_ranged (v : attr_value) : Prop :=
  match v with
  | AOrigin _ | AAtomicAggregate => True
  | AAsPath p | AAs4Path p => path_u32 p
  | ANextHop i => ip_ok i
  | AMed n | ALocalPref n | AOtc n | AOriginatorId n => u32v n
  | AAggregator a i | AAs4Aggregator a i => u32v a /\ u32v i
  | ACommunities l => Forall (fun c => meta_ranged (MPlain c)) l
  | AExtCommunities l => Forall ext_ranged l
  | AIpv6ExtCommunities l => Forall (fun c => meta_ranged (MIpv6Extended c)) l
  | ALargeCommunities l => Forall (fun c => meta_ranged (MLarge c)) l
  | AClusters l => Forall u32v l
  | AMpReach n | AMpUnreach n => nlri_ranged n
  | ALinkStateAttr a => ls_attr_ranged a
  | ATunnelEncap l => Forall tunnel_ranged l
  | ATrafficEng t => te_ranged t
  | ABfd b => u8v (bfd_mode b) /\ u32v (bfd_disc b) /\ Forall (tlv_ranged 256) (bfd_tlvs b)
  | APrefixSid l | ASfp l => Forall (tlv_ranged 256) l
  | ABier l => Forall (tlv_ranged (2 ^ 16)) l
  | ADevelopment b => bytes_ok b
  | ARaw c b | ADeprecated c b | AUnknown c b => u8v c /\ bytes_ok b
  | AAigp l => Forall aigp_ranged l
  | AAttrSet _ => False
  end.
(** No NaN and no infinity among bandwidths and rates; paths that C80 does not exclude. *)
Definition av_kept (v : attr_value) : Prop :=
  match v with
  | AAsPath p | AAs4Path p => path_kept p
  | AExtCommunities l => Forall (fun x => meta_finite (MExtended x)) l
  | ATrafficEng t => Forall single_finite (te_bw t)
  | _ => True
  end.
Definition attr_in (a : attribute) : Prop := av_ranged (a_value a) /\ u8v (a_flag a).
Definition attr_kept (a : attribute) : Prop := av_kept (a_value a).
(** What is read for attributes with the list [l]: the list, no warnings, and the types that are in
    the list. *)
Definition plain_attrs (l : list attribute) (a : attributes) : Prop :=
  at_inner a = l /\ at_warnings a = [] /\ forall c, has_attr a c = true <-> exists x, In x l /\ attr_code (a_value x) = c.

(** * Messages *)
Definition cv_ranged (v : cap_value) : Prop :=
  match v with CvRaw b => bytes_ok b | CvRestart g => u16v (gr_time g) | CvAs4 n => u32v n | _ => True end.
Definition cap_ranged (c : capability) : Prop := u8v (cap_type c) /\ cv_ranged (cap_val c).
Definition param_ranged (p : opt_param) : Prop :=
  u8v (op_type p) /\ match op_value p with PvRaw b => bytes_ok b | PvCaps l => Forall cap_ranged l end.
Definition open_ranged (m : open_msg) : Prop :=
  u8v (o_version m) /\ u32v (o_asn m) /\ u16v (o_hold m) /\ u32v (o_id m) /\ Forall param_ranged (o_params m).
Definition up_ranged (m : update_msg) : Prop :=
  Forall prefix_ok (u_withdrawn m) /\ Forall attr_in (at_inner (u_attrs m)) /\ Forall prefix_ok (u_announced m).
Definition error_ranged (e : bgp_error) : Prop :=
  match e with
  | EReserved n | EHoldTimer n | EHeader (HUnknown n) | EOpen (OUnknown n) | EUpdate (UUnknown n) | EFsm (FUnknown n) | ECease (CUnknown n)
  | ERefresh (RUnknown n) => u8v n
  | EUnknown c s => u8v c /\ u8v s
  | _ => True
  end.
Definition refresh_ranged (m : refresh_msg) : Prop := u16v (rf_afi m) /\ u8v (rf_subtype m) /\ u8v (rf_safi m) /\ bytes_ok (rf_data m).
Definition msg_ranged (m : bgp_msg) : Prop :=
  match m with
  | MOpen o => open_ranged o | MUpdate u => up_ranged u | MNotif n => error_ranged (nt_error n) /\ bytes_ok (nt_data n) | MKeepAlive => True
  | MRefresh r => refresh_ranged r
  end.
Definition msg_kept (m : bgp_msg) : Prop := match m with MUpdate u => Forall attr_kept (at_inner (u_attrs u)) | _ => True end.
(** The same message; of the attributes of an UPDATE the list is the same, warnings are dropped. *)
Definition same_msg (m n : bgp_msg) : Prop :=
  match m with
  | MUpdate u => exists a, n = MUpdate (Update (u_withdrawn u) a (u_announced u)) /\ plain_attrs (at_inner (u_attrs u)) a
  | _ => n = m
  end.

(** * Names *)
(** The name of an attribute in JSON. *)
Definition attr_word (v : attr_value) : string :=
  match v with
  | AOrigin _ => "Origin" | AAsPath _ => "AsPath" | AAs4Path _ => "As4Path" | ANextHop _ => "NextHop" | AMed _ => "MultiExitDiscriminator"
  | ALocalPref _ => "LocalPreference" | AOtc _ => "OnlyToCustomer" | AAtomicAggregate => "AtomicAggregate" | AAggregator _ _ => "Aggregator"
  | AAs4Aggregator _ _ => "As4Aggregator" | ACommunities _ => "Communities" | AExtCommunities _ => "ExtendedCommunities"
  | AIpv6ExtCommunities _ => "Ipv6AddressSpecificExtendedCommunities" | ALargeCommunities _ => "LargeCommunities" | AOriginatorId _ => "OriginatorId"
  | AClusters _ => "Clusters" | AMpReach _ => "MpReachNlri" | AMpUnreach _ => "MpUnreachNlri" | ALinkStateAttr _ => "LinkState"
  | ATunnelEncap _ => "TunnelEncapsulation" | ATrafficEng _ => "TrafficEngineering" | ABfd _ => "BfdDiscriminator" | APrefixSid _ => "BgpPrefixSid"
  | ABier _ => "Bier" | ASfp _ => "Sfp" | ADevelopment _ => "Development" | ARaw _ _ => "Raw" | ADeprecated _ _ => "Deprecated"
  | AUnknown _ _ => "Unknown" | AAigp _ => "Aigp" | AAttrSet _ => "AttrSet"
  end.
Definition msg_word (m : bgp_msg) : string :=
  match m with
  | MOpen _ => "Open" | MUpdate _ => "Update" | MNotif _ => "Notification" | MKeepAlive => "KeepAlive" | MRefresh _ => "RouteRefresh"
  end.
(** The members of a JSON object. *)
Definition members (j : json) : list bytes := match j with JObject l => map fst l | _ => [] end.
Definition msg_members (m : bgp_msg) : list string :=
  match m with
  | MOpen _ => ["version"; "asn"; "hold_time"; "bgp_identifier"; "extended_length"; "opt_params"]
  | MUpdate _ => ["withdrawn_prefixes"; "attributes"; "announced_prefixes"]
  | MNotif _ => ["error"; "data"]
  | MKeepAlive => []
  | MRefresh _ => ["afi"; "subtype"; "safi"; "data"]
  end.
(** The words of a flag octet, in this order; the four bits without a name are one hexadecimal
    digit. *)
Definition flag_words_of (f : N) : list bytes :=
  (if 128 <=? f then [str "OPTIONAL"] else []) ++ (if 64 <=? f mod 128 then [str "TRANSITIVE"] else []) ++
  (if 32 <=? f mod 64 then [str "PARTIAL"] else []) ++ (if 16 <=? f mod 32 then [str "EXTENDED"] else []) ++
  (if f mod 16 =? 0 then [] else [str "0x" ++ [nth (N.to_nat (f mod 16)) (str "0123456789abcdef") 0]]).
