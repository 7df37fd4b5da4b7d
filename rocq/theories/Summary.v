(** One-line texts of MRT headers and records (/repo/src/models/mrt/mod.rs) and texts of
    next hops and route distinguishers (/repo/src/models/network/nexthop.rs). *)
From Coq Require Import String.
From Verif Require Import Base Net AsPath Mpls Nlri Attr BgpMsg Bgp4mp TableDump Framing MrtRecord Text Psv Render.
Local Open Scope string_scope.
Local Open Scope list_scope.
Local Open Scope N_scope.

(** mod.rs:101-104, 119-122: the time, with six digits or more for the microseconds. *)
Definition show_clock (h : header) : bytes :=
  match h_us h with Some us => dec (h_ts h) ++ str "." ++ six us | None => dec (h_ts h) end.
(** mod.rs:99-112 [Display for CommonHeader]; the type is by [Debug]. *)
Definition show_header (h : header) : bytes :=
  str "MRT|" ++ show_clock h ++ str "|" ++ etype_name (h_type h) ++ str "|" ++ dec (h_sub h) ++ str "|" ++ dec (h_len h).
(** mod.rs:172-178, 190-196: the names of BGP messages. *)
Definition bgp_word (m : bgp_msg) : bytes :=
  match m with
  | MOpen _ => str "OPEN" | MUpdate _ => str "UPDATE" | MNotif _ => str "NOTIFICATION" | MKeepAlive => str "KEEPALIVE"
  | MRefresh _ => str "ROUTE_REFRESH"
  end.
(** mod.rs:130-202 [Display for MrtMessage]. A generic RIB, that the parser never makes, has
    no fields in the model (TableDump.v): its columns are left out. *)
Definition show_message (T : shows) (m : mrt_message) : bytes :=
  match m with
  | MrtDump d => str "TABLE_DUMP|" ++ show_prefix T (td_prefix d) ++ str "|" ++ sh_ip T (td_peer d)
  | MrtDumps l => str "TABLE_DUMP_BATCH|" ++ dec (nlen l) ++ str " entries"
  | MrtV2 (V2Peers t) => str "PEER_INDEX_TABLE|" ++ dec (nlen (pt_peers t))
  | MrtV2 (V2Rib r) => str "RIB|" ++ v2_name (rb_type r) ++ str "|" ++ show_prefix T (rb_prefix r) ++ str "|" ++ dec (nlen (rb_entries r)) ++ str " entries"
  | MrtV2 V2Generic => str "RIB_GENERIC"
  | MrtV2 (V2Geo t) => str "GEO_PEER_TABLE|" ++ dec (nlen (gt_peers t)) ++ str " peers"
  | MrtBgp4mp (MpStateChange x) =>
      str "STATE_CHANGE|" ++ sh_ip T (ms_peer x) ++ str "|" ++ show_asn (ms_peer_as x) ++ str "|" ++ state_name (ms_old x) ++ str "->" ++ state_name (ms_new x)
  | MrtBgp4mp (MpMessage x) => str "BGP4MP|" ++ sh_ip T (mm_peer x) ++ str "|" ++ show_asn (mm_peer_as x) ++ str "|" ++ bgp_word (mm_bgp x)
  | MrtLegacy (LgStateChange x) =>
      str "BGP|STATE_CHANGE|" ++ sh_ip T (ls_peer x) ++ str "|" ++ show_asn (ls_peer_as x) ++ str "|" ++ state_name (ls_old x) ++ str "->" ++ state_name (ls_new x)
  | MrtLegacy (LgMessage x) => str "BGP|" ++ sh_ip T (lg_peer x) ++ str "|" ++ show_asn (lg_peer_as x) ++ str "|" ++ bgp_word (lg_bgp x)
  end.
(** mod.rs:114-128 [Display for MrtRecord]. *)
Definition show_record (T : shows) (r : mrt_record) : bytes :=
  let h := mr_hdr r in
  str "MRT|" ++ show_clock h ++ str "|" ++ etype_name (h_type h) ++ str "|" ++ dec (h_sub h) ++ str "|" ++ show_message T (mr_msg r).

(** nexthop.rs:22-30 [Display for RouteDistinguisher], its eight octets given as a number;
    11-19 [Debug]. *)
Definition show_rd (d : N) : bytes := colons (map low_octet (be 8 d)).
Definition debug_rd (d : N) : bytes := str "RD(" ++ show_rd d ++ str ")".
(** nexthop.rs:75-87 [Debug for NextHopAddress]; its [Display] is [show_hop] of Render.v. *)
Definition debug_hop (T : shows) (n : nexthop) : bytes :=
  let v6 a := sh_ip T (V6 a) in
  match n with
  | NH4 a => sh_ip T (V4 a)
  | NH6 a => v6 a
  | NH6L a l => str "Ipv6LinkLocal(" ++ v6 a ++ str ", " ++ v6 l ++ str ")"
  | NHVpn d a => str "VpnIpv6(" ++ show_rd d ++ str ", " ++ v6 a ++ str ")"
  | NHVpnL d a e l => str "VpnIpv6LinkLocal(" ++ show_rd d ++ str ", " ++ v6 a ++ str ", " ++ show_rd e ++ str ", " ++ v6 l ++ str ")"
  end.
