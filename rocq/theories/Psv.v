(** Text forms of elements, prefixes and communities
    (/repo/src/models/bgp/{elem,community}.rs, /repo/src/models/bgp/attributes/origin.rs,
    /repo/src/models/network/prefix.rs). *)
From Coq Require Import String.
From Verif Require Import Base Net AsPath Community Attr Elem Filter Text.

(** [Display] of std for [f64], [f32] (given by its bits) and [IpAddr], [Ipv4Addr],
    [Ipv6Addr]: not modelled, taken as parameters. *)
Record shows := Shows { sh_time : f64 -> bytes; sh_single : N -> bytes; sh_ip : ip -> bytes }.

(** community.rs:334-343 [ToHexString]: two upper case digits for each octet. *)
Definition hex_digit (n : N) : N := if n <? 10 then 48 + n else 55 + n.
Definition hex_octet (b : N) : bytes := [hex_digit (b / 16); hex_digit (b mod 16)].
Definition show_hex (b : bytes) : bytes := flat_map hex_octet b.
(** [write!] with fields and a colon between them. *)
Definition colons (l : list bytes) : bytes := join [58] l.

(** community.rs:345-354 [Display for Community]. *)
Definition show_community (c : community) : bytes :=
  match c with
  | CNoExport => str "no-export"
  | CNoAdvertise => str "no-advertise"
  | CNoExportSubConfed => str "no-export-sub-confed"
  | CCustom a v => colons [show_asn a; dec v]
  end.
(** community.rs:356-364 [Display for LargeCommunity]. *)
Definition show_large (c : large_community) : bytes := colons [dec (lc_admin c); dec (lc_d0 c); dec (lc_d1 c)].
(** community.rs:366-447 [Display for ExtendedCommunity]. *)
Definition show_ext (T : shows) (x : ext_community) : bytes :=
  let t := dec (ect_code (ext_type x)) in
  match x with
  | XTwoOctet _ st a l => colons [t; dec st; show_asn a; show_hex l]
  | XIpv4 _ st a l => colons [t; dec st; sh_ip T (V4 a); show_hex l]
  | XFourOctet _ st a l => colons [t; dec st; show_asn a; show_hex l]
  | XOpaque _ st v => colons [t; dec st; show_hex v]
  | XTrafficRate a r => str "rate:" ++ sh_single T r ++ str " bytes/sec (AS " ++ dec a ++ str ")"
  | XTrafficAction a te sa =>
      str "action:" ++ join [44] ((if te then [str "terminal"] else []) ++ (if sa then [str "sample"] else [])) ++
      str " (AS " ++ dec a ++ str ")"
  | XRedirect _ a l => str "redirect:AS" ++ show_asn a ++ str ":" ++ show_hex l
  | XTrafficMarking a d => str "mark:DSCP" ++ dec d ++ str " (AS " ++ dec a ++ str ")"
  | XLinkBandwidth _ a b => colons [t; dec 4; dec a; sh_single T b]
  | XRaw b => show_hex b
  end.
(** community.rs:449-460 [Display for Ipv6AddrExtCommunity]. *)
Definition show_ipv6_ext (T : shows) (x : ipv6_ext) : bytes :=
  colons [dec (ect_code (ie_type x)); dec (ie_subtype x); sh_ip T (V6 (ie_admin x)); show_hex [ie_l0 x; ie_l1 x]].
(** community.rs:462-471 [Display for MetaCommunity]. *)
Definition show_meta (T : shows) (c : meta_community) : bytes :=
  match c with
  | MPlain x => show_community x | MExtended x => show_ext T x | MLarge x => show_large x | MIpv6Extended x => show_ipv6_ext T x
  end.

(** origin.rs:18-26 [Display for Origin]. *)
Definition show_origin (o : origin) : bytes :=
  match o with IGP => str "IGP" | EGP => str "EGP" | INCOMPLETE => str "INCOMPLETE" end.
(** [Display for IpNet]: the address, a slash, the length. *)
Definition show_net (T : shows) (n : ipnet) : bytes := sh_ip T (net_addr n) ++ [47] ++ dec (net_len n).
(** prefix.rs:93-97 [Display for NetworkPrefix], 16-23 [Debug for NetworkPrefix]. *)
Definition show_prefix (T : shows) (p : prefix) : bytes := show_net T (p_net p).
Definition debug_prefix (T : shows) (p : prefix) : bytes :=
  match p_id p with Some i => show_net T (p_net p) ++ [35] ++ dec i | None => show_net T (p_net p) end.

(** elem.rs:257-266 [OptionToStr], 273-289 [OptionToStrVec], 291-298
    [option_to_string_communities]. *)
Definition show_opt {A} (f : A -> bytes) (o : option A) : bytes := match o with Some a => f a | None => [] end.
Definition show_vec {A} (f : A -> bytes) (o : option (list A)) : bytes :=
  match o with Some l => join [32] (map f l) | None => [] end.
Definition show_type (t : elem_type) : bytes := match t with Announce => str "A" | Withdraw => str "W" end.
Definition show_bool (b : bool) : bytes := if b then str "true" else str "false".
Definition bars (l : list bytes) : bytes := join [124] l.

(** elem.rs:300-325 [Display for BgpElem]. *)
Definition show_elem (T : shows) (e : elem) : bytes :=
  bars [show_type (e_type e); sh_time T (e_time e); sh_ip T (e_peer e); show_asn (e_asn e); show_prefix T (e_prefix e);
    show_opt show_path (e_path e); show_opt show_origin (e_origin e); show_opt (sh_ip T) (e_hop e);
    show_opt dec (e_pref e); show_opt dec (e_med e); show_vec (show_meta T) (e_comms e); show_bool (e_atomic e);
    show_opt show_asn (e_aggr_asn e); show_opt (fun n => sh_ip T (V4 n)) (e_aggr_ip e)].
(** elem.rs:327-345 [Display for BgpRouteElem]. *)
Definition show_route (T : shows) (r : route) : bytes :=
  bars [show_type (ro_type r); sh_time T (ro_time r); sh_ip T (ro_peer r); show_asn (ro_asn r); show_prefix T (ro_prefix r);
    show_opt show_path (ro_path r)].
(** elem.rs:376-397 [get_psv_header]. *)
Definition psv_header : bytes :=
  bars [str "type"; str "timestamp"; str "peer_ip"; str "peer_asn"; str "prefix"; str "as_path"; str "origin_asns"; str "origin";
    str "next_hop"; str "local_pref"; str "med"; str "communities"; str "atomic"; str "aggr_asn"; str "aggr_ip"; str "only_to_customer"].
(** elem.rs:413-437 [to_psv]. *)
Definition to_psv (T : shows) (e : elem) : bytes :=
  bars [show_type (e_type e); sh_time T (e_time e); sh_ip T (e_peer e); show_asn (e_asn e); show_prefix T (e_prefix e);
    show_opt show_path (e_path e); show_vec show_asn (e_origins e); show_opt show_origin (e_origin e); show_opt (sh_ip T) (e_hop e);
    show_opt dec (e_pref e); show_opt dec (e_med e); show_vec (show_meta T) (e_comms e); show_bool (e_atomic e);
    show_opt show_asn (e_aggr_asn e); show_opt (fun n => sh_ip T (V4 n)) (e_aggr_ip e); show_opt show_asn (e_otc e)].
