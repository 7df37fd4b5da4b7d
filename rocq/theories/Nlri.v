(** MP_REACH_NLRI and MP_UNREACH_NLRI (/repo/src/parser/bgp/attributes/attr_14_15_nlri.rs,
    attr_03_next_hop.rs, /repo/src/models/bgp/attributes/nlri.rs,
    /repo/src/models/network/nexthop.rs). *)
From Verif Require Import Base Reader Net Mpls FlowSpec Tlv LinkState.

(** nexthop.rs:38-48 [NextHopAddress]; addresses and route distinguishers are
    numbers ([RouteDistinguisher] is eight octets, nexthop.rs:9). *)
Inductive nexthop :=
| NH4 (a : N) | NH6 (a : N) | NH6L (a ll : N)
| NHVpn (rd a : N) | NHVpnL (rd a rd2 ll : N).
(** nexthop.rs:63-71 [addr], 101-108 [From<IpAddr>]. *)
Definition nh_addr (n : nexthop) : ip :=
  match n with
  | NH4 a => V4 a | NH6 a | NH6L a _ | NHVpn _ a | NHVpnL _ a _ _ => V6 a
  end.
Definition nh_of_ip (i : ip) : nexthop := match i with V4 a => NH4 a | V6 a => NH6 a end.
(** nexthop.rs:52-60 [is_link_local]: 169.254.0.0/16, fe80::/10. *)
Definition v6_link_local (a : N) : bool := N.land (N.shiftr a 112) 0xffc0 =? 0xfe80.
Definition nh_link_local (n : nexthop) : bool :=
  match n with
  | NH4 a => N.shiftr a 16 =? 169 * 256 + 254
  | NH6 a | NHVpn _ a => v6_link_local a
  | NH6L _ _ | NHVpnL _ _ _ _ => true
  end.

(** nlri.rs:10-32 [Nlri]. *)
Record nlri := Nlri {
  nl_afi : afi; nl_safi : safi; nl_next : option nexthop; nl_prefixes : list prefix;
  nl_labeled : option (list labeled); nl_ls : option (list ls_nlri);
  nl_fs : option (list (list fs_comp)) }.
(** nlri.rs:68-73 [next_hop_addr]. *)
Definition next_hop_addr (n : nlri) : res ip :=
  match nl_next n with Some h => Ok (nh_addr h) | None => Panic end.
(** nlri.rs:75-108 [new_reachable], [new_unreachable]. *)
Definition new_reachable (p : prefix) (h : option ip) : nlri :=
  Nlri (afi_of_ip (net_addr (p_net p))) SUnicast (option_map nh_of_ip h) [p] None None None.
Definition new_unreachable (p : prefix) : nlri :=
  Nlri (afi_of_ip (net_addr (p_net p))) SUnicast None [p] None None None.
(** nlri.rs:217-251 [IntoIterator]: the plain, then the labelled networks. *)
Definition nlri_nets (n : nlri) : list ipnet :=
  map p_net (nl_prefixes n) ++
  match nl_labeled n with Some l => map lp_net l | None => [] end.

(** attr_03_next_hop.rs:17-63 [parse_mp_next_hop]. *)
Definition parse_mp_next_hop (s : bytes) : res (option nexthop) :=
  match length s with
  | O => Ok None
  | 4%nat => run (a <- read_ipv4 ;; ret (Some (NH4 a))) s
  | 16%nat => run (a <- read_ipv6 ;; ret (Some (NH6 a))) s
  | 24%nat => run (d <- read_be 8 ;; a <- read_ipv6 ;; ret (Some (NHVpn d a))) s
  | 32%nat => run (a <- read_ipv6 ;; b <- read_ipv6 ;; ret (Some (NH6L a b))) s
  | 48%nat => run (d <- read_be 8 ;; a <- read_ipv6 ;; e <- read_be 8 ;; b <- read_ipv6 ;;
                   ret (Some (NHVpnL d a e b))) s
  | _ => Err EParse
  end.
(** attr_14_15_nlri.rs:172-194 (and attr_03_next_hop.rs:73-100 [encode_mp_next_hop]). *)
Definition nh_bytes (n : nexthop) : bytes :=
  match n with
  | NH4 a => be 4 a
  | NH6 a => be 16 a
  | NH6L a b => be 16 a ++ be 16 b
  | NHVpn d a => be 8 d ++ be 16 a
  | NHVpnL d a e b => be 8 d ++ be 16 a ++ be 8 e ++ be 16 b
  end.

(** attr_14_15_nlri.rs:85-90: the configuration for labelled NLRI. *)
Definition nlri_label_cfg (ap : bool) : label_cfg := LCfg ap MultiLabel 16 None.
(** attr_14_15_nlri.rs:38-58: the family is on the wire unless the caller gave it and
    the first octet is not zero. *)
Definition given_or {A} (zero : bool) (o : option A) (p : P A) : P A :=
  match o with Some a => if zero then p else ret a | None => p end.
(** attr_14_15_nlri.rs:60-66: the next hop of a reachable NLRI. *)
Definition read_next_hop (reachable : bool) : P (option nexthop) :=
  if reachable then
    n <- read_u8 ;; has_n n ;;; b <- split_to (N.to_nat n) ;; lift (parse_mp_next_hop b)
  else ret None.
(** The reserved octet; its value is only logged. *)
Definition skip_reserved (reachable : bool) : P unit :=
  if reachable then read_u8 ;;; ret tt else ret tt.
(** The buffer is passed on by value: hand the rest of it to a whole-buffer parser. *)
Definition all_of {A} (f : bytes -> res A) : P A := fun s => a <~ f s ;; Ok (a, []).
(** attr_14_15_nlri.rs:28-148 [parse_nlri]; the result is the [Nlri], which the Rust
    code wraps in [MpReachNlri] or [MpUnreachNlri]. *)
Definition parse_nlri (s : bytes) (a : option afi) (sf : option safi) (ps : option (list prefix))
    (reachable ap : bool) : res nlri :=
  let zero := match s with b :: _ => b =? 0 | [] => false end in
  run (a <- given_or zero a read_afi ;;
       sf <- given_or zero sf read_safi ;;
       nh <- read_next_hop reachable ;;
       if afi_eqb a ALinkState && (safi_eqb sf SLinkState || safi_eqb sf SLinkStateVpn) then
         skip_reserved reachable ;;;
         l <- all_of parse_ls_nlris ;;
         ret (Nlri a sf nh [] None (Some l) None)
       else if safi_eqb sf SMplsLabel then
         if reachable then
           skip_reserved true ;;;
           l <- all_of (fun s => parse_labeled_nlri s a (nlri_label_cfg ap)) ;;
           ret (Nlri a sf nh [] (Some l) None None)
         else
           l <- all_of (fun s => parse_labeled_withdrawal_nlri s a (nlri_label_cfg ap)) ;;
           ret (Nlri a sf nh l None None None)
       else
         let read := skip_reserved reachable ;;; all_of (fun s => parse_nlri_list s ap a) in
         l <- match ps with
              | Some l => if zero then read else ret l
              | None => read
              end ;;
         ret (Nlri a sf nh l None None None)) s.

(** attr_14_15_nlri.rs:207-221: one labelled prefix; any error is [Unencodable]. *)
Definition encode_nlri_labeled (ap : bool) (p : labeled) : res bytes :=
  match encode_labeled_prefix p (if nlen (lp_labels p) <=? 1 then SingleLabel else MultiLabel) ap None with
  | Err _ => Err EUnenc
  | r => r
  end.
Definition opt_list {A} (o : option (list A)) : list A := match o with Some l => l | None => [] end.
(** attr_14_15_nlri.rs:157-255 [encode_nlri]. *)
Definition encode_nlri (n : nlri) (reachable ap : bool) : res bytes :=
  nh <~ match nl_next n with
        | Some h => put_len_slice 1 (nh_bytes h)
        | None => Ok []
        end ;;
  let reserved := if reachable then [0] else [] in
  body <~ (if safi_eqb (nl_safi n) SMplsLabel then
             bs <~ rmap (encode_nlri_labeled ap) (opt_list (nl_labeled n)) ;; Ok (concat bs)
           else if afi_eqb (nl_afi n) ALinkState then
             Ok (flat_map (fun x => be 2 (ln_type x) ++ be 2 0) (opt_list (nl_ls n)))
           else
             fs <~ rmap encode_flowspec_nlri (opt_list (nl_fs n)) ;;
             Ok (flat_map encode_prefix (nl_prefixes n) ++ concat fs)) ;;
  Ok (be 2 (afi_code (nl_afi n)) ++ be 1 (safi_code (nl_safi n)) ++ nh ++ reserved ++ body).
