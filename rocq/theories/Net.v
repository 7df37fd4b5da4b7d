(** Network primitives: AFI/SAFI, IP addresses, AS numbers, prefixes and NLRI
    lists (/repo/src/models/network/{afi,asn,prefix}.rs,
    /repo/src/parser/utils.rs). *)
From Verif Require Import Base Reader.

(** models/network/afi.rs:9-16 [Afi]. *)
Inductive afi := AIpv4 | AIpv6 | ALinkState.
Definition afi_eqb (a b : afi) : bool :=
  match a, b with
  | AIpv4, AIpv4 | AIpv6, AIpv6 | ALinkState, ALinkState => true
  | _, _ => false
  end.
(** afi.rs:9-16: the discriminants (1, 2, 16388) and [TryFrom<u16>]. *)
Definition afi_code (a : afi) : N :=
  match a with AIpv4 => 1 | AIpv6 => 2 | ALinkState => 16388 end.
Definition afi_of_code (n : N) : option afi :=
  if n =? 1 then Some AIpv4 else if n =? 2 then Some AIpv6
  else if n =? 16388 then Some ALinkState else None.

(** afi.rs:34-66 [Safi]: the discriminants and [TryFrom<u8>]. *)
Inductive safi :=
| SUnicast | SMulticast | SMulticastUnicast | SMplsLabel | SLinkState
| SLinkStateVpn | SMplsVpn | SMulticastVpn | SFlowSpec | SFlowSpecVpn.
Definition safi_eqb (a b : safi) : bool :=
  match a, b with
  | SUnicast, SUnicast | SMulticast, SMulticast
  | SMulticastUnicast, SMulticastUnicast | SMplsLabel, SMplsLabel
  | SLinkState, SLinkState | SLinkStateVpn, SLinkStateVpn
  | SMplsVpn, SMplsVpn | SMulticastVpn, SMulticastVpn
  | SFlowSpec, SFlowSpec | SFlowSpecVpn, SFlowSpecVpn => true
  | _, _ => false
  end.
Definition safi_code (a : safi) : N :=
  match a with
  | SUnicast => 1 | SMulticast => 2 | SMulticastUnicast => 3 | SMplsLabel => 4
  | SLinkState => 71 | SLinkStateVpn => 72 | SMplsVpn => 128
  | SMulticastVpn => 129 | SFlowSpec => 133 | SFlowSpecVpn => 134
  end.
Definition safi_of_code (n : N) : option safi :=
  if n =? 1 then Some SUnicast else if n =? 2 then Some SMulticast
  else if n =? 3 then Some SMulticastUnicast else if n =? 4 then Some SMplsLabel
  else if n =? 71 then Some SLinkState else if n =? 72 then Some SLinkStateVpn
  else if n =? 128 then Some SMplsVpn else if n =? 129 then Some SMulticastVpn
  else if n =? 133 then Some SFlowSpec else if n =? 134 then Some SFlowSpecVpn
  else None.

(** A failed [TryFrom<uN>] becomes a [ParseError] (error.rs:190-224). *)
Definition of_opt {A} (o : option A) : res A :=
  match o with Some a => Ok a | None => Err EParse end.

(** utils.rs:151-157 [read_afi], [read_safi]. *)
Definition read_afi : P afi := n <- read_u16 ;; lift (of_opt (afi_of_code n)).
Definition read_safi : P safi := n <- read_u8 ;; lift (of_opt (safi_of_code n)).

(** models/network/asn.rs: [Asn].  Equality, ordering and hashing ignore the
    [four_byte] flag (asn.rs:35-72), so an [Asn] is its number; the two places
    that look at the flag take it as a separate argument. *)
Definition asn := N.
(** asn.rs [AsnLength]. *)
Inductive asn_len := Bits16 | Bits32.
Definition asn_width (l : asn_len) : nat := match l with Bits16 => 2 | Bits32 => 4 end.

(** utils.rs:113-118 [read_asn]. *)
Definition read_asn (l : asn_len) : P asn :=
  match l with Bits16 => read_u16 | Bits32 => read_u32 end.

(** utils.rs:120-149 [read_asns].  [checked_mul] cannot overflow on the 64-bit
    targets modelled here (the count is a [u8] or derived from a [u16]). *)
Definition read_asns (l : asn_len) (count : N) : P (list asn) :=
  has_n (count * N.of_nat (asn_width l)) ;;; repeat_p (N.to_nat count) (read_asn l).

(** utils.rs:325-334 [encode_asn]; for [Bits16] the conversion [u16::from(&Asn)]
    truncates (asn.rs:127-131). *)
Definition encode_asn (l : asn_len) (a : asn) : bytes := be (asn_width l) a.

(** [std::net::IpAddr]; the payload is the address as an integer
    ([u32::from(ip)] / [u128::from(ip)]). *)
Inductive ip := V4 (n : N) | V6 (n : N).
Definition ip_eqb (a b : ip) : bool :=
  match a, b with V4 x, V4 y => x =? y | V6 x, V6 y => x =? y | _, _ => false end.
Definition is_v4 (i : ip) : bool := match i with V4 _ => true | V6 _ => false end.
(** afi.rs:18-26 [From<IpAddr> for Afi]. *)
Definition afi_of_ip (i : ip) : afi := match i with V4 _ => AIpv4 | V6 _ => AIpv6 end.
(** utils.rs:336-341 [encode_ipaddr] = [octets()]. *)
Definition octets (i : ip) : bytes :=
  match i with V4 n => be 4 n | V6 n => be 16 n end.

(** utils.rs:83-92 [read_ipv4_address], [read_ipv6_address]. *)
Definition read_ipv4 : P N := read_u32.
Definition read_ipv6 : P N := read_be 16.

(** utils.rs:65-81 [read_address]: failures become an [io::Error] of kind
    [Other], i.e. [ParserError::IoError] (error.rs:181-188). *)
Definition read_address (a : afi) : P ip := fun s =>
  match a with
  | AIpv4 => match read_ipv4 s with Ok (n, r) => Ok (V4 n, r) | Err _ => Err EIo | Panic => Panic end
  | AIpv6 => match read_ipv6 s with Ok (n, r) => Ok (V6 n, r) | Err _ => Err EIo | Panic => Panic end
  | ALinkState => Ok (V4 0, s)
  end.

(** [ipnet::IpNet]: an address (host bits kept) and a prefix length. *)
Record ipnet := Net { net_addr : ip; net_len : N }.
Definition ipnet_eqb (a b : ipnet) : bool :=
  ip_eqb (net_addr a) (net_addr b) && (net_len a =? net_len b).

(** utils.rs:94-110 [read_ipv4_prefix], [read_ipv6_prefix]; [IpNet::new] refuses
    a mask above the address width. *)
Definition read_ipv4_prefix : P ipnet :=
  a <- read_ipv4 ;; m <- read_u8 ;;
  if m <=? 32 then ret (Net (V4 a) m) else fail EIo.
Definition read_ipv6_prefix : P ipnet :=
  a <- read_ipv6 ;; m <- read_u8 ;;
  if m <=? 128 then ret (Net (V6 a) m) else fail EIo.

(** models/network/prefix.rs:17-24 [NetworkPrefix]. *)
Record prefix := Pfx { p_net : ipnet; p_id : option N }.
Definition prefix_eqb (a b : prefix) : bool :=
  ipnet_eqb (p_net a) (p_net b) && option_eqb N.eqb (p_id a) (p_id b).

(** [bit_len.div_ceil(8)] *)
Definition byte_len (bits : N) : N := (bits + 7) / 8.

(** utils.rs:192-281 [try_parse_prefix].  The Rust code works on a slice and
    returns the number of octets consumed, which [read_nlri_prefix]
    (utils.rs:164-174) then advances over; here both are one parser. *)
Definition read_nlri_prefix (a : afi) (add_path : bool) : P prefix :=
  pid <- (if add_path then i <- read_u32 ;; ret (Some i) else ret None) ;;
  bits <- read_u8 ;;
  let maxb := match a with AIpv4 => 32 | AIpv6 => 128 | ALinkState => 0 end in
  if maxb <? bits then fail EParse else
  let bl := byte_len bits in
  match a with
  | AIpv4 =>
      if 4 <? bl then fail EParse else
      l <- read_n_bytes bl ;;
      ret (Pfx (Net (V4 (be_val (l ++ repeat 0 (4 - N.to_nat bl)))) bits) pid)
  | AIpv6 =>
      if 16 <? bl then fail EParse else
      l <- read_n_bytes bl ;;
      ret (Pfx (Net (V6 (be_val (l ++ repeat 0 (16 - N.to_nat bl)))) bits) pid)
  | ALinkState => ret (Pfx (Net (V4 0) bits) pid)
  end.

(** utils.rs:283-323 [parse_nlri_list]; the state is [is_add_path] and
    [use_heuristic]. *)
Fixpoint nlri_loop (fuel : nat) (add_path : bool) (a : afi)
         (is_ap use_h : bool) (s : bytes) : res (list prefix) :=
  match s with
  | [] => Ok []
  | b0 :: _ =>
    match fuel with
    | O => Panic
    | S f =>
      let trigger := negb is_ap && (b0 =? 0) in
      let is_ap := is_ap || trigger in
      let use_h := use_h || trigger in
      match read_nlri_prefix a is_ap s with
      | Ok (p, s') => l <~ nlri_loop f add_path a is_ap use_h s' ;; Ok (p :: l)
      | Err e =>
        if use_h then
          '(p, s') <~ read_nlri_prefix a add_path s ;;
          l <~ nlri_loop f add_path a add_path false s' ;; Ok (p :: l)
        else Err e
      | Panic => Panic
      end
    end
  end.
Definition parse_nlri_list (s : bytes) (add_path : bool) (a : afi) : res (list prefix) :=
  nlri_loop (length s) add_path a add_path false s.

(** prefix.rs:66-90 [NetworkPrefix::encode].  [IpNet] guarantees a length at
    most 32/128, so the slice [octets()[0..byte_len]] is in range. *)
Definition encode_prefix (p : prefix) : bytes :=
  (match p_id p with Some i => be 4 i | None => [] end) ++
  be 1 (net_len (p_net p)) ++
  firstn (N.to_nat (byte_len (net_len (p_net p)))) (octets (net_addr (p_net p))).

(** utils.rs:343-349 [encode_nlri_prefixes]. *)
Definition encode_nlri_prefixes (l : list prefix) : bytes := flat_map encode_prefix l.

(** [Ipv4Net::broadcast] / [Ipv6Net::broadcast]: the address with the host bits
    set (ipnet crate). *)
Definition net_width (i : ip) : N := match i with V4 _ => 32 | V6 _ => 128 end.
Definition ip_val (i : ip) : N := match i with V4 n | V6 n => n end.
Definition net_broadcast (x : ipnet) : N :=
  let h := 2 ^ (net_width (net_addr x) - net_len x) in
  ip_val (net_addr x) - ip_val (net_addr x) mod h + (h - 1).
