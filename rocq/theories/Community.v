(** BGP communities: plain, extended, IPv6 extended and large
    (/repo/src/models/bgp/community.rs,
    /repo/src/parser/bgp/attributes/attr_08_communities.rs,
    attr_16_25_extended_communities.rs, attr_32_large_communities.rs). *)
From Verif Require Import Base Reader Net.

(** community.rs:16-24 [Community]. *)
Inductive community :=
| CNoExport | CNoAdvertise | CNoExportSubConfed | CCustom (a : asn) (v : N).

(** attr_08_communities.rs:6-8: the three well-known values. *)
Definition NO_EXPORT : N := 0xFFFFFF01.
Definition NO_ADVERTISE : N := 0xFFFFFF02.
Definition NO_EXPORT_SUBCONFED : N := 0xFFFFFF03.

(** attr_08_communities.rs:16-25: one community value. *)
Definition community_of_u32 (v : N) : community :=
  if v =? NO_EXPORT then CNoExport
  else if v =? NO_ADVERTISE then CNoAdvertise
  else if v =? NO_EXPORT_SUBCONFED then CNoExportSubConfed
  else CCustom ((v / 65536) mod 65536) (v mod 65536).
(** attr_08_communities.rs:10-29 [parse_regular_communities]. *)
Definition read_community : P community :=
  v <- read_u32 ;; ret (community_of_u32 v).
Definition parse_regular_communities (s : bytes) : res (list community) :=
  many_p (length s) read_community s.
(** attr_08_communities.rs:36-44; [asn.into()] truncates to 16 bits
    (asn.rs:127-131).  The [debug_assert!] on the total length (line 47) holds by
    construction: every branch writes four octets. *)
Definition encode_community (c : community) : bytes :=
  match c with
  | CNoExport => be 4 NO_EXPORT
  | CNoAdvertise => be 4 NO_ADVERTISE
  | CNoExportSubConfed => be 4 NO_EXPORT_SUBCONFED
  | CCustom a v => be 2 a ++ be 2 v
  end.
(** attr_08_communities.rs:31-49 [encode_regular_communities]. *)
Definition encode_regular_communities (l : list community) : bytes :=
  flat_map encode_community l.

(** community.rs:26-46 [LargeCommunity]. *)
Record large_community := Large { lc_admin : N; lc_d0 : N; lc_d1 : N }.
(** attr_32_large_communities.rs:6-19 [parse_large_communities]; the
    [debug_assert!] of line 17 is the final test. *)
Definition read_large : P large_community :=
  a <- read_u32 ;; b <- read_u32 ;; c <- read_u32 ;; ret (Large a b c).
Definition parse_large_communities (s : bytes) : res (list large_community) :=
  l <~ many_p (length s) read_large s ;;
  if nlen l =? nlen s / 12 then Ok l else Panic.
(** attr_32_large_communities.rs:21-32 [encode_large_communities]. *)
Definition encode_large (c : large_community) : bytes :=
  be 4 (lc_admin c) ++ be 4 (lc_d0 c) ++ be 4 (lc_d1 c).
Definition encode_large_communities (l : list large_community) : bytes :=
  flat_map encode_large l.

(** community.rs:48-68 [ExtendedCommunityType] with its [FromPrimitive] and
    [IntoPrimitive] conversions. *)
Inductive ect :=
| TTwoOctetAs | TIpv4Addr | TFourOctetAs | TOpaque
| NTwoOctetAs | NIpv4Addr | NFourOctetAs | NOpaque
| TUnknown (n : N).
Definition ect_of_u8 (n : N) : ect :=
  if n =? 0x00 then TTwoOctetAs else if n =? 0x01 then TIpv4Addr
  else if n =? 0x02 then TFourOctetAs else if n =? 0x03 then TOpaque
  else if n =? 0x40 then NTwoOctetAs else if n =? 0x41 then NIpv4Addr
  else if n =? 0x42 then NFourOctetAs else if n =? 0x43 then NOpaque
  else TUnknown n.
Definition ect_code (t : ect) : N :=
  match t with
  | TTwoOctetAs => 0x00 | TIpv4Addr => 0x01 | TFourOctetAs => 0x02 | TOpaque => 0x03
  | NTwoOctetAs => 0x40 | NIpv4Addr => 0x41 | NFourOctetAs => 0x42 | NOpaque => 0x43
  | TUnknown n => n
  end.

(** community.rs:97-120 [ExtendedCommunity].  The transitive and non-transitive
    variants with the same payload share a constructor with a flag ([true] is
    transitive).  [f32] fields are their IEEE-754 bit patterns: the code only
    moves them with [from_bits]/[to_bits]/[put_f32]. *)
Inductive ext_community :=
| XTwoOctet (transitive : bool) (subtype : N) (admin : asn) (local : bytes)
| XIpv4 (transitive : bool) (subtype : N) (admin : N) (local : bytes)
| XFourOctet (transitive : bool) (subtype : N) (admin : asn) (local : bytes)
| XOpaque (transitive : bool) (subtype : N) (value : bytes)
| XTrafficRate (asn : N) (rate_bits : N)
| XTrafficAction (asn : N) (terminal sample : bool)
| XRedirect (subtype : N) (admin : asn) (local : bytes)
| XTrafficMarking (asn : N) (dscp : N)
| XLinkBandwidth (transitive : bool) (admin : N) (bw_bits : N)
| XRaw (b : bytes).

(** community.rs:122-148 [ExtendedCommunity::community_type]. *)
Definition ext_type (x : ext_community) : ect :=
  match x with
  | XTwoOctet t _ _ _ => if t then TTwoOctetAs else NTwoOctetAs
  | XIpv4 t _ _ _ => if t then TIpv4Addr else NIpv4Addr
  | XFourOctet t _ _ _ => if t then TFourOctetAs else NFourOctetAs
  | XOpaque t _ _ => if t then TOpaque else NOpaque
  | XTrafficRate _ _ | XTrafficAction _ _ _ | XRedirect _ _ _
  | XTrafficMarking _ _ => NTwoOctetAs
  | XLinkBandwidth t _ _ => if t then TTwoOctetAs else NTwoOctetAs
  | XRaw b => TUnknown (hd 0 b)
  end.

(** attr_16_25_extended_communities.rs:38-45 and 85-91, 104-112: the common
    "16-bit AS number then four octets" body. *)
Definition read_two (k : asn -> bytes -> ext_community) : P ext_community :=
  g <- read_u16 ;; l <- read_n_bytes 4 ;; ret (k g l).

(** attr_16_25_extended_communities.rs:20-189: one extended community. *)
Definition read_ext : P ext_community :=
  t <- read_u8 ;;
  match ect_of_u8 t with
  | TTwoOctetAs =>
      st <- read_u8 ;;
      if st =? 0x04 then
        g <- read_u16 ;; b <- read_u32 ;; ret (XLinkBandwidth true g b)
      else read_two (XTwoOctet true st)
  | NTwoOctetAs =>
      st <- read_u8 ;;
      if st =? 0x04 then
        g <- read_u16 ;; b <- read_u32 ;; ret (XLinkBandwidth false g b)
      else if st =? 0x06 then
        g <- read_u16 ;; b <- read_u32 ;; ret (XTrafficRate g b)
      else if st =? 0x07 then
        g <- read_u16 ;; f <- read_u32 ;;
        ret (XTrafficAction g (N.testbit f 0) (N.testbit f 1))
      else if st =? 0x08 then read_two (XRedirect st)
      else if st =? 0x09 then
        g <- read_u16 ;; d <- read_u8 ;; r1 <- read_u8 ;; r2 <- read_u16 ;;
        (* community.rs:322-327: [dscp & 0x3F] *)
        ret (XTrafficMarking g (N.land d 0x3F))
      else read_two (XTwoOctet false st)
  | TIpv4Addr =>
      st <- read_u8 ;; g <- read_u32 ;; l <- read_n_bytes 2 ;; ret (XIpv4 true st g l)
  | NIpv4Addr =>
      st <- read_u8 ;; g <- read_u32 ;; l <- read_n_bytes 2 ;; ret (XIpv4 false st g l)
  | TFourOctetAs =>
      st <- read_u8 ;; g <- read_u32 ;; l <- read_n_bytes 2 ;; ret (XFourOctet true st g l)
  | NFourOctetAs =>
      st <- read_u8 ;; g <- read_u32 ;; l <- read_n_bytes 2 ;; ret (XFourOctet false st g l)
  | TOpaque => st <- read_u8 ;; v <- read_n_bytes 6 ;; ret (XOpaque true st v)
  | NOpaque => st <- read_u8 ;; v <- read_n_bytes 6 ;; ret (XOpaque false st v)
  | TUnknown _ => v <- read_n_bytes 7 ;; ret (XRaw (t :: v))
  end.
(** attr_16_25_extended_communities.rs:13-194 [parse_extended_community]; the
    [debug_assert!] of line 192 is the final test. *)
Definition parse_extended_communities (s : bytes) : res (list ext_community) :=
  l <~ many_p (length s) read_ext s ;;
  if nlen l =? nlen s / 8 then Ok l else Panic.

(** attr_16_25_extended_communities.rs:227-302: one extended community.
    [put_slice] of a fixed-size array writes the stored octets. *)
Definition encode_ext (x : ext_community) : bytes :=
  let t := be 1 (ect_code (ext_type x)) in
  match x with
  | XTwoOctet _ st a l => t ++ be 1 st ++ be 2 a ++ l
  | XIpv4 _ st a l => t ++ be 1 st ++ be 4 a ++ l
  | XFourOctet _ st a l => t ++ be 1 st ++ be 4 a ++ l
  | XOpaque _ st v => t ++ be 1 st ++ v
  | XTrafficRate a r => t ++ be 1 0x06 ++ be 2 a ++ be 4 r
  | XTrafficAction a te sa =>
      t ++ be 1 0x07 ++ be 2 a ++
      be 4 (N.lor (if te then 0x01 else 0) (if sa then 0x02 else 0))
  | XRedirect _ a l => t ++ be 1 0x08 ++ be 2 a ++ l
  | XTrafficMarking a d => t ++ be 1 0x09 ++ be 2 a ++ be 1 d ++ be 1 0 ++ be 2 0
  | XLinkBandwidth _ a b => t ++ be 1 0x04 ++ be 2 a ++ be 4 b
  | XRaw b => b
  end.
(** attr_16_25_extended_communities.rs:223-307 [encode_extended_communities]. *)
Definition encode_extended_communities (l : list ext_community) : bytes :=
  flat_map encode_ext l.

(** community.rs:150-160 [Ipv6AddrExtCommunity]. *)
Record ipv6_ext := Ipv6Ext { ie_type : ect; ie_subtype : N; ie_admin : N; ie_l0 : N; ie_l1 : N }.
(** attr_16_25_extended_communities.rs:196-221 [parse_ipv6_extended_community]. *)
Definition read_ipv6_ext : P ipv6_ext :=
  t <- read_u8 ;; st <- read_u8 ;; g <- read_ipv6 ;; l0 <- read_u8 ;; l1 <- read_u8 ;;
  ret (Ipv6Ext (ect_of_u8 t) st g l0 l1).
Definition parse_ipv6_extended_communities (s : bytes) : res (list ipv6_ext) :=
  l <~ many_p (length s) read_ipv6_ext s ;;
  if nlen l =? nlen s / 20 then Ok l else Panic.
(** attr_16_25_extended_communities.rs:309-319. *)
Definition encode_ipv6_ext (x : ipv6_ext) : bytes :=
  be 1 (ect_code (ie_type x)) ++ be 1 (ie_subtype x) ++ be 16 (ie_admin x) ++
  be 1 (ie_l0 x) ++ be 1 (ie_l1 x).
Definition encode_ipv6_extended_communities (l : list ipv6_ext) : bytes :=
  flat_map encode_ipv6_ext l.

(** community.rs:6-14 [MetaCommunity]. *)
Inductive meta_community :=
| MPlain (c : community) | MExtended (c : ext_community)
| MIpv6Extended (c : ipv6_ext) | MLarge (c : large_community).
