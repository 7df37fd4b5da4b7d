(** Path attributes: src/models/bgp/attributes/mod.rs and
    src/parser/bgp/attributes/mod.rs. *)
From Verif Require Import Base Reader Net AsPath Community Mpls Tlv LinkState Nlri.

(** models/bgp/attributes/origin.rs:9-16. *)
Inductive origin := IGP | EGP | INCOMPLETE.
Definition origin_code (o : origin) : N := match o with IGP => 0 | EGP => 1 | INCOMPLETE => 2 end.
Definition origin_of (n : N) : option origin :=
  match n with 0 => Some IGP | 1 => Some EGP | 2 => Some INCOMPLETE | _ => None end.

(** models/bgp/attributes/mod.rs:717-792 [AttributeValue].  Simplified: the nested
    attributes of [AttrSet] are left out (no modelled function reads them, and no
    parser builds an [AttrSet]). *)
Inductive attr_value :=
| AOrigin (o : origin)
| AAsPath (p : aspath)
| AAs4Path (p : aspath)
| ANextHop (i : ip)
| AMed (n : N)
| ALocalPref (n : N)
| AOtc (a : asn)
| AAtomicAggregate
| AAggregator (a : asn) (id : N)
| AAs4Aggregator (a : asn) (id : N)
| ACommunities (l : list community)
| AExtCommunities (l : list ext_community)
| AIpv6ExtCommunities (l : list ipv6_ext)
| ALargeCommunities (l : list large_community)
| AOriginatorId (id : N)
| AClusters (l : list N)
| AMpReach (n : nlri)
| AMpUnreach (n : nlri)
| ALinkStateAttr (a : ls_attr)
| ATunnelEncap (l : list tunnel)
| ATrafficEng (t : traffic_eng)
| ABfd (b : bfd)
| APrefixSid (l : list tlv)
| ABier (l : list tlv)
| ASfp (l : list tlv)
| ADevelopment (b : bytes)
| ARaw (code : N) (b : bytes)
| ADeprecated (code : N) (b : bytes)
| AUnknown (code : N) (b : bytes)
| AAigp (l : list aigp_tlv)
| AAttrSet (origin_as : asn).

(** models/bgp/attributes/mod.rs:513-521 [Attribute]; [AttrFlags] is its octet. *)
Record attribute := Attr { a_value : attr_value; a_flag : N }.
(** models/bgp/attributes/mod.rs:48-53 and 523-539. *)
Definition is_optional (f : N) : bool := N.testbit f 7.
Definition is_transitive (f : N) : bool := N.testbit f 6.
Definition is_partial (f : N) : bool := N.testbit f 5.
Definition is_extended (f : N) : bool := N.testbit f 4.

(** models/bgp/attributes/mod.rs:66-109 [AttrType], represented by its octet: the
    codes with a name of their own; every other one is [Unknown]. *)
Definition known_codes : list N :=
  [0; 1; 2; 3; 4; 5; 6; 7; 8; 9; 10; 14; 15; 16; 17; 18; 22; 23; 24; 25; 26; 27; 29; 32; 33; 35; 37; 38; 40; 41; 128; 255].
Definition mem (n : N) (l : list N) : bool := existsb (N.eqb n) l.
(** models/bgp/attributes/mod.rs:123-136 [get_deprecated_attr_type]. *)
Definition deprecated_codes : list N := [11; 12; 13; 19; 20; 21; 28; 30; 31; 129; 241; 242; 243].
(** parser/bgp/attributes/mod.rs:146-155 [is_raw_retained_attr]. *)
Definition raw_retained_codes : list N := [0; 22; 27; 33; 128].

(** models/bgp/attributes/mod.rs:821-866 [attr_type], [attr_code]. *)
Definition attr_code (v : attr_value) : N :=
  match v with
  | AOrigin _ => 1 | AAsPath _ => 2 | AAs4Path _ => 17 | ANextHop _ => 3 | AMed _ => 4
  | ALocalPref _ => 5 | AOtc _ => 35 | AAtomicAggregate => 6 | AAggregator _ _ => 7
  | AAs4Aggregator _ _ => 18 | ACommunities _ => 8 | AExtCommunities _ => 16
  | AIpv6ExtCommunities _ => 25 | ALargeCommunities _ => 32 | AOriginatorId _ => 9
  | AClusters _ => 10 | AMpReach _ => 14 | AMpUnreach _ => 15 | ALinkStateAttr _ => 29
  | ATunnelEncap _ => 23 | ATrafficEng _ => 24 | ABfd _ => 38 | APrefixSid _ => 40
  | ABier _ => 41 | ASfp _ => 37 | ADevelopment _ => 255
  | ARaw c _ | ADeprecated c _ | AUnknown c _ => c
  | AAigp _ => 26 | AAttrSet _ => 128
  end.
(** models/bgp/attributes/mod.rs:868-914 [attr_category], [default_flags]. *)
Inductive category := WellKnownMandatory | WellKnownDiscretionary | OptionalTransitive | OptionalNonTransitive.
Definition attr_category (v : attr_value) : option category :=
  match v with
  | AOrigin _ | AAsPath _ | ANextHop _ | ALocalPref _ => Some WellKnownMandatory
  | AAtomicAggregate => Some WellKnownDiscretionary
  | AAs4Path _ | AOtc _ | AAggregator _ _ | AAs4Aggregator _ _ | ACommunities _ | AExtCommunities _
  | ALargeCommunities _ | ABfd _ | APrefixSid _ | ABier _ | ASfp _ | AAttrSet _ => Some OptionalTransitive
  | AMed _ | AOriginatorId _ | AClusters _ | AMpReach _ | AMpUnreach _ | ALinkStateAttr _
  | ATrafficEng _ | AAigp _ => Some OptionalNonTransitive
  | _ => None
  end.
Definition default_flags (v : attr_value) : N :=
  match attr_category v with
  | None => 0xE0
  | Some WellKnownMandatory | Some WellKnownDiscretionary => 0x40
  | Some OptionalTransitive => 0xC0
  | Some OptionalNonTransitive => 0x80
  end.
(** models/bgp/attributes/mod.rs:541-548 [From<AttributeValue> for Attribute]. *)
Definition attr_of_value (v : attr_value) : attribute := Attr v (default_flags v).

(** error.rs:235-313 [BgpValidationWarning]: the warnings that are ever built.  The
    reason texts are represented by the error they are printed from. *)
Inductive warning :=
| WFlags (code expected actual : N)
| WLength (code : N) (expected : option N) (actual : N)
| WMissing (code : N)
| WDuplicate (code : N)
| WPartial (code : N) (e : perr)
| WMalformedList (code : N) (e : perr)
| WOptional (code : N) (e : perr)
| WMalformedNlri (announced : bool) (e : perr) (raw : bytes)
| WRefreshSubtype (subtype : N)
| WRefreshLength (subtype : N) (actual : N).

(** parser/bgp/attributes/mod.rs:78-144 [validate_attribute_flags]. *)
Definition expected_flags (c : N) : option N :=
  if mem c [1; 2; 3; 6; 5] then Some 0x40
  else if mem c [4; 9; 10; 14; 15; 24] then Some 0x80
  else if mem c [7; 18; 17; 8; 16; 25; 32; 35] then Some 0xC0
  else None.
Definition no_partial_codes : list N := [1; 2; 3; 5; 6; 4; 9; 10; 14; 15; 24].
Definition flag_warnings (c f : N) : list warning :=
  match expected_flags c with
  | None => []
  | Some e =>
      (if N.land f 0xC0 =? e then [] else [WFlags c e (N.land f 0xC0)]) ++
      (if is_partial f && mem c no_partial_codes then [WFlags c e f] else [])
  end.
(** parser/bgp/attributes/mod.rs:283-320 [validate_attribute_length]. *)
Definition expected_length (c : N) : option N :=
  match c with
  | 1 => Some 1 | 3 => Some 4 | 4 => Some 4 | 5 => Some 4 | 6 => Some 0 | 9 => Some 4 | 35 => Some 4
  | _ => None
  end.
Definition length_warnings (c len : N) : list warning :=
  match expected_length c with
  | Some e => if len =? e then [] else [WLength c (Some e) len]
  | None => []
  end.
(** parser/bgp/attributes/mod.rs:178-207 [has_raw_attr], [set_attr], [observe_header].
    The four 64-bit words of the mask are one number of 256 bits. *)
Definition header_warnings (mask c f len : N) : list warning :=
  (if N.testbit mask c then [WDuplicate c] else []) ++ flag_warnings c f ++ length_warnings c len.
(** parser/bgp/attributes/mod.rs:158-163 and 209-243 [observe_parse_error]. *)
Definition error_warning (c f : N) (e : perr) : warning :=
  if is_partial f then WPartial c e
  else if mem c [1; 2; 3; 5] then WMalformedList c e
  else WOptional c e.

(** The options of [parse_attributes]: AS number width, Add-Path, and what the
    enclosing RIB entry says about family and prefix. *)
Record acfg := ACfg {
  ac_asn : asn_len; ac_add_path : bool; ac_afi : option afi; ac_safi : option safi;
  ac_prefixes : option (list prefix) }.

(** attr_01_origin.rs:7-14. *)
Definition parse_origin (s : bytes) : res origin :=
  run (n <- read_u8 ;; lift (match origin_of n with Some o => Ok o | None => Err EParse end)) s.
(** attr_03_next_hop.rs:7-15. *)
Definition parse_next_hop (a : option afi) (s : bytes) : res ip :=
  run (read_address (match a with Some a => a | None => AIpv4 end)) s.
(** attr_07_18_aggregator.rs:20-45; the mismatch with the session's width is only logged. *)
Definition parse_aggregator (s : bytes) : res (asn * N) :=
  match length s with
  | 8%nat => run (a <- read_asn Bits32 ;; i <- read_ipv4 ;; ret (a, i)) s
  | 6%nat => run (a <- read_asn Bits16 ;; i <- read_ipv4 ;; ret (a, i)) s
  | _ => Err EParse
  end.
(** attr_09_originator.rs:7-14. *)
Definition parse_originator_id (s : bytes) : res N :=
  if Nat.eqb (length s) 4 then run read_ipv4 s else Err EParse.
(** attr_10_13_cluster.rs:7-13. *)
Definition parse_clusters (s : bytes) : res (list N) := many_p (length s) read_u32 s.

Definition res_map {A B} (f : A -> B) (r : res A) : res B := a <~ r ;; Ok (f a).
(** parser/bgp/attributes/mod.rs:414-463: the parser of each attribute type. *)
Definition parse_attr_value (k : acfg) (c : N) (s : bytes) : res attr_value :=
  match c with
  | 1 => res_map AOrigin (parse_origin s)
  | 2 => res_map AAsPath (parse_as_path s (ac_asn k))
  | 3 => res_map ANextHop (parse_next_hop (ac_afi k) s)
  | 4 => res_map AMed (run read_u32 s)
  | 5 => res_map ALocalPref (run read_u32 s)
  | 6 => Ok AAtomicAggregate
  | 7 => res_map (fun '(a, i) => AAggregator a i) (parse_aggregator s)
  | 9 => res_map AOriginatorId (parse_originator_id s)
  | 10 => res_map AClusters (parse_clusters s)
  | 14 => res_map AMpReach (parse_nlri s (ac_afi k) (ac_safi k) (ac_prefixes k) true (ac_add_path k))
  | 15 => res_map AMpUnreach (parse_nlri s (ac_afi k) (ac_safi k) (ac_prefixes k) false (ac_add_path k))
  | 17 => res_map AAs4Path (parse_as_path s Bits32)
  | 18 => res_map (fun '(a, i) => AAs4Aggregator a i) (parse_aggregator s)
  | 8 => res_map ACommunities (parse_regular_communities s)
  | 32 => res_map ALargeCommunities (parse_large_communities s)
  | 16 => res_map AExtCommunities (parse_extended_communities s)
  | 25 => res_map AIpv6ExtCommunities (parse_ipv6_extended_communities s)
  | 255 => Ok (ADevelopment s)
  | 35 => res_map AOtc (run read_u32 s)
  | 26 => res_map AAigp (parse_aigp s)
  | 23 => res_map ATunnelEncap (parse_tunnel_encap s)
  | 24 => res_map ATrafficEng (parse_traffic_eng s)
  | 29 => res_map ALinkStateAttr (parse_link_state s)
  | 37 => res_map ASfp (parse_sfp s)
  | 38 => res_map ABfd (parse_bfd s)
  | 40 => res_map APrefixSid (parse_prefix_sid s)
  | 41 => res_map ABier (parse_bier s)
  | _ => Err EUnsup
  end.
(** parser/bgp/attributes/mod.rs:376-481: one complete attribute; the attribute pushed
    and the warning of a failed parse.  The [assert_eq!] of line 467 is a panic. *)
Definition attr_of_raw (k : acfg) (c f : N) (v : bytes) : res (attribute * list warning) :=
  if mem c deprecated_codes then Ok (Attr (ADeprecated c v) f, [])
  else if negb (mem c known_codes) then Ok (Attr (AUnknown c v) f, [])
  else if mem c raw_retained_codes then Ok (Attr (ARaw c v) f, [])
  else match parse_attr_value k c v with
       | Ok x => if attr_code x =? c then Ok (Attr x f, []) else Panic
       | Err e => Ok (Attr (ARaw c v) f, [error_warning c f e])
       | Panic => Panic
       end.
(** parser/bgp/attributes/mod.rs:345-350: the header of one attribute. *)
Definition read_attr_header : P (N * N * N) :=
  f <- read_u8 ;; c <- read_u8 ;;
  len <- (if is_extended f then read_u16 else read_u8) ;;
  ret (f, c, len).
(** parser/bgp/attributes/mod.rs:340-482: the loop. *)
Fixpoint attrs_loop (fuel : nat) (k : acfg) (mask : N) (s : bytes) : res (list attribute * list warning * N) :=
  if Nat.leb 3 (length s) then
    match fuel with
    | O => Panic
    | S fuel' =>
        '(h, s1) <~ read_attr_header s ;;
        let '(f, c, len) := h in
        let ws := header_warnings mask c f len in
        let mask := N.setbit mask c in
        if nlen s1 <? len then Ok ([], ws, mask)
        else
          '(v, s2) <~ split_to (N.to_nat len) s1 ;;
          '(a, we) <~ attr_of_raw k c f v ;;
          '(rest, m) <~ attrs_loop fuel' k mask s2 ;;
          Ok (a :: fst rest, ws ++ we ++ snd rest, m)
    end
  else Ok ([], [], mask).
(** models/bgp/attributes/mod.rs:140-148 [Attributes]. *)
Record attributes := Attrs { at_inner : list attribute; at_warnings : list warning; at_mask : N }.
(** parser/bgp/attributes/mod.rs:326-490 [parse_attributes]. *)
Definition parse_attributes (k : acfg) (s : bytes) : res attributes :=
  '(r, m) <~ attrs_loop (length s) k 0 s ;;
  Ok (Attrs (fst r) (snd r) m).

(** models/bgp/attributes/mod.rs:160-176 [has_attr], [get_attr], [add_attr]. *)
Definition has_attr (a : attributes) (c : N) : bool := N.testbit (at_mask a) c.
Definition get_attr (a : attributes) (c : N) : option attribute :=
  find (fun x => attr_code (a_value x) =? c) (at_inner a).
Definition add_attr (a : attributes) (x : attribute) : attributes :=
  Attrs (at_inner a ++ [x]) (at_warnings a) (N.setbit (at_mask a) (attr_code (a_value x))).
(** models/bgp/attributes/mod.rs:406-462 [compute_mask] and the conversions from lists. *)
Definition compute_mask (l : list attribute) : N :=
  fold_left (fun m x => N.setbit m (attr_code (a_value x))) l 0.
Definition attrs_of_list (l : list attribute) : attributes := Attrs l [] (compute_mask l).
Definition attrs_of_values (l : list attr_value) : attributes := attrs_of_list (map attr_of_value l).
Definition extend_attrs (a : attributes) (l : list attribute) : attributes := fold_left add_attr l a.
(** models/bgp/attributes/mod.rs:184-213 [check_mandatory_attributes]. *)
Definition check_mandatory (a : attributes) (is_announcement has_standard_nlri : bool) : attributes :=
  if negb is_announcement then a
  else
    let missing c := if has_attr a c then [] else [WMissing c] in
    Attrs (at_inner a)
          (at_warnings a ++ missing 1 ++ missing 2 ++
           (if (has_standard_nlri || negb (has_attr a 14)) && negb (has_attr a 3) then [WMissing 3] else []))
          (at_mask a).
(** models/bgp/attributes/mod.rs:216-218 [add_validation_warning]. *)
Definition add_warning (a : attributes) (w : warning) : attributes :=
  Attrs (at_inner a) (at_warnings a ++ [w]) (at_mask a).

(** models/bgp/attributes/mod.rs:230-352: the accessors. *)
Fixpoint find_map {A B} (f : A -> option B) (l : list A) : option B :=
  match l with
  | [] => None
  | x :: l' => match f x with Some y => Some y | None => find_map f l' end
  end.
Definition values (a : attributes) : list attr_value := map a_value (at_inner a).
Definition at_origin (a : attributes) : origin :=
  match find_map (fun v => match v with AOrigin o => Some o | _ => None end) (values a) with
  | Some o => o | None => INCOMPLETE end.
Definition at_originator (a : attributes) : option N :=
  find_map (fun v => match v with AOriginatorId o => Some o | _ => None end) (values a).
Definition at_next_hop (a : attributes) : option ip :=
  find_map (fun v => match v with ANextHop o => Some o | _ => None end) (values a).
Definition at_med (a : attributes) : option N :=
  find_map (fun v => match v with AMed o => Some o | _ => None end) (values a).
Definition at_local_pref (a : attributes) : option N :=
  find_map (fun v => match v with ALocalPref o => Some o | _ => None end) (values a).
Definition at_otc (a : attributes) : option asn :=
  find_map (fun v => match v with AOtc o => Some o | _ => None end) (values a).
Definition at_atomic (a : attributes) : bool :=
  existsb (fun v => match v with AAtomicAggregate => true | _ => false end) (values a).
Definition at_aggregator (a : attributes) : option (asn * N) :=
  find_map (fun v => match v with AAggregator x i | AAs4Aggregator x i => Some (x, i) | _ => None end) (rev (values a)).
Definition at_clusters (a : attributes) : option (list N) :=
  find_map (fun v => match v with AClusters o => Some o | _ => None end) (values a).
Definition at_as_path (a : attributes) : option aspath :=
  find_map (fun v => match v with AAsPath o => Some o | _ => None end) (values a).
Definition at_as4_path (a : attributes) : option aspath :=
  find_map (fun v => match v with AAs4Path o => Some o | _ => None end) (values a).
Definition at_reach (a : attributes) : option nlri :=
  find_map (fun v => match v with AMpReach o => Some o | _ => None end) (values a).
Definition at_unreach (a : attributes) : option nlri :=
  find_map (fun v => match v with AMpUnreach o => Some o | _ => None end) (values a).
(** models/bgp/attributes/mod.rs:332-338 [effective_as_path]. *)
Definition effective_as_path (a : attributes) : res (option aspath) :=
  match at_as_path a, at_as4_path a with
  | None, None => Ok None
  | Some p, None | None, Some p => Ok (Some p)
  | Some p, Some q => m <~ merge_aspath_as4path p q ;; Ok (Some m)
  end.
(** models/bgp/attributes/mod.rs:354-404 [iter_communities]: the state of the iterator
    is the attributes left and the position in the first of them. *)
Definition community_at (v : attr_value) (i : nat) : option meta_community :=
  match v with
  | ACommunities l => option_map MPlain (nth_error l i)
  | AExtCommunities l => option_map MExtended (nth_error l i)
  | ALargeCommunities l => option_map MLarge (nth_error l i)
  | _ => None
  end.
Fixpoint communities_next (vs : list attr_value) (i : nat) : option (meta_community * (list attr_value * nat)) :=
  match vs with
  | [] => None
  | v :: vs' =>
      match community_at v i with
      | Some c => Some (c, (vs, S i))
      | None => communities_next vs' 0
      end
  end.
Fixpoint communities_drain (fuel : nat) (vs : list attr_value) (i : nat) : list meta_community :=
  match fuel with
  | O => []
  | S fuel' =>
      match communities_next vs i with
      | None => []
      | Some (c, (vs', i')) => c :: communities_drain fuel' vs' i'
      end
  end.

(** attr_07_18_aggregator.rs:47-75 [encode_aggregator] with an IPv4 identifier. *)
Definition encode_aggregator (l : asn_len) (a : asn) (id : N) : res bytes :=
  match l with
  | Bits32 => Ok (be 4 a ++ be 4 id)
  | Bits16 => _ <~ check_max a 65535 ;; Ok (be 2 a ++ be 4 id)
  end.
(** parser/bgp/attributes/mod.rs:541-548: Add-Path is inferred from the labelled prefixes. *)
Definition inferred_add_path (n : nlri) : bool :=
  existsb (fun p => match lp_id p with Some _ => true | None => false end) (opt_list (nl_labeled n)).
(** parser/bgp/attributes/mod.rs:502-575: the value of each attribute. *)
Definition encode_attr_value (l : asn_len) (v : attr_value) : res bytes :=
  match v with
  | AOrigin o => Ok [origin_code o]
  | AAsPath p => encode_as_path l p
  | AAs4Path p => encode_as_path Bits32 p
  | ANextHop i => Ok (octets i)
  | AMed n => Ok (be 4 n)
  | ALocalPref n => Ok (be 4 n)
  | AOtc a => Ok (be 4 a)
  | AAtomicAggregate => Ok []
  | AAggregator a i => encode_aggregator l a i
  | AAs4Aggregator a i => encode_aggregator Bits32 a i
  | ACommunities c => Ok (encode_regular_communities c)
  | AExtCommunities c => Ok (encode_extended_communities c)
  | ALargeCommunities c => Ok (encode_large_communities c)
  | AIpv6ExtCommunities c => Ok (encode_ipv6_extended_communities c)
  | AOriginatorId i => Ok (be 4 i)
  | AClusters c => Ok (flat_map (be 4) c)
  | AMpReach n => encode_nlri n true (inferred_add_path n)
  | AMpUnreach n => encode_nlri n false false
  | ALinkStateAttr a => encode_link_state a
  | ATunnelEncap t => encode_tunnel_encap t
  | ATrafficEng t => Ok (encode_traffic_eng t)
  | ABfd b => encode_bfd b
  | APrefixSid t => encode_prefix_sid t
  | ABier t => encode_bier t
  | ASfp t => encode_sfp t
  | ADevelopment b | ARaw _ b | ADeprecated _ b | AUnknown _ b => Ok b
  | AAigp t => Ok (encode_aigp t)
  | AAttrSet _ => Err EUnenc
  end.
(** parser/bgp/attributes/mod.rs:498-581 [Attribute::encode_to]. *)
Definition encode_attribute (l : asn_len) (a : attribute) : res bytes :=
  b <~ with_len (if is_extended (a_flag a) then 2 else 1) (encode_attr_value l (a_value a)) ;;
  Ok (be 1 (a_flag a) ++ be 1 (attr_code (a_value a)) ++ b).
(** parser/bgp/attributes/mod.rs:591-606 [Attributes::encode_to]. *)
Definition encode_attributes (l : asn_len) (a : list attribute) : res bytes :=
  bs <~ rmap (encode_attribute l) a ;; Ok (concat bs).
