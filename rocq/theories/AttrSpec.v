(** Specification of the path attribute block (RFC 4271 section 4.3, RFC 7606). *)
From Verif Require Import Base Net NetSpec AsPath AsPathSpec Community CommunitySpec Mpls MplsSpec Tlv TlvSpec
  LinkState LinkStateSpec Nlri NlriSpec Attr.

(** A path attribute as it is on the wire: flags, type code, value. *)
Record raw_attr := RawAttr { r_flag : N; r_code : N; r_value : bytes }.
(** The fourth bit from the top of the flags says that the length has two octets. *)
Definition extended (f : N) : bool := N.testbit f 4.
Definition length_width (f : N) : nat := if extended f then 2%nat else 1%nat.
Definition raw_ok (r : raw_attr) : Prop :=
  r_flag r < 256 /\ r_code r < 256 /\ bytes_ok (r_value r) /\
  nlen (r_value r) < 256 ^ N.of_nat (length_width (r_flag r)).
Definition header_wire (f c len : N) : bytes := [f; c] ++ be (length_width f) len.
Definition attr_wire (r : raw_attr) : bytes :=
  header_wire (r_flag r) (r_code r) (nlen (r_value r)) ++ r_value r.

(** What may follow the complete attributes of a block: at most two octets; a header
    whose length runs past the end; or the first three octets of a four-octet header. *)
Inductive block_end :=
| EndShort (t : bytes)
| EndCut (f c len : N) (rest : bytes)
| EndHeader (f c x : N).
Definition end_wire (e : block_end) : bytes :=
  match e with
  | EndShort t => t
  | EndCut f c len rest => header_wire f c len ++ rest
  | EndHeader f c x => [f; c; x]
  end.
Definition end_ok (e : block_end) : Prop :=
  match e with
  | EndShort t => (length t < 3)%nat /\ bytes_ok t
  | EndCut f c len rest =>
      f < 256 /\ c < 256 /\ len < 256 ^ N.of_nat (length_width f) /\ nlen rest < len /\ bytes_ok rest
  | EndHeader f c x => f < 256 /\ c < 256 /\ x < 256 /\ extended f = true
  end.
(** The block ends inside an extended header. *)
Definition end_in_header (e : block_end) : Prop := match e with EndHeader _ _ _ => True | _ => False end.

(** The headers of a block - flags, code, declared length -, that of an attribute cut
    off at the end included. *)
Definition header := (N * N * N)%type.
Definition h_flag (h : header) : N := fst (fst h).
Definition h_code (h : header) : N := snd (fst h).
Definition h_len (h : header) : N := snd h.
Definition headers (l : list raw_attr) (e : block_end) : list header :=
  map (fun r => (r_flag r, r_code r, nlen (r_value r))) l ++
  match e with EndCut f c len _ => [(f, c, len)] | _ => [] end.

(** What is reported for a complete attribute: values of deprecated, unknown or
    retained codes as they are, other values decoded, or raw if that fails. *)
Definition deprecated (c : N) : Prop := In c [11; 12; 13; 19; 20; 21; 28; 30; 31; 129; 241; 242; 243].
Definition retained (c : N) : Prop := In c [0; 22; 27; 33; 128].
Definition decodable_codes : list N :=
  [1; 2; 3; 4; 5; 6; 7; 8; 9; 10; 14; 15; 16; 17; 18; 23; 24; 25; 26; 29; 32; 35; 37; 38; 40; 41; 255].
Definition decodable (c : N) : Prop := In c decodable_codes.
Inductive reported (k : acfg) (r : raw_attr) : attr_value -> Prop :=
| rep_deprecated : deprecated (r_code r) -> reported k r (ADeprecated (r_code r) (r_value r))
| rep_retained : retained (r_code r) -> reported k r (ARaw (r_code r) (r_value r))
| rep_unknown : ~ deprecated (r_code r) -> ~ retained (r_code r) -> ~ decodable (r_code r) ->
    reported k r (AUnknown (r_code r) (r_value r))
| rep_value v : decodable (r_code r) -> parse_attr_value k (r_code r) (r_value r) = Ok v -> reported k r v
| rep_error e : decodable (r_code r) -> parse_attr_value k (r_code r) (r_value r) = Err e ->
    reported k r (ARaw (r_code r) (r_value r)).

(** RFC 4271 section 5 and the documents of the other attributes: the optional and
    transitive bits an attribute must carry, as far as the library checks them. *)
Definition proper_flags (c : N) : option N :=
  match c with
  | 1 | 2 | 3 | 5 | 6 => Some 0x40                       (* well-known *)
  | 4 | 9 | 10 | 14 | 15 | 24 => Some 0x80               (* optional non-transitive *)
  | 7 | 8 | 16 | 17 | 18 | 25 | 32 | 35 => Some 0xC0     (* optional transitive *)
  | _ => None
  end.
Definition fixed_length (c : N) : option N :=
  match c with 1 => Some 1 | 3 | 4 | 5 | 9 | 35 => Some 4 | 6 => Some 0 | _ => None end.

(** An attribute value the encoder can write and the parser reads back unchanged under
    the options [k]. *)
Definition canonical_routes (ap : bool) (a : afi) (l : list prefix) : Prop :=
  routes_ok ap a l /\ Forall (fun p => wire_exact (p_net p)) l.
Definition value_ok (k : acfg) (v : attr_value) : Prop :=
  match v with
  | AOrigin _ | AAtomicAggregate => True
  | AAsPath p => Forall (wire_seg (ac_asn k)) p
  | AAs4Path p => Forall (wire_seg Bits32) p
  | ANextHop i => ip_ok i /\ afi_of_ip i = match ac_afi k with Some a => a | None => AIpv4 end
  | AMed n | ALocalPref n | AOtc n | AOriginatorId n => n < 2 ^ 32
  | AAggregator a i => a < match ac_asn k with Bits16 => 2 ^ 16 | Bits32 => 2 ^ 32 end /\ i < 2 ^ 32
  | AAs4Aggregator a i => a < 2 ^ 32 /\ i < 2 ^ 32
  | ACommunities l => Forall community_ok l
  | AExtCommunities l => Forall ext_ok l
  | AIpv6ExtCommunities l => Forall ipv6_ext_ok l
  | ALargeCommunities l => Forall large_ok l
  | AClusters l => Forall (fun n => n < 2 ^ 32) l
  | AMpReach n =>
      exists a h, (a = AIpv4 \/ a = AIpv6) /\ nh_ok h /\
        ((exists sf l, sf <> SMplsLabel /\ canonical_routes (ac_add_path k) a l /\
            n = Nlri a sf (Some h) l None None None) \/
         (exists l, labeled_routes_ok (ac_add_path k) a l /\ Forall (fun p => labeled_trunc p = p) l /\
            n = Nlri a SMplsLabel (Some h) [] (Some l) None None))
  | AMpUnreach n =>
      exists a sf l, (a = AIpv4 \/ a = AIpv6) /\ sf <> SMplsLabel /\ canonical_routes (ac_add_path k) a l /\
        n = Nlri a sf None l None None None
  | ALinkStateAttr a => ls_ok a
  | ATunnelEncap l => Forall tunnel_ok l /\ Forall named l
  | ATrafficEng t => te_ok t
  | ABfd b => bfd_ok b
  | APrefixSid l | ASfp l => Forall (tlv_ok 1 2) l
  | ABier l => Forall (tlv_ok 2 2) l
  | AAigp l => Forall aigp_ok l
  | ADevelopment b => bytes_ok b
  | ARaw c b => bytes_ok b /\ c < 256 /\
      (retained c \/ decodable c /\ exists e, parse_attr_value k c b = Err e)
  | ADeprecated c b => bytes_ok b /\ deprecated c
  | AUnknown c b => bytes_ok b /\ c < 256 /\ ~ deprecated c /\ ~ retained c /\ ~ decodable c
  | AAttrSet _ => False
  end.
(** The attribute has an octet of flags, and its value fits the length field the flags
    announce. *)
Definition attr_ok (k : acfg) (a : attribute) : Prop :=
  a_flag a < 256 /\ value_ok k (a_value a) /\
  forall b, encode_attr_value (ac_asn k) (a_value a) = Ok b -> nlen b < 256 ^ N.of_nat (length_width (a_flag a)).
(** The attributes on the wire. *)
Definition written (l : asn_len) (a : attribute) (r : raw_attr) : Prop :=
  r_flag r = a_flag a /\ r_code r = attr_code (a_value a) /\ encode_attr_value l (a_value a) = Ok (r_value r).

(** The values whose re-encoding is always the octets they were parsed from. *)
Definition verbatim (v : attr_value) : bool :=
  match v with
  | ADevelopment _ | ARaw _ _ | ADeprecated _ _ | AUnknown _ _ => true
  | AAsPath _ | AAs4Path _ | ACommunities _ | ALargeCommunities _ | AIpv6ExtCommunities _
  | AClusters _ | AOriginatorId _ | ATrafficEng _ | ABfd _ | APrefixSid _ | ABier _ | ASfp _ | AAigp _ => true
  | _ => false
  end.

(** The validation warnings a block deserves (RFC 7606): a code seen before; optional
    and transitive bits that are not those of the attribute, or a partial bit where it
    must be zero; a fixed length that is not respected; a value that does not decode -
    one of three kinds, by the partial bit and by whether the attribute is well-known. *)
Inductive block_warning (k : acfg) (l : list raw_attr) (e : block_end) : warning -> Prop :=
| bw_duplicate h1 h h2 : headers l e = h1 ++ h :: h2 -> In (h_code h) (map h_code h1) ->
    block_warning k l e (WDuplicate (h_code h))
| bw_flags h x : In h (headers l e) -> proper_flags (h_code h) = Some x -> N.land (h_flag h) 0xC0 <> x ->
    block_warning k l e (WFlags (h_code h) x (N.land (h_flag h) 0xC0))
| bw_partial h x : In h (headers l e) -> proper_flags (h_code h) = Some x -> x <> 0xC0 ->
    N.testbit (h_flag h) 5 = true -> block_warning k l e (WFlags (h_code h) x (h_flag h))
| bw_length h x : In h (headers l e) -> fixed_length (h_code h) = Some x -> h_len h <> x ->
    block_warning k l e (WLength (h_code h) (Some x) (h_len h))
| bw_value_partial r x : In r l -> decodable (r_code r) -> parse_attr_value k (r_code r) (r_value r) = Err x ->
    N.testbit (r_flag r) 5 = true -> block_warning k l e (WPartial (r_code r) x)
| bw_value_well_known r x : In r l -> decodable (r_code r) -> parse_attr_value k (r_code r) (r_value r) = Err x ->
    N.testbit (r_flag r) 5 = false -> In (r_code r) [1; 2; 3; 5] -> block_warning k l e (WMalformedList (r_code r) x)
| bw_value_optional r x : In r l -> decodable (r_code r) -> parse_attr_value k (r_code r) (r_value r) = Err x ->
    N.testbit (r_flag r) 5 = false -> ~ In (r_code r) [1; 2; 3; 5] -> block_warning k l e (WOptional (r_code r) x).

(** The first value of a kind in a list of attributes: [mk] builds the values of the kind. *)
Definition first_of {B} (mk : B -> attr_value) (l : list attr_value) (o : option B) : Prop :=
  match o with
  | Some b => exists l1 l2, l = l1 ++ mk b :: l2 /\ forall b', ~ In (mk b') l1
  | None => forall b', ~ In (mk b') l
  end.
