(** Vocabulary: the values the fields of what is read from a source can have. *)
From Coq Require Import Floats.SpecFloat.
From Verif Require Import Base Net NetSpec AsPath Community CommunitySpec Attr Nlri BgpMsg Bgp4mp TableDump Stream Framing MrtRecord Elem Iter JsonSpec PsvSpec.

(** An element whose fields are in the ranges of their types, whose communities are those an
    attribute can hold. *)
Definition in_range (e : elem) : Prop := elem_ranged e /\ opt_all (Forall comm_ok) (e_comms e).
(** Its time is a finite binary64. *)
Definition timed (e : elem) : Prop := binary64 (e_time e) /\ finite (e_time e).
Definition typed (e : elem) : Prop := in_range e /\ timed e.
(** What is given is an error or has the property. *)
Definition item_all {A} (Q : A -> Prop) (x : item A) : Prop := match x with inl a => Q a | inr _ => True end.
(** Peers in range. *)
Definition peer_ok (p : peer) : Prop := ip_ok (pe_ip p) /\ pe_asn p < 2 ^ 32 /\ pe_id p < 2 ^ 32.
Definition table_ok (o : option peer_table) : Prop :=
  opt_all (fun t => forall i p, get_peer_by_id t i = Some p -> peer_ok p) o.
(** A source of octets. *)
Definition octet_source (s : stream) : Prop := bytes_ok (sbytes s).

(** Attribute values in range, as far as elements show them. *)
Definition value_ranged (v : attr_value) : Prop :=
  match v with
  | AAsPath p | AAs4Path p => path_u32 p
  | ANextHop i => ip_ok i
  | AMed n | ALocalPref n | AOtc n => n < 2 ^ 32
  | AAggregator a i | AAs4Aggregator a i => a < 2 ^ 32 /\ i < 2 ^ 32
  | ACommunities l => Forall community_ok l
  | AExtCommunities l => Forall ext_ok l
  | AIpv6ExtCommunities l => Forall ipv6_ext_ok l
  | ALargeCommunities l => Forall large_ok l
  | AMpReach n | AMpUnreach n => Forall prefix_ok (nl_prefixes n) /\ opt_all (fun h => ip_ok (nh_addr h)) (nl_next n)
  | ARaw c b | ADeprecated c b | AUnknown c b => raw_ranged (c, b)
  | _ => True
  end.
Definition attrs_ranged (a : attributes) : Prop := Forall value_ranged (values a).
Definition update_ranged (m : update_msg) : Prop :=
  Forall prefix_ok (u_withdrawn m) /\ attrs_ranged (u_attrs m) /\ Forall prefix_ok (u_announced m).
Definition bgp_ranged (m : bgp_msg) : Prop := match m with MUpdate u => update_ranged u | _ => True end.
Definition dump_ranged (m : dump) : Prop :=
  prefix_ok (td_prefix m) /\ td_time m < 2 ^ 32 /\ ip_ok (td_peer m) /\ td_asn m < 2 ^ 32 /\ attrs_ranged (td_attrs m).
Definition entry_ranged (e : rib_entry) : Prop := re_time e < 2 ^ 32 /\ attrs_ranged (re_attrs e).
Definition body_ranged (m : mrt_message) : Prop :=
  match m with
  | MrtDump d => dump_ranged d
  | MrtDumps l => Forall dump_ranged l
  | MrtV2 (V2Peers t) => table_ok (Some t)
  | MrtV2 (V2Rib r) => prefix_ok (rb_prefix r) /\ Forall entry_ranged (rb_entries r)
  | MrtV2 _ => True
  | MrtBgp4mp (MpMessage x) => mm_peer_as x < 2 ^ 32 /\ ip_ok (mm_peer x) /\ bgp_ranged (mm_bgp x)
  | MrtBgp4mp _ => True
  | MrtLegacy (LgMessage x) => lg_peer_as x < 2 ^ 32 /\ ip_ok (lg_peer x) /\ bgp_ranged (lg_bgp x)
  | MrtLegacy _ => True
  end.
(** The time in a header has 32 bits, that in microseconds too. *)
Definition clock_ok (h : header) : Prop := h_ts h < 2 ^ 32 /\ opt_all (fun u => u < 2 ^ 32) (h_us h).
Definition record_ranged (r : mrt_record) : Prop := clock_ok (mr_hdr r) /\ body_ranged (mr_msg r).
