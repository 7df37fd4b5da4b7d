(** Equality, order and hashing of decoded values, where the code defines them by hand.
    Numbers of type [f32] are their bits, so [to_bits() == to_bits()] is equality of
    numbers; the [f64] time of a BMP header is a [spec_float]. *)
From Coq Require Import ZArith Floats.SpecFloat.
From Verif Require Import Base Net Tlv Community TableDump Elem Attr Bmp.

(** [Vec<T> == Vec<T>]: the same length and equal items. *)
Fixpoint vec_eqb {A} (eqb : A -> A -> bool) (l m : list A) : bool :=
  match l, m with
  | [], [] => true
  | x :: l', y :: m' => eqb x y && vec_eqb eqb l' m'
  | _, _ => false
  end.
(** models/bgp/attributes/mod.rs:671-685 [TrafficEngineering]: the eight numbers are
    zipped. *)
Definition te_eqb (t u : traffic_eng) : bool :=
  (te_cap t =? te_cap u) && (te_enc t =? te_enc u) && (te_reserved t =? te_reserved u) &&
  forallb (fun p => fst p =? snd p) (combine (te_bw t) (te_bw u)) && bytes_eqb (te_specific t) (te_specific u).

(** models/bgp/community.rs:97-120 [ExtendedCommunity], derived but for 231-239
    [LinkBandwidth] and 254-261 [FlowSpecTrafficRate]. *)
Definition ext_eqb (x y : ext_community) : bool :=
  match x, y with
  | XTwoOctet t s a l, XTwoOctet t' s' a' l' => Bool.eqb t t' && (s =? s') && (a =? a') && bytes_eqb l l'
  | XIpv4 t s a l, XIpv4 t' s' a' l' => Bool.eqb t t' && (s =? s') && (a =? a') && bytes_eqb l l'
  | XFourOctet t s a l, XFourOctet t' s' a' l' => Bool.eqb t t' && (s =? s') && (a =? a') && bytes_eqb l l'
  | XOpaque t s v, XOpaque t' s' v' => Bool.eqb t t' && (s =? s') && bytes_eqb v v'
  | XTrafficRate a r, XTrafficRate a' r' => (a =? a') && (r =? r')
  | XTrafficAction a t s, XTrafficAction a' t' s' => (a =? a') && Bool.eqb t t' && Bool.eqb s s'
  | XRedirect s a l, XRedirect s' a' l' => (s =? s') && (a =? a') && bytes_eqb l l'
  | XTrafficMarking a d, XTrafficMarking a' d' => (a =? a') && (d =? d')
  | XLinkBandwidth t a b, XLinkBandwidth t' a' b' => (a =? a') && (b =? b') && Bool.eqb t t'
  | XRaw b, XRaw b' => bytes_eqb b b'
  | _, _ => false
  end.

(** models/mrt/table_dump_v2.rs:267-274 [Peer], derived. *)
Definition peer_eqb (p q : peer) : bool :=
  (pe_type p =? pe_type q) && (pe_id p =? pe_id q) && ip_eqb (pe_ip p) (pe_ip q) && (pe_asn p =? pe_asn q).
(** table_dump_v2.rs:202-210 [GeoPeer]. *)
Definition geo_peer_eqb (p q : geo_peer) : bool :=
  peer_eqb (gp_peer p) (gp_peer q) && (gp_lat p =? gp_lat q) && (gp_lon p =? gp_lon q).
(** table_dump_v2.rs:233-243 [GeoPeerTable]. *)
Definition geo_table_eqb (t u : geo_table) : bool :=
  (gt_collector t =? gt_collector u) && bytes_eqb (gt_name t) (gt_name u) && (gt_lat t =? gt_lat u) && (gt_lon t =? gt_lon u) &&
  vec_eqb geo_peer_eqb (gt_peers t) (gt_peers u).

(** headers.rs:208-213 [PerPeerFlags], derived. *)
Definition flags_eqb (a b : peer_flags) : bool :=
  match a, b with PeerFlags f, PeerFlags g | LocalRibFlags f, LocalRibFlags g => f =? g | _, _ => false end.
(** headers.rs:136-148 [BmpPerPeerHeader]: the time is compared as a float. *)
Definition per_peer_eqb (h k : per_peer) : bool :=
  (pp_type h =? pp_type k) && flags_eqb (pp_flags h) (pp_flags k) && (pp_dist h =? pp_dist k) && ip_eqb (pp_ip h) (pp_ip k) &&
  (pp_asn h =? pp_asn k) && (pp_id h =? pp_id k) && SFeqb (pp_time h) (pp_time k).
(** [f64::to_bits] (one pattern for NaN). *)
Definition f64_bits (x : f64) : N :=
  match x with
  | S754_zero s => if s then 2 ^ 63 else 0
  | S754_infinity s => (if s then 2 ^ 63 else 0) + 2047 * 2 ^ 52
  | S754_nan => 4095 * 2 ^ 51
  | S754_finite s m e => (if s then 2 ^ 63 else 0) + (if N.pos m <? 2 ^ 52 then N.pos m else Z.to_N (e + 1075) * 2 ^ 52 + (N.pos m - 2 ^ 52))
  end.
(** headers.rs:150-160 [Hash]: what is fed to the hasher, in order (an enum feeds its
    variant before its content). *)
Definition per_peer_hashed (h : per_peer) : list N :=
  [pp_type h] ++ match pp_flags h with PeerFlags f => [0; f] | LocalRibFlags f => [1; f] end ++ [pp_dist h] ++
  match pp_ip h with V4 n => [0; n] | V6 n => [1; n] end ++ [pp_asn h; pp_id h; f64_bits (pp_time h)].

(** models/bgp/attributes/mod.rs:60-109 [AttrType]: a variant of its own or [Unknown]. *)
Inductive atype := Known (n : N) | Unknown (n : N).
(** [FromPrimitive] and [IntoPrimitive] (66-109); [Unknown] catches all. *)
Definition atype_of (n : N) : atype := if mem n known_codes then Known n else Unknown n.
Definition atype_code (t : atype) : N := match t with Known n | Unknown n => n end.
(** Derived equality; 111-121 the order is that of the codes. *)
Definition atype_eqb (t u : atype) : bool :=
  match t, u with Known n, Known m | Unknown n, Unknown m => n =? m | _, _ => false end.
Definition atype_cmp (t u : atype) : comparison := atype_code t ?= atype_code u.
