(** Equality, order and hashing of decoded values. *)
From Coq Require Import ZArith Floats.SpecFloat.
From Verif Require Import Base Net Tlv TlvSpec Community CommunitySpec TableDump Elem Attr Bmp BmpSpec BmpFacts Framing MrtRecord Equal EqualSpec EqualFacts F64Bits.

(** Traffic engineering attributes and extended communities are equal exactly when their
    octets are, NaN and zeros of either sign included. *)
Theorem C96_traffic_eng t u : te_ok t -> te_ok u -> (te_eqb t u = true <-> encode_traffic_eng t = encode_traffic_eng u).
Proof. exact (te_eqb_wire t u). Qed.
Print Assumptions C96_traffic_eng.
Theorem C96_extended x y : ext_ok x -> ext_ok y -> (ext_eqb x y = true <-> encode_ext x = encode_ext y).
Proof. exact (ext_eqb_wire x y). Qed.
Print Assumptions C96_extended.
(** Geographic tables are equal exactly when every field and, position by position, every
    peer is. *)
Theorem C96_geo t u : geo_table_eqb t u = true <->
  gt_collector t = gt_collector u /\ gt_name t = gt_name u /\ gt_lat t = gt_lat u /\ gt_lon t = gt_lon u /\ gt_peers t = gt_peers u.
Proof.
  rewrite geo_table_eqb_iff. split; [intros ->; auto|]. destruct t, u; cbn. intros (-> & -> & -> & -> & ->). reflexivity.
Qed.
Print Assumptions C96_geo.
(** MRT headers are equal exactly when all but the length is. *)
Theorem C96_header h k : header_eqb h k = true <-> h_ts h = h_ts k /\ h_us h = h_us k /\ h_type h = h_type k /\ h_sub h = h_sub k.
Proof. exact (header_eqb_iff h k). Qed.
Print Assumptions C96_header.
(** All of them are equivalence relations. *)
Theorem C96_equivalence : equivalence te_eqb te_ok /\ equivalence ext_eqb (fun _ => True) /\ equivalence geo_table_eqb (fun _ => True) /\
  equivalence geo_peer_eqb (fun _ => True) /\ equivalence header_eqb (fun _ => True).
Proof.
  split; [apply leibniz_equivalence; exact te_eqb_iff|]. split; [apply leibniz_equivalence; intros; apply ext_eqb_iff|]. split; [apply leibniz_equivalence; intros; apply geo_table_eqb_iff|].
  split; [apply leibniz_equivalence; intros; apply geo_peer_eqb_iff|]. split; [|split].
  - intros x _. apply header_eqb_iff. auto.
  - intros x y _ _ H. apply header_eqb_iff in H as (A & B & C & D). apply header_eqb_iff. auto.
  - intros x y z _ _ _ H K. apply header_eqb_iff in H as (A & B & C & D), K as (A' & B' & C' & D'). apply header_eqb_iff. repeat split; congruence.
Qed.
Print Assumptions C96_equivalence.

(** Per-peer headers that were read: equality is that of all fields, and equal headers feed
    the same to a hasher, whatever octets they came from. *)
Theorem C96_per_peer s s' r r' h h' : bytes_ok s -> bytes_ok s' -> parse_per_peer_header s = Ok (h, r) -> parse_per_peer_header s' = Ok (h', r') ->
  (per_peer_eqb h h' = true <-> h = h') /\ (per_peer_eqb h h' = true -> per_peer_hashed h = per_peer_hashed h').
Proof.
  intros S S' P P'. apply per_peer_reads in P as (w & _ & W); [|exact S]. apply per_peer_reads in P' as (w' & _ & W'); [|exact S'].
  pose proof (per_peer_iff w w' h h' W W') as E. split; [exact E|]. intros H. apply E in H. subst. reflexivity.
Qed.
Print Assumptions C96_per_peer.

(** An attribute type made from a code keeps it, is equal to another exactly when the codes
    are, and is ordered as the codes are. *)
Theorem C96_attr_type n m : atype_code (atype_of n) = n /\ (atype_eqb (atype_of n) (atype_of m) = true <-> n = m) /\
  (atype_cmp (atype_of n) (atype_of m) = (n ?= m)) /\ (atype_cmp (atype_of n) (atype_of m) = Eq <-> atype_eqb (atype_of n) (atype_of m) = true).
Proof. exact (atype_ok n m). Qed.
Print Assumptions C96_attr_type.
(** It has a name of its own exactly when its code is one of those listed. *)
Theorem C96_attr_named n : (atype_of n = Known n <-> In n named_types) /\ (atype_of n = Unknown n <-> ~ In n named_types).
Proof.
  assert (M : mem n known_codes = true <-> In n named_types).
  { unfold mem. rewrite existsb_exists. split; [intros (x & I & E); apply N.eqb_eq in E; subst; exact I|]. intros I. exists n. split; [exact I|apply N.eqb_refl]. }
  unfold atype_of. destruct (mem n known_codes); split; split; intros H; try discriminate H; try reflexivity; try (apply M; reflexivity).
  - destruct (H (proj1 M eq_refl)).
  - apply M in H. discriminate H.
  - intros I. apply M in I. discriminate I.
Qed.
Print Assumptions C96_attr_named.

(** Headers that feed the same to a hasher agree in every field but the time, and the times
    have the same bits; those bits are the IEEE encoding of the number. *)
Theorem C96_hashed h k : per_peer_hashed h = per_peer_hashed k ->
  pp_type h = pp_type k /\ pp_flags h = pp_flags k /\ pp_dist h = pp_dist k /\ pp_ip h = pp_ip k /\ pp_asn h = pp_asn k /\ pp_id h = pp_id k /\
  f64_bits (pp_time h) = f64_bits (pp_time k).
Proof.
  destruct h as [t f d i a n x], k as [t' f' d' i' a' n' x']. unfold per_peer_hashed. cbn [pp_type pp_flags pp_dist pp_ip pp_asn pp_id pp_time].
  generalize (f64_bits x) (f64_bits x'). intros b b'. destruct f, f', i, i'; cbn [app]; intros H; try discriminate H; injection H; intros; subst; auto 8.
Qed.
Print Assumptions C96_hashed.
Theorem C96_time_bits (x : Bits.binary64) : Binary.is_nan 53 1024 x = false ->
  Z.of_N (f64_bits (BinarySingleNaN.B2SF (Binary.B2BSN 53 1024 x))) = Bits.bits_of_b64 x.
Proof. exact (bits_b64 x). Qed.
Print Assumptions C96_time_bits.
Example C96_ex_bits : f64_bits (BinarySingleNaN.B2SF (Binary.B2BSN 53 1024 (Bits.b64_of_bits 0x41D954FC40200000))) = 0x41D954FC40200000 /\
  atype_of 35 = Known 35 /\ atype_of 36 = Unknown 36.
Proof. split; [vm_compute; reflexivity|]. split; reflexivity. Qed.

Definition ex_te (x : N) : traffic_eng := TE 1 8 0 [x; 0; 0; 0; 0; 0; 0; 0x80000000] [1; 2].
Example C96_ex : te_ok (ex_te 0x7FC00000) /\ te_eqb (ex_te 0x7FC00000) (ex_te 0x7FC00000) = true /\ te_eqb (ex_te 0) (ex_te 0x80000000) = false /\
  ext_eqb (XLinkBandwidth true 1 0x7FC00000) (XLinkBandwidth true 1 0x7FC00000) = true /\ ext_eqb (XLinkBandwidth true 1 5) (XLinkBandwidth false 1 5) = false /\
  header_eqb (Hdr 1 (Some 2) 16 4 10) (Hdr 1 (Some 2) 16 4 99) = true.
Proof. split; [|repeat split; reflexivity]. repeat split; try reflexivity; repeat constructor. Qed.
Example C96_ex_headers : let s := [0; 128] ++ be 8 7 ++ be 16 9 ++ be 4 65000 ++ be 4 1 ++ be 4 1700000000 ++ be 4 500000 in
  exists h, bytes_ok s /\ parse_per_peer_header s = Ok (h, []) /\ per_peer_eqb h h = true /\ per_peer_eqb h (strip_timestamp h) = false.
Proof. cbv zeta. eexists. split; [repeat constructor|]. split; [vm_compute; reflexivity|]. split; vm_compute; reflexivity. Qed.

(** Findings.  Headers built by hand can be equal and hash differently (a time of minus
    zero), and a header whose time is NaN is not equal to itself although the type claims
    a full equivalence; an [Unknown] type with the code of a known one compares as equal to
    it without being equal. *)
Theorem C96_hash_refuted : exists h k, per_peer_eqb h k = true /\ per_peer_hashed h <> per_peer_hashed k.
Proof.
  exists (PerPeer 0 (PeerFlags 0) 0 (V4 0) 0 0 (S754_zero false)), (PerPeer 0 (PeerFlags 0) 0 (V4 0) 0 0 (S754_zero true)). split; [reflexivity|]. vm_compute. discriminate.
Qed.
Theorem C96_nan_refuted : exists h, per_peer_eqb h h = false.
Proof. exists (PerPeer 0 (PeerFlags 0) 0 (V4 0) 0 0 S754_nan). reflexivity. Qed.
Theorem C96_order_refuted : exists t u, atype_cmp t u = Eq /\ atype_eqb t u = false.
Proof. exists (Known 1), (Unknown 1). split; reflexivity. Qed.
