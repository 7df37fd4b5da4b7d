(** C43: communities. *)
From Coq Require Import Lia.
From Verif Require Import Base Reader Net Community CommunitySpec CommunityFacts.

(** ** Values encode and parse back *)
Theorem C43_regular_roundtrip l : Forall community_ok l ->
  parse_regular_communities (encode_regular_communities l) = Ok l.
Proof. exact (regular_roundtrip l). Qed.
Print Assumptions C43_regular_roundtrip.

Theorem C43_large_roundtrip l : Forall large_ok l ->
  parse_large_communities (encode_large_communities l) = Ok l.
Proof. exact (large_roundtrip l). Qed.
Print Assumptions C43_large_roundtrip.

Theorem C43_extended_roundtrip l : Forall ext_ok l ->
  parse_extended_communities (encode_extended_communities l) = Ok l.
Proof. exact (ext_roundtrip l). Qed.
Print Assumptions C43_extended_roundtrip.

Theorem C43_ipv6_extended_roundtrip l : Forall ipv6_ext_ok l ->
  parse_ipv6_extended_communities (encode_ipv6_extended_communities l) = Ok l.
Proof. exact (ipv6_ext_roundtrip l). Qed.
Print Assumptions C43_ipv6_extended_roundtrip.

(** ** Octets parse and re-encode to themselves, and what is parsed is a value of
    the range of the round trip above *)
Theorem C43_regular_reencode s l : bytes_ok s ->
  parse_regular_communities s = Ok l ->
  encode_regular_communities l = s /\ Forall community_ok l.
Proof. exact (regular_reencode s l). Qed.
Print Assumptions C43_regular_reencode.

Theorem C43_large_reencode s l : bytes_ok s ->
  parse_large_communities s = Ok l ->
  encode_large_communities l = s /\ Forall large_ok l.
Proof. exact (large_reencode s l). Qed.
Print Assumptions C43_large_reencode.

Theorem C43_ipv6_extended_reencode s l : bytes_ok s ->
  parse_ipv6_extended_communities s = Ok l ->
  encode_ipv6_extended_communities l = s /\ Forall ipv6_ext_ok l.
Proof. exact (ipv6_ext_reencode s l). Qed.
Print Assumptions C43_ipv6_extended_reencode.

(** Extended communities: the re-encoding is the input with the reserved bits of
    every eight-octet community cleared. *)
Theorem C43_extended_reencode s l : bytes_ok s ->
  parse_extended_communities s = Ok l ->
  exists cs, s = concat cs /\ Forall (fun c => length c = 8%nat) cs /\
    encode_extended_communities l = concat (map clear_reserved cs) /\ Forall ext_ok l.
Proof. exact (ext_reencode s l). Qed.
Print Assumptions C43_extended_reencode.

(** ** When the list parses *)
Theorem C43_lengths s : bytes_ok s ->
  ((exists l, parse_regular_communities s = Ok l) <-> (length s mod 4 = 0)%nat) /\
  ((exists l, parse_large_communities s = Ok l) <-> (length s mod 12 = 0)%nat) /\
  ((exists l, parse_extended_communities s = Ok l) <-> (length s mod 8 = 0)%nat) /\
  ((exists l, parse_ipv6_extended_communities s = Ok l) <-> (length s mod 20 = 0)%nat).
Proof. exact (fun _ => community_lengths s). Qed.
Print Assumptions C43_lengths.

(** No octets make a community parser panic (its [debug_assert]s included). *)
Theorem C43_no_panic s :
  parse_regular_communities s <> Panic /\ parse_large_communities s <> Panic /\
  parse_extended_communities s <> Panic /\ parse_ipv6_extended_communities s <> Panic.
Proof.
  exact (conj (parse_regular_np s) (conj (parse_large_np s)
          (conj (parse_ext_np s) (parse_ipv6_ext_np s)))).
Qed.
Print Assumptions C43_no_panic.

(** ** The hypotheses are met *)
Example C43_regular_example :
  let l := [CNoExport; CCustom 65000 100; CNoExportSubConfed] in
  Forall community_ok l /\
  encode_regular_communities l = [255;255;255;1; 253;232;0;100; 255;255;255;3] /\
  parse_regular_communities [255;255;255;1; 253;232;0;100; 255;255;255;3] = Ok l.
Proof.
  split; [|split; reflexivity].
  repeat constructor. intros [H|[H|[H|[]]]]; discriminate H.
Qed.
Example C43_extended_example :
  let l := [XTwoOctet true 2 65000 [0;0;0;7]; XTrafficAction 64512 true true;
            XTrafficMarking 0 46; XLinkBandwidth false 23456 0x4B189680;
            XOpaque false 11 [1;2;3;4;5;6]; XRaw [6;2;3;4;5;6;7;8]] in
  Forall ext_ok l /\ parse_extended_communities (encode_extended_communities l) = Ok l.
Proof.
  split; [|reflexivity].
  repeat (constructor; [ now (cbn; repeat split; try lia;
     try (now repeat constructor); intuition discriminate) |]). constructor.
Qed.
Example C43_large_example :
  let l := [Large 4200000000 1 2; Large 0 4294967295 7] in
  Forall large_ok l /\ parse_large_communities (encode_large_communities l) = Ok l.
Proof. split; [repeat constructor|reflexivity]. Qed.
Example C43_ipv6_extended_example :
  let l := [Ipv6Ext TTwoOctetAs 2 (2 ^ 125 + 1) 3 4; Ipv6Ext (TUnknown 6) 2 5 3 4] in
  Forall ipv6_ext_ok l /\ parse_ipv6_extended_communities (encode_ipv6_extended_communities l) = Ok l.
Proof.
  split; [|reflexivity].
  repeat constructor; cbn; intuition discriminate.
Qed.

(** ** Findings *)
(** Outside [community_ok] the codec changes the value: an AS number above 65535
    is cut to 16 bits, and a custom community spelling a well-known value comes
    back under its name. *)
Theorem C43_wide_asn_refuted :
  exists c, parse_regular_communities (encode_regular_communities [c]) <> Ok [c] /\
    exists a v, c = CCustom a v /\ a < 2 ^ 32 /\ v < 65536.
Proof. exists (CCustom 65536 1). split; [discriminate|]. exists 65536, 1. repeat split. Qed.
Theorem C43_well_known_alias_refuted :
  exists a v, a < 65536 /\ v < 65536 /\
    parse_regular_communities (encode_regular_communities [CCustom a v]) <> Ok [CCustom a v].
Proof. exists 65535, 0xFF01. repeat split; discriminate. Qed.
(** Reserved bits do not survive. *)
Theorem C43_reserved_bits_refuted :
  exists s l, bytes_ok s /\ parse_extended_communities s = Ok l /\ encode_extended_communities l <> s.
Proof.
  exists [0x40; 7; 0; 1; 0; 0; 0; 4], [XTrafficAction 1 false false].
  split; [repeat constructor|]. split; [reflexivity|discriminate].
Qed.
