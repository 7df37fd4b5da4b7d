(** C48: the attributes built from type-length-value items, and the traffic
    engineering attribute. *)
From Coq Require Import Lia.
From Verif Require Import Base Net Tlv TlvSpec TlvFacts.

(** ** What each parser accepts, and as what: exactly the concatenations of
    well-formed items.  (Read right to left: every value parses back from its
    octets; left to right: an accepted attribute is its value's octets, and any
    other input is refused.) *)
Theorem C48_sfp_exact s l : bytes_ok s ->
  (parse_sfp s = Ok l <-> Forall (tlv_ok 1 2) l /\ s = flat_map (tlv_wire 1 2) l).
Proof. exact (tlvs_iff 1 2 s l Nat.lt_0_1). Qed.
Print Assumptions C48_sfp_exact.
Theorem C48_prefix_sid_exact s l : bytes_ok s ->
  (parse_prefix_sid s = Ok l <-> Forall (tlv_ok 1 2) l /\ s = flat_map (tlv_wire 1 2) l).
Proof. exact (tlvs_iff 1 2 s l Nat.lt_0_1). Qed.
Print Assumptions C48_prefix_sid_exact.
Theorem C48_bier_exact s l : bytes_ok s ->
  (parse_bier s = Ok l <-> Forall (tlv_ok 2 2) l /\ s = flat_map (tlv_wire 2 2) l).
Proof. exact (tlvs_iff 2 2 s l Nat.lt_0_2). Qed.
Print Assumptions C48_bier_exact.
Theorem C48_bfd_exact s b : bytes_ok s -> (parse_bfd s = Ok b <-> bfd_ok b /\ s = bfd_wire b).
Proof. exact (bfd_iff s b). Qed.
Print Assumptions C48_bfd_exact.
Theorem C48_aigp_exact s l : bytes_ok s ->
  (parse_aigp s = Ok l <-> Forall aigp_ok l /\ s = flat_map aigp_wire l).
Proof. exact (aigp_iff s l). Qed.
Print Assumptions C48_aigp_exact.
Theorem C48_traffic_eng_exact s t : bytes_ok s -> (parse_traffic_eng s = Ok t <-> te_ok t /\ s = te_wire t).
Proof. exact (te_iff s t). Qed.
Print Assumptions C48_traffic_eng_exact.
(** Tunnel encapsulation: up to three trailing octets are ignored, and a type the
    crate has no name for is reported as 0. *)
Theorem C48_tunnel_exact s l : bytes_ok s ->
  (parse_tunnel_encap s = Ok l <->
   exists x t, s = flat_map tunnel_wire x ++ t /\ (length t < 4)%nat /\ Forall tunnel_ok x /\ map report x = l).
Proof. exact (tunnel_iff s l). Qed.
Print Assumptions C48_tunnel_exact.

(** ** What each encoder writes: the wire format, or a refusal exactly when a
    value is longer than its length field can say *)
Theorem C48_sfp_encode l b :
  (encode_sfp l = Ok b <-> Forall (fun t => nlen (t_value t) < 65536) l /\ b = flat_map (tlv_wire 1 2) l) /\
  ((exists b', encode_sfp l = Ok b') \/ encode_sfp l = Err EEncTooLarge).
Proof. exact (conj (encode_tlvs_iff 1 2 l b) (encode_tlvs_cases 1 2 l)). Qed.
Print Assumptions C48_sfp_encode.
Theorem C48_prefix_sid_encode l b :
  (encode_prefix_sid l = Ok b <-> Forall (fun t => nlen (t_value t) < 65536) l /\ b = flat_map (tlv_wire 1 2) l) /\
  ((exists b', encode_prefix_sid l = Ok b') \/ encode_prefix_sid l = Err EEncTooLarge).
Proof. exact (conj (encode_tlvs_iff 1 2 l b) (encode_tlvs_cases 1 2 l)). Qed.
Print Assumptions C48_prefix_sid_encode.
Theorem C48_bier_encode l b :
  (encode_bier l = Ok b <-> Forall (fun t => nlen (t_value t) < 65536) l /\ b = flat_map (tlv_wire 2 2) l) /\
  ((exists b', encode_bier l = Ok b') \/ encode_bier l = Err EEncTooLarge).
Proof. exact (conj (encode_tlvs_iff 2 2 l b) (encode_tlvs_cases 2 2 l)). Qed.
Print Assumptions C48_bier_encode.
Theorem C48_bfd_encode x b :
  encode_bfd x = Ok b <-> Forall (fun t => nlen (t_value t) < 256) (bfd_tlvs x) /\ b = bfd_wire x.
Proof. exact (encode_bfd_iff x b). Qed.
Print Assumptions C48_bfd_encode.
Theorem C48_tunnel_encode l b :
  (encode_tunnel_encap l = Ok b <->
   Forall (fun t => Forall (fun s => nlen (t_value s) < 256 ^ N.of_nat (sub_width (t_type s))) (tn_subs t) /\
                    nlen (flat_map sub_wire (tn_subs t)) < 65536) l /\ b = flat_map tunnel_wire l) /\
  ((exists b', encode_tunnel_encap l = Ok b') \/ encode_tunnel_encap l = Err EEncTooLarge).
Proof. exact (conj (encode_tunnel_encap_iff l b) (encode_tunnel_encap_cases l)). Qed.
Print Assumptions C48_tunnel_encode.
(** The length field of a hand-built AIGP TLV is not trusted: the octets are the
    wire format of its value whatever it says. *)
Theorem C48_aigp_encode l : encode_aigp l = flat_map aigp_wire l.
Proof. exact (encode_aigp_wire l). Qed.
Print Assumptions C48_aigp_encode.

(** ** Round trips in one statement, for the attributes a user can build *)
Theorem C48_roundtrip :
  (forall l, Forall (tlv_ok 1 2) l -> exists b, encode_sfp l = Ok b /\ parse_sfp b = Ok l) /\
  (forall l, Forall (tlv_ok 1 2) l -> exists b, encode_prefix_sid l = Ok b /\ parse_prefix_sid b = Ok l) /\
  (forall l, Forall (tlv_ok 2 2) l -> exists b, encode_bier l = Ok b /\ parse_bier b = Ok l) /\
  (forall x, bfd_ok x -> exists b, encode_bfd x = Ok b /\ parse_bfd b = Ok x) /\
  (forall l, Forall aigp_ok l -> parse_aigp (encode_aigp l) = Ok l) /\
  (forall t, te_ok t -> parse_traffic_eng (encode_traffic_eng t) = Ok t) /\
  (forall l, Forall tunnel_ok l -> Forall named l ->
     exists b, encode_tunnel_encap l = Ok b /\ parse_tunnel_encap b = Ok l).
Proof. exact tlv_roundtrips. Qed.
Print Assumptions C48_roundtrip.

(** ** What was parsed re-encodes to the same octets (not so for tunnels, below) *)
Theorem C48_reencode s : bytes_ok s ->
  (forall l, parse_sfp s = Ok l -> encode_sfp l = Ok s) /\
  (forall l, parse_prefix_sid s = Ok l -> encode_prefix_sid l = Ok s) /\
  (forall l, parse_bier s = Ok l -> encode_bier l = Ok s) /\
  (forall x, parse_bfd s = Ok x -> encode_bfd x = Ok s) /\
  (forall l, parse_aigp s = Ok l -> encode_aigp l = s) /\
  (forall t, parse_traffic_eng s = Ok t -> encode_traffic_eng t = s).
Proof. exact (tlv_reencode s). Qed.
Print Assumptions C48_reencode.

(** ** No octets make one of these parsers panic *)
Theorem C48_no_panic s :
  parse_sfp s <> Panic /\ parse_prefix_sid s <> Panic /\ parse_bier s <> Panic /\
  parse_bfd s <> Panic /\ parse_aigp s <> Panic /\ parse_traffic_eng s <> Panic /\
  parse_tunnel_encap s <> Panic.
Proof. exact (tlv_no_panic s). Qed.
Print Assumptions C48_no_panic.

(** ** Accessors: the first item of the type decides *)
Theorem C48_metric pre v post :
  Forall (fun t => ai_type t <> 1) pre -> forall n m, n < 2 ^ 64 ->
  accumulated_metric (pre ++ AigpTlv 1 m (be 8 n ++ v) :: post) = Some n.
Proof. exact (fun H n m => metric_first pre v post n m H). Qed.
Print Assumptions C48_metric.
Theorem C48_metric_absent l : Forall (fun t => ai_type t <> 1) l -> accumulated_metric l = None.
Proof. exact (metric_absent l). Qed.
Print Assumptions C48_metric_absent.
Theorem C48_tunnel_accessors ty pre post n r :
  (Forall (fun t => t_type t <> 6) pre -> n < 2 ^ 32 ->
     get_endpoint (Tunnel ty (pre ++ Tlv 6 (be 4 n) :: post)) = Some (V4 n)) /\
  (Forall (fun t => t_type t <> 6) pre -> n < 2 ^ 128 ->
     get_endpoint (Tunnel ty (pre ++ Tlv 6 (be 16 n) :: post)) = Some (V6 n)) /\
  (Forall (fun t => t_type t <> 4) pre -> n < 2 ^ 32 ->
     get_color (Tunnel ty (pre ++ Tlv 4 (be 4 n ++ r) :: post)) = Some n) /\
  (Forall (fun t => t_type t <> 8) pre -> n < 2 ^ 16 ->
     get_udp_port (Tunnel ty (pre ++ Tlv 8 (be 2 n ++ r) :: post)) = Some n) /\
  (Forall (fun t => t_type t <> 12) pre -> n < 2 ^ 32 ->
     get_preference (Tunnel ty (pre ++ Tlv 12 (be 4 n ++ r) :: post)) = Some n).
Proof. exact (tunnel_accessors ty pre post n r). Qed.
Print Assumptions C48_tunnel_accessors.

(** ** Findings *)
(** An unnamed sub-TLV type is lost: type 200, parsed and re-encoded, is type 0
    with another length width; and trailing octets vanish. *)
Theorem C48_tunnel_reencode_refuted : exists s l, bytes_ok s /\
  parse_tunnel_encap s = Ok l /\ encode_tunnel_encap l <> Ok s /\
  encode_tunnel_encap l = Ok [0;8; 0;3; 0;1;7].
Proof.
  exists [0;8; 0;4; 200;0;1;7; 9;9], [Tunnel 8 [Tlv 0 [7]]].
  split; [repeat constructor|]. split; [reflexivity|]. split; [|reflexivity].
  intros H; vm_compute in H; discriminate H.
Qed.
Print Assumptions C48_tunnel_reencode_refuted.
(** The first endpoint sub-TLV RFC 9012 defines (reserved octets, address family,
    address) is not recognised by the endpoint accessor. *)
Theorem C48_endpoint_rfc9012_refuted : exists t l,
  parse_tunnel_encap [0;8; 0;12; 6;10; 0;0;0;0; 0;1; 192;0;2;1] = Ok l /\ l = [t] /\
  get_endpoint t = None.
Proof. eexists _, _. split; [reflexivity|]. split; reflexivity. Qed.
Print Assumptions C48_endpoint_rfc9012_refuted.

(** ** The hypotheses are met *)
Example C48_ex_sfp :
  Forall (tlv_ok 1 2) [Tlv 1 [1;2;3]; Tlv 255 []] /\
  encode_sfp [Tlv 1 [1;2;3]; Tlv 255 []] = Ok [1;0;3;1;2;3; 255;0;0] /\
  parse_sfp [1;0;3;1;2;3; 255;0;0] = Ok [Tlv 1 [1;2;3]; Tlv 255 []].
Proof. repeat split; repeat constructor. Qed.
Example C48_ex_bier : parse_bier [0;1;0;2;8;9] = Ok [Tlv 1 [8;9]] /\ parse_bier [0;1;0;2;8] = Err ETrunc /\
  encode_bier [Tlv 1 [8;9]] = Ok [0;1;0;2;8;9].
Proof. repeat split. Qed.
Example C48_ex_bfd :
  bfd_ok (Bfd 1 77 [Tlv 1 [10;0;0;1]]) /\
  parse_bfd [1; 0;0;0;77; 1;4;10;0;0;1] = Ok (Bfd 1 77 [Tlv 1 [10;0;0;1]]).
Proof. repeat split; repeat constructor. Qed.
Example C48_ex_aigp :
  Forall aigp_ok [AigpTlv 1 11 [0;0;0;0;0;0;0;100]] /\
  parse_aigp [1;0;11;0;0;0;0;0;0;0;100] = Ok [AigpTlv 1 11 [0;0;0;0;0;0;0;100]] /\
  accumulated_metric [AigpTlv 1 11 [0;0;0;0;0;0;0;100]] = Some 100 /\
  parse_aigp [1;0;2] = Err EParse.
Proof. repeat split; repeat constructor. Qed.
Example C48_ex_te :
  te_ok (TE 1 2 3 [1;2;3;4;5;6;7;8] [9;9]).
Proof. repeat split; repeat constructor. Qed.
Example C48_ex_tunnel :
  let l := [Tunnel 8 [Tlv 6 [192;0;2;1]; Tlv 4 [0;0;0;100]; Tlv 128 [1]]] in
  Forall tunnel_ok l /\ Forall named l /\
  encode_tunnel_encap l = Ok [0;8; 0;16; 6;4;192;0;2;1; 4;4;0;0;0;100; 128;0;1;1] /\
  get_endpoint (hd (Tunnel 0 []) l) = Some (V4 0xC0000201) /\ get_color (hd (Tunnel 0 []) l) = Some 100.
Proof.
  split; [repeat constructor|]. split; [|repeat split].
  constructor; [|constructor]. split; [discriminate|].
  repeat (constructor; [unfold named_sub; cbn [t_type]; lia|]). constructor.
Qed.
