(** C39: FlowSpec NLRI. *)
From Verif Require Import Base Net NetSpec FlowSpec FlowSpecSpec FlowSpecFacts.

(** A rule with its component types in strictly increasing order, terminated
    operator lists and values that fit encodes, whenever the encoder accepts it,
    to octets that parse back to the same rule whatever follows them. *)
Theorem C39_roundtrip l b : rule_ok l -> encode_flowspec_nlri l = Ok b ->
  forall r, parse_flowspec_nlri (b ++ r) = Ok l.
Proof. exact (flowspec_roundtrip l b). Qed.
Print Assumptions C39_roundtrip.

(** The encoder accepts exactly the rules of at most 4095 octets and writes the
    RFC 8955 form: one length octet below 240, two from 240 on. *)
Theorem C39_wire l b : Forall comp_ok l ->
  (encode_flowspec_nlri l = Ok b <->
   nlen (rule_wire l) <= 4095 /\ b = length_wire (nlen (rule_wire l)) ++ rule_wire l).
Proof. exact (encode_rule_iff l b). Qed.
Print Assumptions C39_wire.
Theorem C39_too_long_refused l : Forall comp_ok l -> 4095 < nlen (rule_wire l) ->
  encode_flowspec_nlri l = Err EEncTooLarge.
Proof. exact (encode_rule_long l). Qed.
Print Assumptions C39_too_long_refused.

(** A component whose type does not exceed one before it is refused, whatever
    follows it. *)
Theorem C39_disorder_refused l t r n : rule_ok l ->
  (exists c, In c l /\ t <= rfc_type c) \/ t = 0 ->
  nlen (rule_wire l) < n -> n <= nlen (rule_wire l ++ t :: r) -> n <= 4095 ->
  parse_flowspec_nlri (length_wire n ++ rule_wire l ++ t :: r) = Err EFsOrder.
Proof. exact (parse_disorder l t r n). Qed.
Print Assumptions C39_disorder_refused.

(** Whatever is accepted is a well-formed rule, is the decoding of the octets
    after the length field, and covers at least the declared length. *)
Theorem C39_accepted n body l : n <= 4095 -> bytes_ok body ->
  parse_flowspec_nlri (length_wire n ++ body) = Ok l ->
  rule_ok l /\ exists r, body = rule_wire l ++ r /\ n <= nlen (rule_wire l) /\ n <= nlen body.
Proof. exact (flowspec_accepted n body l). Qed.
Print Assumptions C39_accepted.
(** When the buffer holds just the declared octets, encoding what was parsed
    reproduces the buffer. *)
Theorem C39_reencode n body l : n <= 4095 -> bytes_ok body -> nlen body = n ->
  parse_flowspec_nlri (length_wire n ++ body) = Ok l ->
  encode_flowspec_nlri l = Ok (length_wire n ++ body).
Proof. exact (flowspec_reencode n body l). Qed.
Print Assumptions C39_reencode.

(** The convenience constructors make operators that meet the hypotheses. *)
Theorem C39_constructors v : v < 2 ^ 64 ->
  numops_ok [equal_to v] /\ numops_ok [greater_than_or_equal v] /\
  bitops_ok [exact_match v] /\ bitops_ok [partial_match v].
Proof. exact (constructors_ok v). Qed.
Print Assumptions C39_constructors.

(** No octets make the parser panic or run for ever. *)
Theorem C39_no_panic s : parse_flowspec_nlri s <> Panic.
Proof. exact (parse_flowspec_np s). Qed.
Print Assumptions C39_no_panic.

(** Non-vacuity: a rule with an IPv4 and an IPv6 prefix, a two-operator list and
    a bitmask. *)
Definition ex_rule : list fs_comp :=
  [FDestPrefix (Pfx (Net (V4 3221225984) 24) None);
   FSrcPrefix (Pfx (Net (V6 (0x20010db8 * 2 ^ 96)) 40) None);
   FPort [NumOp false false 2 false true true 1000; NumOp true true 2 true false true 2000];
   FTcpFlags [exact_match 18]].
Example ex_rule_ok : rule_ok ex_rule.
Proof.
  split; [repeat split|]. unfold ex_rule.
  repeat constructor; cbn; auto; try (left; reflexivity); try (right; reflexivity);
  intro Hx; discriminate.
Qed.
Example ex_rule_encodes : encode_flowspec_nlri ex_rule = Ok
  [22; 1; 24; 192; 0; 2; 2; 40; 32; 1; 13; 184; 0; 4; 19; 3; 232; 213; 7; 208; 9; 128; 18].
Proof. vm_compute. reflexivity. Qed.

(** Findings.  The component parsers are not bounded by the declared length: a
    rule whose declared length ends inside a component is accepted by reading
    the octets that follow it. *)
Theorem C39_overread_refuted : exists n body l, n < nlen (rule_wire l) /\
  parse_flowspec_nlri (length_wire n ++ body) = Ok l.
Proof. exists 1, [3; 0x81; 6], [FIpProto [NumOp true false 1 false false true 6]]. split; reflexivity. Qed.
Print Assumptions C39_overread_refuted.
(** An IPv6 prefix of at most 32 bits comes back as an IPv4 prefix. *)
Theorem C39_short_ipv6_refuted : exists p b, net_ok (p_net p) /\ wire_exact (p_net p) /\
  encode_flowspec_nlri [FDestPrefix p] = Ok b /\
  exists q, parse_flowspec_nlri b = Ok [FDestPrefix q] /\ is_v4 (net_addr (p_net p)) = false /\
    is_v4 (net_addr (p_net q)) = true.
Proof.
  exists (Pfx (Net (V6 (0x20010db8 * 2 ^ 96)) 32) None), [6; 1; 32; 32; 1; 13; 184].
  repeat split; try reflexivity. intro Hx; discriminate.
  exists (Pfx (Net (V4 0x20010db8) 32) None). repeat split; reflexivity.
Qed.
Print Assumptions C39_short_ipv6_refuted.
(** An IPv6 prefix component with an offset (RFC 8956) is written with its
    offset octet but read without it. *)
Theorem C39_ipv6_offset_refuted : exists off p b,
  encode_flowspec_nlri [FDestPrefix6 off p] = Ok b /\
  parse_flowspec_nlri b <> Ok [FDestPrefix6 off p].
Proof.
  exists 0, (Pfx (Net (V6 (0x20010db8 * 2 ^ 96)) 40) None), [8; 1; 40; 0; 32; 1; 13; 184; 0].
  split; [reflexivity|]. vm_compute. discriminate.
Qed.
Print Assumptions C39_ipv6_offset_refuted.
(** A value length above eight makes the encoder overflow a shift. *)
Theorem C39_value_length_panics_refuted : exists l, encode_flowspec_nlri l = Panic.
Proof. exists [FPort [NumOp true false 9 false false true 1]]. reflexivity. Qed.
Print Assumptions C39_value_length_panics_refuted.
