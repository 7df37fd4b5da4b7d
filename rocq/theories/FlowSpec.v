(** FlowSpec NLRI (/repo/src/models/bgp/flowspec/{mod,operators,nlri}.rs). *)
From Verif Require Import Base Reader Net AsPath Mpls.

(** operators.rs:6-21 [NumericOperator] and 26-39 [BitmaskOperator]. *)
Record numop := NumOp {
  no_end : bool; no_and : bool; no_len : N;
  no_lt : bool; no_gt : bool; no_eq : bool; no_val : N }.
Record bitop := BitOp {
  bo_end : bool; bo_and : bool; bo_len : N; bo_not : bool; bo_match : bool; bo_val : N }.

(** mod.rs:22-53 [FlowSpecComponent]; [FlowSpecNlri] (mod.rs:15-17) is the list
    of its components. *)
Inductive fs_comp :=
| FDestPrefix (p : prefix) | FSrcPrefix (p : prefix)
| FIpProto (l : list numop) | FPort (l : list numop) | FDestPort (l : list numop)
| FSrcPort (l : list numop) | FIcmpType (l : list numop) | FIcmpCode (l : list numop)
| FTcpFlags (l : list bitop) | FPktLen (l : list numop) | FDscp (l : list numop)
| FFragment (l : list bitop) | FFlowLabel (l : list numop)
| FDestPrefix6 (offset : N) (p : prefix) | FSrcPrefix6 (offset : N) (p : prefix).

(** mod.rs:57-74 [component_type]. *)
Definition component_type (c : fs_comp) : N :=
  match c with
  | FDestPrefix _ | FDestPrefix6 _ _ => 1 | FSrcPrefix _ | FSrcPrefix6 _ _ => 2
  | FIpProto _ => 3 | FPort _ => 4 | FDestPort _ => 5 | FSrcPort _ => 6
  | FIcmpType _ => 7 | FIcmpCode _ => 8 | FTcpFlags _ => 9 | FPktLen _ => 10
  | FDscp _ => 11 | FFragment _ => 12 | FFlowLabel _ => 13
  end.

(** operators.rs:44-50, 154-160 and nlri.rs:221-231, 267-277: the two length
    bits.  [& 0x03] makes the error arms unreachable. *)
Definition op_value_len (op : N) : N :=
  match N.land (N.shiftr op 4) 3 with 0 => 1 | 1 => 2 | 2 => 4 | _ => 8 end.
Definition bit_set (op mask : N) : bool := negb (N.land op mask =? 0).

(** operators.rs:43-66 [NumericOperator::from_byte_and_value]. *)
Definition numop_of (op v : N) : res numop :=
  if bit_set op 0x08 then Err EFsOp else
  Ok (NumOp (bit_set op 0x80) (bit_set op 0x40) (op_value_len op)
            (bit_set op 0x04) (bit_set op 0x02) (bit_set op 0x01) v).
(** operators.rs:153-175 [BitmaskOperator::from_byte_and_value]. *)
Definition bitop_of (op v : N) : res bitop :=
  if bit_set op 0x0C then Err EFsOp else
  Ok (BitOp (bit_set op 0x80) (bit_set op 0x40) (op_value_len op)
            (bit_set op 0x02) (bit_set op 0x01) v).

(** operators.rs:69-102 and 178-208 [to_byte]. *)
Definition flag (b : bool) (mask : N) : N := if b then mask else 0.
Definition len_bits (n : N) : N :=
  match n with 1 => 0x00 | 2 => 0x10 | 4 => 0x20 | 8 => 0x30 | _ => 0x00 end.
Definition numop_byte (o : numop) : N :=
  N.lor (N.lor (N.lor (N.lor (N.lor (flag (no_end o) 0x80) (flag (no_and o) 0x40))
    (len_bits (no_len o))) (flag (no_lt o) 0x04)) (flag (no_gt o) 0x02)) (flag (no_eq o) 0x01).
Definition bitop_byte (o : bitop) : N :=
  N.lor (N.lor (N.lor (N.lor (flag (bo_end o) 0x80) (flag (bo_and o) 0x40))
    (len_bits (bo_len o))) (flag (bo_not o) 0x02)) (flag (bo_match o) 0x01).

(** operators.rs:106-114, 129-137, 212-220, 234-242: the shortest length. *)
Definition min_value_len (v : N) : N :=
  if v <=? 0xFF then 1 else if v <=? 0xFFFF then 2 else if v <=? 0xFFFFFFFF then 4 else 8.
(** operators.rs:105-125 [equal_to], 128-148 [greater_than_or_equal],
    211-230 [exact_match], 233-252 [partial_match]. *)
Definition equal_to (v : N) : numop := NumOp true false (min_value_len v) false false true v.
Definition greater_than_or_equal (v : N) : numop := NumOp true false (min_value_len v) false true true v.
Definition exact_match (v : N) : bitop := BitOp true false (min_value_len v) false false v.
Definition partial_match (v : N) : bitop := BitOp true false (min_value_len v) false true v.

(** nlri.rs:109-127 [parse_length]. *)
Definition parse_length : P N :=
  need 1 EFsShort ;;; first <- get_be 1 ;;
  if first <? 240 then ret first else
  need 1 EFsShort ;;; second <- get_be 1 ;;
  ret (N.lor (N.shiftl (N.land first 0x0F) 8) second).
(** nlri.rs:130-137 [encode_length]; the argument is a [u16]. *)
Definition encode_length (n : N) : bytes :=
  if n <? 240 then [n] else [N.lor 0xF0 (u8 (N.shiftr n 8)); u8 n].

(** nlri.rs:140-186 [parse_prefix_component].  [Ipv4Net::new] and
    [Ipv6Net::new] refuse a length above 32 / 128. *)
Definition parse_prefix_component : P prefix :=
  need 1 EFsShort ;;; len <- get_be 1 ;;
  if 128 <? len then fail EFsPrefix else
  let nb := byte_len len in
  need (N.to_nat nb) EFsShort ;;; d <- split_to (N.to_nat nb) ;;
  if nb <=? 4 then
    if 32 <? len then fail EFsPrefix
    else ret (Pfx (Net (V4 (be_val (d ++ repeat 0 (4 - N.to_nat nb)))) len) None)
  else ret (Pfx (Net (V6 (be_val (d ++ repeat 0 (16 - N.to_nat nb)))) len) None).

(** nlri.rs:207-250 [parse_numeric_operators] and 253-296
    [parse_bitmask_operators]: one function over the operator constructor
    [mk] and its end-of-list flag; [read_value] (299-305) is [be_val]. *)
Fixpoint parse_ops {A} (mk : N -> N -> res A) (is_end : A -> bool) (fuel : nat) : P (list A) :=
  match fuel with
  | O => fun _ => Panic
  | S f =>
    need 1 EFsShort ;;; op <- get_be 1 ;;
    let n := N.to_nat (op_value_len op) in
    need n EFsShort ;;; v <- get_be n ;;
    o <- lift (mk op v) ;;
    if is_end o then ret [o]
    else l <- parse_ops mk is_end f ;; ret (o :: l)
  end.
Definition parse_numeric : P (list numop) := fun s => parse_ops numop_of no_end (S (length s)) s.
Definition parse_bitmask : P (list bitop) := fun s => parse_ops bitop_of bo_end (S (length s)) s.

(** nlri.rs:35-50 and 188-204, 315-374: the parser of one component. *)
Definition parse_component (t : N) : P fs_comp :=
  match t with
  | 1 => p <- parse_prefix_component ;; ret (FDestPrefix p)
  | 2 => p <- parse_prefix_component ;; ret (FSrcPrefix p)
  | 3 => l <- parse_numeric ;; ret (FIpProto l)
  | 4 => l <- parse_numeric ;; ret (FPort l)
  | 5 => l <- parse_numeric ;; ret (FDestPort l)
  | 6 => l <- parse_numeric ;; ret (FSrcPort l)
  | 7 => l <- parse_numeric ;; ret (FIcmpType l)
  | 8 => l <- parse_numeric ;; ret (FIcmpCode l)
  | 9 => l <- parse_bitmask ;; ret (FTcpFlags l)
  | 10 => l <- parse_numeric ;; ret (FPktLen l)
  | 11 => l <- parse_numeric ;; ret (FDscp l)
  | 12 => l <- parse_bitmask ;; ret (FFragment l)
  | 13 => l <- parse_numeric ;; ret (FFlowLabel l)
  | _ => fail EFsType
  end.

(** nlri.rs:22-53: [while offset < end_offset].  The buffer is the data from
    [offset] on, to its very end: the component parsers are not bounded by
    [end_offset].  [after] is the number of octets beyond [end_offset]. *)
Fixpoint fs_loop (fuel : nat) (after : N) (last : N) (s : bytes) : res (list fs_comp) :=
  if nlen s <=? after then Ok [] else
  match fuel with
  | O => Panic
  | S f =>
    '(t, s1) <~ get_be 1 s ;;
    if t <=? last then Err EFsOrder else
    '(c, s2) <~ parse_component t s1 ;;
    l <~ fs_loop f after t s2 ;; Ok (c :: l)
  end.
(** nlri.rs:10-56 [parse_flowspec_nlri]. *)
Definition parse_flowspec_nlri (s : bytes) : res (list fs_comp) :=
  '(len, s1) <~ parse_length s ;;
  if nlen s1 <? len then Err EFsShort
  else fs_loop (length s1) (nlen s1 - len) 0 s1.

(** nlri.rs:308-312 [write_value]: a shift by 64 bits or more overflows, which
    panics in builds with overflow checks. *)
Definition write_value (v len : N) : res bytes :=
  if 8 <? len then Panic else Ok (be (N.to_nat len) v).
(** nlri.rs:401-413 [encode_numeric_operators], [encode_bitmask_operators]. *)
Definition encode_numop (o : numop) : res bytes :=
  v <~ write_value (no_val o) (no_len o) ;; Ok (numop_byte o :: v).
Definition encode_bitop (o : bitop) : res bytes :=
  v <~ write_value (bo_val o) (bo_len o) ;; Ok (bitop_byte o :: v).
Definition encode_numops (l : list numop) : res bytes := b <~ rmap encode_numop l ;; Ok (concat b).
Definition encode_bitops (l : list bitop) : res bytes := b <~ rmap encode_bitop l ;; Ok (concat b).
(** nlri.rs:377-388 [encode_prefix]: the path identifier is not written. *)
Definition fs_encode_prefix (p : prefix) : bytes :=
  net_len (p_net p) :: firstn (N.to_nat (byte_len (net_len (p_net p)))) (octets (net_addr (p_net p))).
(** nlri.rs:390-399 [encode_ipv6_prefix]. *)
Definition fs_encode_prefix6 (off : N) (p : prefix) : bytes :=
  net_len (p_net p) :: off ::
  match net_addr (p_net p) with
  | V6 n => firstn (N.to_nat (byte_len (net_len (p_net p)))) (be 16 n)
  | V4 _ => []
  end.
(** nlri.rs:67-94: one component. *)
Definition encode_component (c : fs_comp) : res bytes :=
  b <~ match c with
       | FDestPrefix p | FSrcPrefix p => Ok (fs_encode_prefix p)
       | FDestPrefix6 o p | FSrcPrefix6 o p => Ok (fs_encode_prefix6 o p)
       | FIpProto l | FPort l | FDestPort l | FSrcPort l | FIcmpType l | FIcmpCode l
       | FPktLen l | FDscp l | FFlowLabel l => encode_numops l
       | FTcpFlags l | FFragment l => encode_bitops l
       end ;;
  Ok (component_type c :: b).
(** nlri.rs:60-106 [encode_flowspec_nlri]; [check_max] is error.rs:85-97. *)
Definition encode_flowspec_nlri (l : list fs_comp) : res bytes :=
  bs <~ rmap encode_component l ;;
  let data := concat bs in
  if 0x0FFF <? nlen data then Err EEncTooLarge
  else Ok (encode_length (nlen data) ++ data).
