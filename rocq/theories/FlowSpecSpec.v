(** Specification vocabulary for FlowSpec rules (RFC 8955 section 4). *)
From Verif Require Import Base Net NetSpec FlowSpec.

(** A list in which exactly the last element carries the end-of-list mark. *)
Fixpoint terminated {A} (is_end : A -> bool) (l : list A) : Prop :=
  match l with
  | [] => False
  | [o] => is_end o = true
  | o :: l' => is_end o = false /\ terminated is_end l'
  end.
(** A declared value length that exists on the wire and holds the value. *)
Definition value_fits (len v : N) : Prop :=
  (len = 1 \/ len = 2 \/ len = 4 \/ len = 8) /\ v < 256 ^ len.
Definition numops_ok (l : list numop) : Prop :=
  terminated no_end l /\ Forall (fun o => value_fits (no_len o) (no_val o)) l.
Definition bitops_ok (l : list bitop) : Prop :=
  terminated bo_end l /\ Forall (fun o => value_fits (bo_len o) (bo_val o)) l.
(** A prefix the decoder reports unchanged: no path identifier, no bit beyond
    the octets sent, and - the wire form does not name the family - an IPv6
    prefix longer than 32 bits. *)
Definition fs_prefix_ok (p : prefix) : Prop :=
  net_ok (p_net p) /\ wire_exact (p_net p) /\ p_id p = None /\
  (is_v4 (net_addr (p_net p)) = true \/ 32 < net_len (p_net p)).
Definition comp_ok (c : fs_comp) : Prop :=
  match c with
  | FDestPrefix p | FSrcPrefix p => fs_prefix_ok p
  | FIpProto l | FPort l | FDestPort l | FSrcPort l | FIcmpType l | FIcmpCode l
  | FPktLen l | FDscp l | FFlowLabel l => numops_ok l
  | FTcpFlags l | FFragment l => bitops_ok l
  | FDestPrefix6 _ _ | FSrcPrefix6 _ _ => False
  end.
(** RFC 8955 section 4.2.2: the component types. *)
Definition rfc_type (c : fs_comp) : N :=
  match c with
  | FDestPrefix _ | FDestPrefix6 _ _ => 1 | FSrcPrefix _ | FSrcPrefix6 _ _ => 2
  | FIpProto _ => 3 | FPort _ => 4 | FDestPort _ => 5 | FSrcPort _ => 6
  | FIcmpType _ => 7 | FIcmpCode _ => 8 | FTcpFlags _ => 9 | FPktLen _ => 10
  | FDscp _ => 11 | FFragment _ => 12 | FFlowLabel _ => 13
  end.
(** Each component's type is greater than [lo] and than those before it. *)
Fixpoint increasing (lo : N) (l : list N) : Prop :=
  match l with [] => True | t :: l' => lo < t /\ increasing t l' end.
Definition rule_ok (l : list fs_comp) : Prop :=
  increasing 0 (map rfc_type l) /\ Forall comp_ok l.

(** The wire form.  An operator octet: e(128) a(64) len(32,16) then the
    comparison bits lt(4) gt(2) eq(1), or not(2) match(1). *)
Definition len_code (len : N) : N :=
  if len =? 1 then 0 else if len =? 2 then 1 else if len =? 4 then 2 else 3.
Definition num_wire (o : numop) : bytes :=
  (128 * N.b2n (no_end o) + 64 * N.b2n (no_and o) + 16 * len_code (no_len o)
   + 4 * N.b2n (no_lt o) + 2 * N.b2n (no_gt o) + N.b2n (no_eq o)) :: be (N.to_nat (no_len o)) (no_val o).
Definition bit_wire (o : bitop) : bytes :=
  (128 * N.b2n (bo_end o) + 64 * N.b2n (bo_and o) + 16 * len_code (bo_len o)
   + 2 * N.b2n (bo_not o) + N.b2n (bo_match o)) :: be (N.to_nat (bo_len o)) (bo_val o).
Definition prefix_wire (p : prefix) : bytes :=
  net_len (p_net p) ::
  match net_addr (p_net p) with
  | V4 n => firstn (N.to_nat (wire_bits (net_len (p_net p)) / 8)) (be 4 n)
  | V6 n => firstn (N.to_nat (wire_bits (net_len (p_net p)) / 8)) (be 16 n)
  end.
Definition comp_wire (c : fs_comp) : bytes :=
  rfc_type c ::
  match c with
  | FDestPrefix p | FSrcPrefix p => prefix_wire p
  | FIpProto l | FPort l | FDestPort l | FSrcPort l | FIcmpType l | FIcmpCode l
  | FPktLen l | FDscp l | FFlowLabel l => flat_map num_wire l
  | FTcpFlags l | FFragment l => flat_map bit_wire l
  | FDestPrefix6 _ _ | FSrcPrefix6 _ _ => []
  end.
Definition rule_wire (l : list fs_comp) : bytes := flat_map comp_wire l.
(** RFC 8955 section 4.1: one octet below 240, else 0xfnnn. *)
Definition length_wire (n : N) : bytes := if n <? 240 then be 1 n else be 2 (0xF000 + n).
