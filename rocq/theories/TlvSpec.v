(** Specification of the type-length-value attributes: the wire formats. *)
From Verif Require Import Base Tlv.

(** A TLV with a [tw]-octet type and a [lw]-octet length of the value: its octets,
    and the values that fit. *)
Definition tlv_wire (tw lw : nat) (t : tlv) : bytes :=
  be tw (t_type t) ++ be lw (nlen (t_value t)) ++ t_value t.
Definition tlv_ok (tw lw : nat) (t : tlv) : Prop :=
  t_type t < 256 ^ N.of_nat tw /\ nlen (t_value t) < 256 ^ N.of_nat lw /\ bytes_ok (t_value t).

(** RFC 9026: mode, discriminator, TLVs with one-octet types and lengths. *)
Definition bfd_wire (b : bfd) : bytes :=
  be 1 (bfd_mode b) ++ be 4 (bfd_disc b) ++ flat_map (tlv_wire 1 1) (bfd_tlvs b).
Definition bfd_ok (b : bfd) : Prop :=
  bfd_mode b < 256 /\ bfd_disc b < 2 ^ 32 /\ Forall (tlv_ok 1 1) (bfd_tlvs b).

(** RFC 7311: the length field counts the three octets of the TLV header. *)
Definition aigp_wire (t : aigp_tlv) : bytes :=
  be 1 (ai_type t) ++ be 2 (nlen (ai_value t) + 3) ++ ai_value t.
Definition aigp_ok (t : aigp_tlv) : Prop :=
  ai_type t < 256 /\ ai_len t = nlen (ai_value t) + 3 /\ ai_len t < 65536 /\ bytes_ok (ai_value t).

(** RFC 5543: 36 fixed octets, then switching-capability-specific octets. *)
Definition te_wire (t : traffic_eng) : bytes :=
  be 1 (te_cap t) ++ be 1 (te_enc t) ++ be 2 (te_reserved t) ++
  flat_map (be 4) (te_bw t) ++ te_specific t.
Definition te_ok (t : traffic_eng) : Prop :=
  te_cap t < 256 /\ te_enc t < 256 /\ te_reserved t < 65536 /\
  length (te_bw t) = 8%nat /\ Forall (fun b => b < 2 ^ 32) (te_bw t) /\ bytes_ok (te_specific t).

(** RFC 9012: a sub-TLV has a one-octet length when its type is below 128 and a
    two-octet length otherwise; a tunnel TLV has a two-octet type and length. *)
Definition sub_width (t : N) : nat := if t <? 128 then 1%nat else 2%nat.
Definition sub_wire (t : tlv) : bytes := tlv_wire 1 (sub_width (t_type t)) t.
Definition sub_ok (t : tlv) : Prop := tlv_ok 1 (sub_width (t_type t)) t.
Definition tunnel_wire (t : tunnel) : bytes :=
  tlv_wire 2 2 (Tlv (tn_type t) (flat_map sub_wire (tn_subs t))).
Definition tunnel_ok (t : tunnel) : Prop :=
  tn_type t < 65536 /\ Forall sub_ok (tn_subs t) /\ nlen (flat_map sub_wire (tn_subs t)) < 65536.
(** The tunnel types and sub-TLV types the crate has names for (IANA registry
    values 0-22; 0-20, 128, 129); any other type is reported as 0. *)
Definition named_sub (n : N) : Prop := n <= 20 \/ n = 128 \/ n = 129.
Definition named (t : tunnel) : Prop :=
  tn_type t <= 22 /\ Forall (fun s => named_sub (t_type s)) (tn_subs t).
Definition report_sub (s : tlv) : tlv :=
  Tlv (if (t_type s <=? 20) || (t_type s =? 128) || (t_type s =? 129) then t_type s else 0) (t_value s).
Definition report (t : tunnel) : tunnel :=
  Tunnel (if tn_type t <=? 22 then tn_type t else 0) (map report_sub (tn_subs t)).
