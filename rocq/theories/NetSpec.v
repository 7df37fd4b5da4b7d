(** Specification vocabulary for prefixes, independent of the codec. *)
From Verif Require Import Base Net.

(** An address that fits its width. *)
Definition ip_ok (i : ip) : Prop :=
  match i with V4 n => n < 2 ^ 32 | V6 n => n < 2 ^ 128 end.

(** A well-formed network: address in range and length at most the width.  This
    is the invariant [ipnet::IpNet] enforces on construction. *)
Definition net_ok (x : ipnet) : Prop :=
  ip_ok (net_addr x) /\ net_len x <= net_width (net_addr x).

Definition id_ok (o : option N) : Prop :=
  match o with Some i => i < 2 ^ 32 | None => True end.
Definition prefix_ok (p : prefix) : Prop := net_ok (p_net p) /\ id_ok (p_id p).

(** The network has no host bits set (what [IpNet::trunc] produces). *)
Definition canonical (x : ipnet) : Prop :=
  ip_val (net_addr x) mod 2 ^ (net_width (net_addr x) - net_len x) = 0.

(** Number of address bits carried on the wire: the prefix length rounded up to
    a whole octet (RFC 4271 section 4.3). *)
Definition wire_bits (len : N) : N := 8 * ((len + 7) / 8).

(** No address bit beyond the octets carried on the wire is set. *)
Definition wire_exact (x : ipnet) : Prop :=
  ip_val (net_addr x) mod 2 ^ (net_width (net_addr x) - wire_bits (net_len x)) = 0.

(** The same address with every bit beyond the wire octets cleared. *)
Definition clear_low (w k n : N) : N := n - n mod 2 ^ (w - k).
Definition wire_trunc (x : ipnet) : ipnet :=
  match net_addr x with
  | V4 n => Net (V4 (clear_low 32 (wire_bits (net_len x)) n)) (net_len x)
  | V6 n => Net (V6 (clear_low 128 (wire_bits (net_len x)) n)) (net_len x)
  end.

(** The address family a prefix belongs to. *)
Definition family (p : prefix) : afi :=
  match net_addr (p_net p) with V4 _ => AIpv4 | V6 _ => AIpv6 end.
Definition has_id (p : prefix) : bool :=
  match p_id p with Some _ => true | None => false end.
