(** Names and rates of a link-state attribute: the accessors of
    /repo/src/models/bgp/linkstate.rs that return text or binary32 numbers.
    An [f32] is a [spec_float] of precision 24 and maximal exponent 128; the payload of a
    NaN is not kept. *)
From Coq Require Import ZArith Floats.SpecFloat.
From Verif Require Import Base Utf8 Tlv LinkState.

Definition f32 := spec_float.
(** [f32::from_bits], which [f32::from_be_bytes] applies to the big-endian number: sign,
    8 bits of exponent, 23 bits of fraction. *)
Definition f32_of_bits (n : N) : f32 :=
  let s := N.testbit n 31 in
  let e := (n / 2 ^ 23) mod 256 in
  let f := n mod 2 ^ 23 in
  if e =? 0 then match f with 0 => S754_zero s | N.pos p => S754_finite s p (-149) end
  else if e =? 255 then (if f =? 0 then S754_infinity s else S754_nan)
  else match 2 ^ 23 + f with 0 => S754_nan | N.pos p => S754_finite s p (Z.of_N e - 150) end.
(** [u32 as f32]: the nearest number, ties to even. *)
Definition f32_of_N (n : N) : f32 := SpecFloat.binary_normalize 24 128 (Z.of_N n) 0 false.
(** The literal [0.000003] as an [f32]: the number nearest to 3 / 1000000, as the literal
    is rounded once and both 3 and 1000000 are numbers of this precision. *)
Definition loss_unit : f32 := SFdiv 24 128 (f32_of_N 3) (f32_of_N 1000000).

(** linkstate.rs:324-328 [get_node_name]. *)
Definition text_of (v : option bytes) : option bytes :=
  match v with Some b => if utf8_ok b then Some b else None | None => None end.
Definition get_node_name (a : ls_attr) : option bytes := text_of (kget 1026 (la_node a)).
(** linkstate.rs:330-334 [get_link_name]. *)
Definition get_link_name (a : ls_attr) : option bytes := text_of (kget 1098 (la_link a)).
(** linkstate.rs:354-364 [get_maximum_link_bandwidth]. *)
Definition get_max_bandwidth (a : ls_attr) : option f32 := option_map f32_of_bits (first_be 4 (kget 1089 (la_link a))).
(** linkstate.rs:437-451 [get_unidirectional_link_loss]. *)
Definition get_link_loss (a : ls_attr) : option f32 :=
  option_map (fun n => SFmul 24 128 (f32_of_N n) loss_unit) (low24 (first_be 4 (kget 1117 (la_link a)))).
(** linkstate.rs:453-464 [get_unidirectional_residual_bandwidth]. *)
Definition get_residual_bandwidth (a : ls_attr) : option f32 := option_map f32_of_bits (first_be 4 (kget 1118 (la_link a))).
(** linkstate.rs:466-477 [get_unidirectional_available_bandwidth]. *)
Definition get_available_bandwidth (a : ls_attr) : option f32 := option_map f32_of_bits (first_be 4 (kget 1119 (la_link a))).
(** linkstate.rs:479-490 [get_unidirectional_utilized_bandwidth]. *)
Definition get_utilized_bandwidth (a : ls_attr) : option f32 := option_map f32_of_bits (first_be 4 (kget 1120 (la_link a))).

(** /repo/src/models/bgp/tunnel_encap.rs:240-246 [get_tunnels_by_type]. *)
Definition tunnels_by_type (l : list tunnel) (k : N) : list tunnel := filter (fun t => tn_type t =? k) l.
(** tunnel_encap.rs:248-253 [has_tunnel_type]. *)
Definition has_tunnel_type (l : list tunnel) (k : N) : bool := existsb (fun t => tn_type t =? k) l.
(** tunnel_encap.rs:145-147 [add_sub_tlv], 235-237 [add_tunnel_tlv]. *)
Definition add_sub_tlv (t : tunnel) (x : tlv) : tunnel := Tunnel (tn_type t) (tn_subs t ++ [x]).
Definition add_tunnel_tlv (l : list tunnel) (t : tunnel) : list tunnel := l ++ [t].
