(** What an IEEE 754 binary32 number is. *)
From Coq Require Import ZArith Reals Floats.SpecFloat.
From Verif Require Import Base LsRates.

(** The finite number [x] is the real [r]. *)
Definition number (x : f32) (r : R) : Prop :=
  match x with
  | S754_zero _ => r = 0%R
  | S754_finite s m e => r = ((if s then -1 else 1) * IZR (Zpos m) * powerRZ 2 e)%R
  | _ => False
  end.
(** The sign of [x], where it has one. *)
Definition sign (x : f32) : option bool :=
  match x with S754_zero s | S754_infinity s | S754_finite s _ _ => Some s | S754_nan => None end.

(** The 32 bits of a sign, an exponent and a fraction. *)
Definition ieee_bits (s : bool) (e f : N) : N := (if s then 2 ^ 31 else 0) + e * 2 ^ 23 + f.
(** IEEE 754-2008, 3.4: what they stand for. *)
Definition ieee (s : bool) (e f : N) (x : f32) : Prop :=
  if e =? 255 then (if f =? 0 then x = S754_infinity s else x = S754_nan)
  else sign x = Some s /\
    number x ((if s then -1 else 1) *
      (if e =? 0 then IZR (Z.of_N f) * powerRZ 2 (-149)
       else (1 + IZR (Z.of_N f) / 2 ^ 23) * powerRZ 2 (Z.of_N e - 127)))%R.

(** The value of the first sub-TLV of a type. *)
Definition first_value (k : N) (l : list Tlv.tlv) (v : bytes) : Prop :=
  exists pre post, l = pre ++ Tlv.Tlv k v :: post /\ Forall (fun t => Tlv.t_type t <> k) pre.
(** [s] is [l] with some items left out. *)
Inductive part_of {A} : list A -> list A -> Prop :=
| po_nil : part_of [] []
| po_keep x s l : part_of s l -> part_of (x :: s) (x :: l)
| po_drop x s l : part_of s l -> part_of s (x :: l).
