(** AS numbers as values (/repo/src/models/network/asn.rs, with the readers of
    /repo/src/parser/utils.rs).  Elsewhere in the model an AS number is its
    number alone ([Net.asn]); here the width flag is kept as well. *)
From Verif Require Import Base Reader Net Text.

(** asn.rs:34-42 [struct Asn]. *)
Record num := MkNum { nm_value : N; nm_four : bool }.
(** asn.rs:16-30 [AsnLength::is_four_byte], [AsnLength::bytes]. *)
Definition len_is_four (l : asn_len) : bool := match l with Bits16 => false | Bits32 => true end.
Definition len_bytes (l : asn_len) : N := match l with Bits16 => 2 | Bits32 => 4 end.
(** asn.rs:44-66 [Ord], [Hash], [PartialEq], [PartialOrd].  What [hash] feeds the
    hasher is the one [u32]. *)
Definition num_cmp (a b : num) : comparison := (nm_value a ?= nm_value b).
Definition num_hashed (a : num) : list N := [nm_value a].
Definition num_eqb (a b : num) : bool := nm_value a =? nm_value b.
Definition num_partial_cmp (a b : num) : option comparison := Some (num_cmp a b).
(** asn.rs:73-88 [new_16bit], [new_32bit]. *)
Definition new_16bit (n : N) : num := MkNum n false.
Definition new_32bit (n : N) : num := MkNum n true.
(** asn.rs:69-71 [RESERVED], [TRANSITION]; 164-169 [Default]. *)
Definition num_reserved : num := new_16bit 0.
Definition num_transition : num := new_16bit 23456.
Definition num_default : num := num_reserved.
(** asn.rs:91-98 [required_len]. *)
Definition required_len (a : num) : asn_len := if nm_value a <=? 65535 then Bits16 else Bits32.
(** A range pattern [lo..=hi]. *)
Definition between (lo hi n : N) : bool := (lo <=? n) && (n <=? hi).
(** asn.rs:103-110 [is_private]. *)
Definition is_private (a : num) : bool :=
  between 64512 65534 (nm_value a) || between 4200000000 4294967294 (nm_value a).
(** asn.rs:122-136 [is_reserved]. *)
Definition is_reserved (a : num) : bool :=
  let n := nm_value a in
  (n =? 0) || (n =? 112) || (n =? 23456) || between 64496 64511 n || between 64512 65534 n || (n =? 65535)
  || between 65536 65551 n || between 4200000000 4294967294 n || (n =? 4294967295).
(** asn.rs:141-148 [is_reserved_for_documentation]. *)
Definition is_documentation (a : num) : bool :=
  between 64496 64511 (nm_value a) || between 65536 65551 (nm_value a).
(** asn.rs:150-161 [is_four_byte], [to_u32]. *)
Definition is_four_byte (a : num) : bool := nm_four a.
Definition to_u32 (a : num) : N := nm_value a.
(** Rust's [as u32] and [as i32] between the two 32-bit types. *)
Definition i32_as_u32 (z : Z) : N := Z.to_N (z mod 4294967296)%Z.
Definition u32_as_i32 (n : N) : Z := if n <? 2147483648 then Z.of_N n else (Z.of_N n - 4294967296)%Z.
(** asn.rs:177-203 comparison with and conversion from and to [u32]. *)
Definition eq_u32 (a : num) (n : N) : bool := nm_value a =? n.
Definition from_u32 (n : N) : num := new_32bit n.
Definition into_u32 (a : num) : N := nm_value a.
(** asn.rs:205-231, the same for [i32]. *)
Definition eq_i32 (a : num) (z : Z) : bool := nm_value a =? i32_as_u32 z.
Definition from_i32 (z : Z) : num := new_32bit (i32_as_u32 z).
Definition into_i32 (a : num) : Z := u32_as_i32 (nm_value a).
(** asn.rs:233-259, the same for [u16]; [as u16] drops the upper bits. *)
Definition eq_u16 (a : num) (n : N) : bool := nm_value a =? n.
Definition from_u16 (n : N) : num := new_16bit n.
Definition into_u16 (a : num) : N := nm_value a mod 65536.
(** asn.rs:261-271 [Display], [Debug]. *)
Definition show_num (a : num) : bytes := dec (nm_value a).
(** asn.rs:273-286 [FromStr]: one [AS] is taken off the front, the rest goes to
    [u32::from_str]. *)
Definition num_from_str (s : bytes) : option num :=
  match (match s with 65 :: 83 :: s' => parse_u32 s' | _ => parse_u32 s end) with
  | Some n => Some (new_32bit n)
  | None => None
  end.
(** asn.rs:288-298 [Asn::encode]. *)
Definition num_encode (a : num) : bytes :=
  if nm_four a then be 4 (nm_value a) else be 2 (nm_value a mod 65536).
(** utils.rs:112-118 [read_asn]. *)
Definition num_read (l : asn_len) : P num :=
  match l with
  | Bits16 => n <- read_u16 ;; ret (new_16bit n)
  | Bits32 => n <- read_u32 ;; ret (new_32bit n)
  end.
