(** * Specification: the CRC-32 checksum, and parts of a file name

    The checksum is described as it is in the standards (ISO 3309, IEEE 802.3): the
    remainder of a long division of polynomials over the two element field, on plain
    lists of bits and without words, shifts or tables. *)
From Coq Require Import List NArith Bool.
From Verif Require Import Base.
Import ListNotations.
Local Open Scope N_scope.

(** The bits of an octet in the order of transmission: low bit first. *)
Definition octet_bits (b : N) : list bool := map (fun i => N.testbit b (N.of_nat i)) (seq 0 8).
Definition message_bits (s : bytes) : list bool := flat_map octet_bits s.

(** The generator x^32+x^26+x^23+x^22+x^16+x^12+x^11+x^10+x^8+x^7+x^5+x^4+x^2+x+1
    without its leading term: the coefficients of x^31 down to x^0. *)
Definition generator : list bool :=
  map (fun i => existsb (Nat.eqb i) [26; 23; 22; 16; 12; 11; 10; 8; 7; 5; 4; 2; 1; 0]%nat)
      (rev (seq 0 32)).

(** Adding the shorter list to the front of the longer one, bit by bit. *)
Fixpoint add_front (a l : list bool) : list bool :=
  match a, l with
  | x :: a', y :: l' => xorb x y :: add_front a' l'
  | _, _ => l
  end.

(** Long division: [n] leading coefficients are brought to zero, one after the other,
    by subtracting the generator; what is left is the remainder. *)
Fixpoint remainder (n : nat) (l : list bool) : list bool :=
  match n, l with
  | S n', true :: l' => remainder n' (add_front generator l')
  | S n', false :: l' => remainder n' l'
  | _, _ => l
  end.

(** The checksum: 32 zeros are appended, the first 32 bits inverted, the remainder
    taken and inverted. *)
Definition checksum (m : list bool) : list bool :=
  map negb (remainder (length m) (add_front (repeat true 32) (m ++ repeat false 32))).

(** The number whose bits, low bit first, these are. *)
Fixpoint number (l : list bool) : N :=
  match l with [] => 0 | b :: l' => N.b2n b + 2 * number l' end.

Definition no_slash (s : bytes) : Prop := ~ In 47 s.
Definition no_dot (s : bytes) : Prop := ~ In 46 s.
Definition octets (s : bytes) : Prop := Forall (fun b => b < 256) s.
(** A lower case hexadecimal digit. *)
Definition low_hex (c : N) : Prop := 48 <= c <= 57 \/ 97 <= c <= 102.
