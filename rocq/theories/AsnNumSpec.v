(** Vocabulary for the properties of AS numbers: IANA's registry of special
    numbers, the values a program can hold, and the written form. *)
From Verif Require Import Base Net AsnNum.

(** IANA "Special-Purpose AS Numbers": first, last, what it is for. *)
Inductive purpose := Zero | As112 | Transition | Documentation | Private | Last16 | Last32.
Definition registry : list (N * N * purpose) :=
  [ (0, 0, Zero); (112, 112, As112); (23456, 23456, Transition);
    (64496, 64511, Documentation); (64512, 65534, Private); (65535, 65535, Last16);
    (65536, 65551, Documentation); (4200000000, 4294967294, Private); (4294967295, 4294967295, Last32) ].
Definition registered (n : N) (p : purpose) : Prop :=
  exists lo hi, In (lo, hi, p) registry /\ lo <= n <= hi.

(** The values the two constructors make from a [u16] and a [u32]. *)
Inductive held : num -> Prop :=
| held16 n : n < 2 ^ 16 -> held (new_16bit n)
| held32 n : n < 2 ^ 32 -> held (new_32bit n).

(** Digits, read from the left. *)
Definition digits (s : bytes) : Prop := s <> [] /\ Forall (fun c => 48 <= c <= 57) s.
Definition worth (s : bytes) : N := fold_left (fun v c => v * 10 + (c - 48)) s 0.
(** A text that stands for [n]: perhaps [AS], perhaps a plus sign, then digits. *)
Definition written (s : bytes) (n : N) : Prop :=
  exists pre sign d, s = pre ++ sign ++ d /\ (pre = [] \/ pre = [65; 83]) /\ (sign = [] \/ sign = [43])
    /\ digits d /\ worth d = n /\ n < 2 ^ 32.
(** The range of [i32]. *)
Definition is_i32 (z : Z) : Prop := (- 2 ^ 31 <= z < 2 ^ 31)%Z.
