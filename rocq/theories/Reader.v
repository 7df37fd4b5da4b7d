(** /repo/src/parser/utils.rs: the [ReadUtils] primitives. *)
From Verif Require Import Base.

(** utils.rs:24-33 [has_n_remaining]. *)
Definition has_n (n : N) : P unit := fun s =>
  if nlen s <? n then Err ETrunc else Ok (tt, s).

(** utils.rs:36-57 [read_u8]/[read_u16]/[read_u32]/[read_u64] (and the
    [get_u128] of [read_ipv6_address]): the check, then a panicking [get]. *)
Definition read_be (k : nat) : P N :=
  has_n (N.of_nat k) ;;; get_be k.
Notation read_u8 := (read_be 1).
Notation read_u16 := (read_be 2).
Notation read_u32 := (read_be 4).
Notation read_u64 := (read_be 8).

(** utils.rs:59-63 [read_exact] and utils.rs:176-179 [read_n_bytes]. *)
Definition read_n_bytes (n : N) : P bytes :=
  has_n n ;;; split_to (N.to_nat n).

(** Run [p] exactly [n] times, collecting the results ([for _ in 0..n]). *)
Fixpoint repeat_p {A} (n : nat) (p : P A) : P (list A) :=
  match n with
  | O => ret []
  | S n' => a <- p ;; l <- repeat_p n' p ;; ret (a :: l)
  end.

(** [while data.remaining() > 0 { items.push(p()?) }]; [fuel] bounds the number
    of iterations and callers pass the buffer length. *)
Fixpoint many_p {A} (fuel : nat) (p : P A) (s : bytes) : res (list A) :=
  match s with
  | [] => Ok []
  | _ =>
    match fuel with
    | O => Panic
    | S f => '(a, s') <~ p s ;; l <~ many_p f p s' ;; Ok (a :: l)
    end
  end.
