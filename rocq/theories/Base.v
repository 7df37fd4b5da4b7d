(** Base definitions shared by the whole model: byte strings, the result type,
    the parser monad and big-endian integers. *)
From Coq Require Export NArith ZArith List Bool.
Export ListNotations.
Open Scope N_scope.

(** A byte buffer ([bytes::Bytes], [&[u8]], [Vec<u8>]).  Octets are [N]; the
    predicate [bytes_ok] says each one is below 256. *)
Definition bytes := list N.
Definition bytes_ok (l : bytes) : Prop := Forall (fun b => b < 256) l.
Definition bytes_okb (l : bytes) : bool := forallb (fun b => b <? 256) l.

(** /repo/src/error.rs:13-37 [ParserError].  The message strings and nested
    payloads are dropped; one constructor per variant ([OneIoError] and
    [IoNotEnoughBytes] do not arise in the modelled functions). *)
Inductive perr : Type :=
| EIo            (* IoError *)
| EEof           (* EofError *)
| EEofExpected   (* EofExpected *)
| EParse         (* ParseError *)
| ETrunc         (* TruncatedMsg *)
| EUnsup         (* Unsupported *)
| EFilter        (* FilterError *)
| ELabLen        (* InvalidLabeledNlriLength *)
| ELabTrunc      (* TruncatedLabeledNlri *)
| ETruncPfx      (* TruncatedPrefix *)
| EMaxLabel      (* MaxLabelStackDepthExceeded *)
| EPeerMax       (* PeerMaxLabelsExceeded *)
| EInvPfx        (* InvalidPrefix *)
(* /repo/src/error.rs:49-64 [EncodingError], raised by the encoders *)
| EEncTooLarge   (* ValueTooLarge *)
| EUnenc         (* Unencodable *)
(* /repo/src/models/bgp/flowspec/mod.rs:145-161 [FlowSpecError] *)
| EFsShort       (* InsufficientData *)
| EFsOrder       (* InvalidComponentOrder *)
| EFsType        (* InvalidComponentType *)
| EFsOp          (* InvalidOperator *)
| EFsPrefix      (* InvalidPrefix *)
(* /repo/src/parser/bmp/error.rs:12-20 [ParserBmpError], the variants of its own *)
| EBmpHeader     (* InvalidOpenBmpHeader *)
| EBmpUnsup      (* UnsupportedOpenBmpMessage *)
| EBmpTlvType    (* UnknownTlvType *)
| EBmpTlvValue   (* UnknownTlvValue *)
| EBmpCorrupt.   (* CorruptedBmpMessage *)

(** Outcome of a fallible Rust function.  [Panic] is the explicit value for an
    execution that panics (out-of-range slice, over-long [advance]/[split_to],
    arithmetic overflow checked in debug builds); fuelled loops also return
    [Panic] when the fuel is exhausted, so "never [Panic]" covers termination. *)
Inductive res (A : Type) : Type :=
| Ok (a : A)
| Err (e : perr)
| Panic.
Arguments Ok {A} a.
Arguments Err {A} e.
Arguments Panic {A}.

Definition rbind {A B} (r : res A) (k : A -> res B) : res B :=
  match r with Ok a => k a | Err e => Err e | Panic => Panic end.

(** A parser reads from the front of a buffer and returns the rest. *)
Definition P (A : Type) := bytes -> res (A * bytes).
Definition ret {A} (a : A) : P A := fun s => Ok (a, s).
Definition fail {A} (e : perr) : P A := fun _ => Err e.
Definition bind {A B} (p : P A) (k : A -> P B) : P B :=
  fun s => match p s with
           | Ok (a, s') => k a s'
           | Err e => Err e
           | Panic => Panic
           end.
(** Lift a pure outcome into a parser that consumes nothing. *)
Definition lift {A} (r : res A) : P A := fun s => rbind r (fun a => Ok (a, s)).
(** [data.remaining()] *)
Definition remaining : P nat := fun s => Ok (length s, s).
(** Look at the unread bytes without consuming them. *)
Definition peek : P bytes := fun s => Ok (s, s).
(** Run a parser and keep only its value (for [Bytes] passed by value). *)
Definition run {A} (p : P A) (s : bytes) : res A :=
  match p s with Ok (a, _) => Ok a | Err e => Err e | Panic => Panic end.

Declare Scope parser_scope.
Delimit Scope parser_scope with parser.
Notation "x <- p ;; q" := (bind p (fun x => q))
  (at level 61, p at next level, right associativity) : parser_scope.
Notation "' pat <- p ;; q" := (bind p (fun x => match x with pat => q end))
  (at level 61, pat pattern, p at next level, right associativity) : parser_scope.
Notation "p ;;; q" := (bind p (fun _ => q)) (at level 61, right associativity) : parser_scope.
Notation "x <~ r ;; q" := (rbind r (fun x => q))
  (at level 61, r at next level, right associativity) : parser_scope.
Notation "' pat <~ r ;; q" := (rbind r (fun x => match x with pat => q end))
  (at level 61, pat pattern, r at next level, right associativity) : parser_scope.
Open Scope parser_scope.

(** Rust's [as u8], [as u16], [as u32], [as u64] on unsigned values. *)
Definition u8  (n : N) : N := n mod 256.
Definition u16 (n : N) : N := n mod 65536.
Definition u32 (n : N) : N := n mod 4294967296.
Definition u64 (n : N) : N := n mod 18446744073709551616.

(** Big-endian encoding on [k] octets ([BufMut::put_u8/u16/u32/u64/u128]) and
    its inverse. *)
Fixpoint be (k : nat) (n : N) : bytes :=
  match k with
  | O => []
  | S k' => be k' (n / 256) ++ [n mod 256]
  end.
Definition be_val (l : bytes) : N := fold_left (fun a b => a * 256 + b) l 0.

(** Take exactly [k] octets, or nothing. *)
Fixpoint splitn (k : nat) (s : bytes) : option (bytes * bytes) :=
  match k with
  | O => Some ([], s)
  | S k' => match s with
            | [] => None
            | b :: s' => match splitn k' s' with
                         | Some (l, r) => Some (b :: l, r)
                         | None => None
                         end
            end
  end.

(** [data.split_to(k)] / [data.copy_to_slice] / [data.advance(k)]: panics when
    fewer than [k] octets remain. *)
Definition split_to (k : nat) : P bytes := fun s =>
  match splitn k s with Some (l, r) => Ok (l, r) | None => Panic end.

(** [data.get_u8()], [get_u16()], ...: panics when too short. *)
Definition get_be (k : nat) : P N := l <- split_to k ;; ret (be_val l).

(** Boolean equality of byte strings. *)
Fixpoint bytes_eqb (a b : bytes) : bool :=
  match a, b with
  | [], [] => true
  | x :: a', y :: b' => (x =? y) && bytes_eqb a' b'
  | _, _ => false
  end.

Definition option_eqb {A} (eqb : A -> A -> bool) (a b : option A) : bool :=
  match a, b with
  | None, None => true
  | Some x, Some y => eqb x y
  | _, _ => false
  end.

(** Length of a list as an [N]. *)
Definition nlen {A} (l : list A) : N := N.of_nat (length l).

(** Map a fallible function over a list, stopping at the first failure. *)
Fixpoint rmap {A B} (f : A -> res B) (l : list A) : res (list B) :=
  match l with
  | [] => Ok []
  | a :: l' => b <~ f a ;; bs <~ rmap f l' ;; Ok (b :: bs)
  end.
