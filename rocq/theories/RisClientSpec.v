(** * Specification: reading JSON, and what a sequence of calls asks for

    A reader of JSON texts by RFC 8259, without numbers and without white space, which
    the messages do not use: the far side of the connection. *)
From Coq Require Import List NArith String.
From Verif Require Import Base Net Text RisClient.
Import ListNotations.
Local Open Scope string_scope.
Local Open Scope list_scope.
Local Open Scope N_scope.

(** The value of a hexadecimal digit of either case. *)
Definition hex_value (c : N) : option N :=
  if (48 <=? c) && (c <=? 57) then Some (c - 48) else
  if (97 <=? c) && (c <=? 102) then Some (c - 87) else
  if (65 <=? c) && (c <=? 70) then Some (c - 55) else None.
(** A code point in UTF-8, up to 16 bits and without surrogates. *)
Definition utf8 (n : N) : option bytes :=
  if n <? 128 then Some [n] else
  if n <? 2048 then Some [192 + n / 64; 128 + n mod 64] else
  if (55296 <=? n) && (n <=? 57343) then None else Some [224 + n / 4096; 128 + n / 64 mod 64; 128 + n mod 64].
Definition code (a b c d : N) : option bytes :=
  match hex_value a, hex_value b, hex_value c, hex_value d with
  | Some w, Some x, Some y, Some z => utf8 (w * 4096 + x * 256 + y * 16 + z)
  | _, _, _, _ => None
  end.
(** The character an escape stands for. *)
Definition unescape (c : N) : option N :=
  if c =? 34 then Some 34 else if c =? 92 then Some 92 else if c =? 47 then Some 47 else
  if c =? 98 then Some 8 else if c =? 102 then Some 12 else if c =? 110 then Some 10 else
  if c =? 114 then Some 13 else if c =? 116 then Some 9 else None.

Definition consed {A} (h : bytes) (r : option (bytes * A)) : option (bytes * A) :=
  match r with Some (s, x) => Some (h ++ s, x) | None => None end.
(** The rest of a string after its opening quote, and what follows the closing one. *)
Fixpoint read_chars (s : bytes) : option (bytes * bytes) :=
  match s with
  | [] => None
  | 34 :: r => Some ([], r)
  | 92 :: 117 :: a :: b :: c :: d :: r => match code a b c d with Some h => consed h (read_chars r) | None => None end
  | 92 :: e :: r => match unescape e with Some c => consed [c] (read_chars r) | None => None end
  | c :: r => if c <? 32 then None else consed [c] (read_chars r)
  end.

Fixpoint read_value (n : nat) (s : bytes) : option (tree * bytes) :=
  match n with
  | O => None
  | S n' =>
      match s with
      | 110 :: 117 :: 108 :: 108 :: r => Some (TNull, r)
      | 116 :: 114 :: 117 :: 101 :: r => Some (TBool true, r)
      | 102 :: 97 :: 108 :: 115 :: 101 :: r => Some (TBool false, r)
      | 34 :: r => match read_chars r with Some (h, r') => Some (TText h, r') | None => None end
      | 91 :: 93 :: r => Some (TList [], r)
      | 91 :: r => match read_items n' r with Some (l, r') => Some (TList l, r') | None => None end
      | 123 :: 125 :: r => Some (TObject [], r)
      | 123 :: r => match read_members n' r with Some (l, r') => Some (TObject l, r') | None => None end
      | _ => None
      end
  end
with read_items (n : nat) (s : bytes) : option (list tree * bytes) :=
  match n with
  | O => None
  | S n' =>
      match read_value n' s with
      | Some (v, 93 :: r) => Some ([v], r)
      | Some (v, 44 :: r) => match read_items n' r with Some (l, r') => Some (v :: l, r') | None => None end
      | _ => None
      end
  end
with read_members (n : nat) (s : bytes) : option (list (bytes * tree) * bytes) :=
  match n with
  | O => None
  | S n' =>
      match s with
      | 34 :: s' =>
          match read_chars s' with
          | Some (k, 58 :: s'') =>
              match read_value n' s'' with
              | Some (v, 125 :: r) => Some ([(k, v)], r)
              | Some (v, 44 :: r) => match read_members n' r with Some (l, r') => Some ((k, v) :: l, r') | None => None end
              | _ => None
              end
          | _ => None
          end
      | _ => None
      end
  end.
(** A JSON text: one value and nothing after it. *)
Definition read_json (s : bytes) : option tree :=
  match read_value (List.length s) s with Some (t, []) => Some t | _ => None end.

(** The value of a member of an object. *)
Fixpoint member (k : bytes) (l : list (bytes * tree)) : option tree :=
  match l with [] => None | (k', v) :: l' => if bytes_eqb k k' then Some v else member k l' end.
Definition at_key (k : string) (t : tree) : option tree :=
  match t with TObject l => member (str k) l | _ => None end.
(** Its keys are these, each once. *)
Definition only_keys (ks : list string) (t : tree) : Prop :=
  exists l, t = TObject l /\ NoDup (map fst l) /\ forall k, In k (map fst l) -> In k (map str ks).

(** The words for the types of message one can ask for. *)
Definition word (t : stype) : tree :=
  match t with
  | UPDATE => TText (str "UPDATE") | OPEN => TText (str "OPEN") | NOTIFICATION => TText (str "NOTIFICATION")
  | KEEPALIVE => TText (str "KEEPALIVE") | RIS_PEER_STATE => TText (str "RIS_PEER_STATE")
  end.

(** ** Calls *)
Inductive call :=
| CHost (h : bytes) | CType (t : stype) | CRequire (r : bytes) | CPeer (p : ip) | CPath (p : bytes)
| CPrefix (p : ipnet) | CMore (b : bool) | CLess (b : bool) | CRaw (b : bool) | CAcknowledge (b : bool).
(** The method of each call. *)
Definition perform (s : subscribe) (c : call) : subscribe :=
  match c with
  | CHost h => with_host h s | CType t => with_type t s | CRequire r => with_require r s | CPeer p => with_peer p s
  | CPath p => with_path p s | CPrefix p => with_prefix p s | CMore b => with_more b s | CLess b => with_less b s
  | CRaw b => include_raw b s | CAcknowledge b => acknowledge b s
  end.
Definition built (cs : list call) : subscribe := fold_left perform cs subscribe_new.

(** The last call that a choice applies to. *)
Fixpoint latest {A} (f : call -> option A) (cs : list call) : option A :=
  match cs with
  | [] => None
  | c :: cs' => match latest f cs' with Some a => Some a | None => f c end
  end.
Definition host_of (c : call) := match c with CHost h => Some h | _ => None end.
Definition type_of (c : call) := match c with CType t => Some t | _ => None end.
Definition require_of (c : call) := match c with CRequire r => Some r | _ => None end.
Definition peer_of (c : call) := match c with CPeer p => Some p | _ => None end.
Definition path_of (c : call) := match c with CPath p => Some p | _ => None end.
Definition prefix_of (c : call) := match c with CPrefix p => Some p | _ => None end.
Definition more_of (c : call) := match c with CMore b => Some b | _ => None end.
Definition less_of (c : call) := match c with CLess b => Some b | _ => None end.
Definition raw_of (c : call) := match c with CRaw b => Some b | _ => None end.
Definition acknowledge_of (c : call) := match c with CAcknowledge b => Some b | _ => None end.

(** Display tells addresses and prefixes apart. *)
Definition displays_tell (D : displays) : Prop :=
  (forall a b, d_ip D a = d_ip D b -> a = b) /\ (forall a b, d_net D a = d_net D b -> a = b).
