(** Byte sources.  A [Read] implementation delivers its bytes in pieces of its
    own choosing and may report [Interrupted] or fail; a stream is the list of
    what it will do. *)
From Verif Require Import Base.

Inductive ev :=
| Data (l : bytes)   (* the next bytes available; [read] returns some of them *)
| Intr               (* [read] returns [ErrorKind::Interrupted]; std retries *)
| Fail.              (* [read] returns another I/O error *)
Definition stream := list ev.

Inductive rstatus := Full | AtEof | Failed.

(** [Read::read_exact(&mut buf[..n])] and [input.take(n).read_to_end(..)] from
    the standard library: keep reading until [n] bytes were obtained, the source
    reports end of file, or it fails.  An empty [Data] chunk is no event.  (Both
    std loops retry on [Interrupted]; the sizes std requests at each step do
    not matter because the division into chunks is arbitrary.) *)
Fixpoint read_upto (n : nat) (s : stream) : rstatus * bytes * stream :=
  match n with
  | O => (Full, [], s)
  | _ =>
    match s with
    | [] => (AtEof, [], [])
    | Intr :: s' => read_upto n s'
    | Fail :: s' => (Failed, [], s')
    | Data l :: s' =>
        if Nat.leb n (length l) then (Full, firstn n l, Data (skipn n l) :: s')
        else let '(st, g, s'') := read_upto (n - length l) s' in (st, l ++ g, s'')
    end
  end.

(** The bytes a stream still holds. *)
Fixpoint sbytes (s : stream) : bytes :=
  match s with
  | [] => []
  | Data l :: s' => l ++ sbytes s'
  | _ :: s' => sbytes s'
  end.

(** The source never fails (it may split its data and interrupt at will). *)
Definition no_fail (s : stream) : Prop := ~ In Fail s.
