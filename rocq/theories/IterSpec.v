(** Vocabulary of the theorems about iteration. *)
From Verif Require Import Base TableDump Community Stream Framing MrtRecord Elem ElemSpec Filter Iter.

(** What asking a source for records again and again gives, until it reports its end:
    records and errors, each with the bytes reported. *)
Inductive reads : stream -> list (item mrt_record) -> Prop :=
| reads_end s c s' : parse_mrt_record_s s = RErr EEofExpected c s' -> reads s []
| reads_rec s r z s' l : parse_mrt_record_s s = RRec r z s' -> reads s' l -> reads s (inl r :: l)
| reads_err s e c s' l : parse_mrt_record_s s = RErr e c s' -> e <> EEofExpected -> reads s' l -> reads s (inr (e, c) :: l).

(** The errors after which the default iterators do not go on: those of the source, and
    with core dumps those of the kind [ParseError]. *)
Definition stops (core : bool) (e : perr) : bool :=
  match e with
  | ETrunc | EUnsup | ELabLen | ELabTrunc | ETruncPfx | EMaxLabel | EPeerMax | EInvPfx => false
  | EParse => core
  | _ => true
  end.
(** The values before the first error that stops. *)
Fixpoint usable {A} (core : bool) (l : list (item A)) : list A :=
  match l with
  | [] => []
  | inl a :: l' => a :: usable core l'
  | inr (e, _) :: l' => if stops core e then [] else usable core l'
  end.
(** Records with the peer table in force before each. *)
Fixpoint annotate (t : option peer_table) (l : list mrt_record) : list (option peer_table * mrt_record) :=
  match l with [] => [] | r :: l' => (t, r) :: annotate (table_after t r) l' end.
(** The elements [Elementor::record_to_elems] gives. *)
Definition elems_of (x : option peer_table * mrt_record) : list elem :=
  match record_to_elems (fst x) (snd x) with Ok (l, _) => l | _ => [] end.
(** A record passes when there is no filter, it is a peer table, or one of its elements passes. *)
Definition passes (show : meta_community -> bytes) (fs : list filter) (x : option peer_table * mrt_record) : bool :=
  match fs with
  | [] => true
  | _ => is_peer_table (snd x) || existsb (fun e => match_filters show (VElem e) fs) (elems_of x)
  end.
(** The same for what the fallible iterators give: errors pass. *)
Fixpoint annotate_items (t : option peer_table) (l : list (item mrt_record)) : list (item (option peer_table * mrt_record)) :=
  match l with
  | [] => []
  | inl r :: l' => inl (t, r) :: annotate_items (table_after t r) l'
  | inr x :: l' => inr x :: annotate_items t l'
  end.
Definition keep_item {A} (f : A -> bool) (x : item A) : bool := match x with inl a => f a | inr _ => true end.
Definition map_item {A B} (f : A -> list B) (x : item A) : list (item B) :=
  match x with inl a => map inl (f a) | inr e => [inr e] end.
Definition in_dump (text : list elem) (p : parser) : Prop := pr_text p = Some text.
Definition in_mrt (s : stream) (p : parser) : Prop := pr_text p = None /\ pr_stream p = s.
(** The same parser without its filters. *)
Definition unfiltered (p : parser) : parser := Parser (pr_stream p) [] (pr_core p) (pr_text p) (pr_dump p).

(** The same for the framing only. *)
Inductive chunks : stream -> list (item raw) -> Prop :=
| chunks_end s h c s' : chunk_mrt_record_s s = CErr EEofExpected h c s' -> chunks s []
| chunks_rec s r s' l : chunk_mrt_record_s s = CRec r s' -> chunks s' l -> chunks s (inl r :: l)
| chunks_err s e h c s' l : chunk_mrt_record_s s = CErr e h c s' -> e <> EEofExpected -> chunks s' l -> chunks s (inr (e, c) :: l).
(** [a] is [b] with some entries left out. *)
Inductive subseq {A} : list A -> list A -> Prop :=
| ss_nil : subseq [] []
| ss_skip x a b : subseq a b -> subseq a (x :: b)
| ss_take x a b : subseq a b -> subseq (x :: a) (x :: b).
(** The iterator [next], asked from [st] until its first [None], is left in [st']. *)
Inductive ends_in {S A} (next : S -> res (option A * S)) : S -> S -> Prop :=
| ends_now st st' : next st = Ok (None, st') -> ends_in next st st'
| ends_later st a st1 st' : next st = Ok (Some a, st1) -> ends_in next st1 st' -> ends_in next st st'.
(** The core dump after those readings: with dumps on, the bytes of the last record that
    failed in one of the ways that are dumped, up to the one that stops. *)
Definition dumped_kind (e : perr) : bool := match e with ETrunc | EUnsup | EParse | EIo | EEof => true | _ => false end.
Fixpoint core_dump {A} (d : option bytes) (l : list (item A)) : option bytes :=
  match l with
  | [] => d
  | inl _ :: l' => core_dump d l'
  | inr (e, c) :: l' =>
      let d' := if dumped_kind e then match c with Some b => Some b | None => d end else d in
      if stops true e then d' else core_dump d' l'
  end.
