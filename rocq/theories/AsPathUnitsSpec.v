(** What stays of an AS path when repetitions are removed. *)
From Verif Require Import Base Net AsPath.

(** The steps of a path in order, each inside or outside of a confederation: one AS number, or the
    different numbers of a set in ascending order.  A set of one number is that number. *)
Inductive unit_ := Single (confed : bool) (a : asn) | Several (confed : bool) (l : list asn).
Definition set_units (confed : bool) (l : list asn) : list unit_ :=
  match dedup (nsort l) with [a] => [Single confed a] | x => [Several confed x] end.
Definition seg_units (s : seg) : list unit_ :=
  match s_kind s with
  | KSeq => map (Single false) (s_asns s)
  | KCSeq => map (Single true) (s_asns s)
  | KSet => set_units false (s_asns s)
  | KCSet => set_units true (s_asns s)
  end.
Definition units (p : aspath) : list unit_ := flat_map seg_units p.
Definition same_single (x y : unit_) : bool :=
  match x, y with Single c a, Single d b => Bool.eqb c d && (a =? b) | _, _ => false end.
(** An AS number that follows itself directly is dropped. *)
Fixpoint squeeze (l : list unit_) : list unit_ :=
  match l with
  | x :: ((y :: _) as l') => if same_single x y then squeeze l' else x :: squeeze l'
  | _ => l
  end.
