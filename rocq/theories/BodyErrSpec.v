(** Vocabulary of the theorems about the errors of record bodies. *)
From Verif Require Import Base Stream Framing MrtRecord Iter.

(** The kinds of error a body can fail with. *)
Definition body_kind (e : perr) : bool := match e with EIo | EParse | ETrunc | EUnsup => true | _ => false end.
(** What one framed record, or one error of framing, comes to: the record its body holds, or
    the error of its body with the bytes of the record; an error of framing stays as it is. *)
Inductive outcome : item raw -> item mrt_record -> Prop :=
| oc_record w r : parse_raw w = Ok r -> outcome (inl w) (inl r)
| oc_body w e : parse_raw w = Err e -> body_kind e = true -> outcome (inl w) (inr (e, Some (raw_bytes w)))
| oc_frame e c : outcome (inr (e, c)) (inr (e, c)).
(** The records the bodies of raw records hold, those that cannot be read left out. *)
Fixpoint readable_records (l : list raw) : list mrt_record :=
  match l with
  | [] => []
  | w :: l' => match parse_raw w with Ok r => r :: readable_records l' | _ => readable_records l' end
  end.
