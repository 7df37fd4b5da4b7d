(** Vocabulary of the theorems about joined and damaged sources. *)
From Verif Require Import Base TableDump Stream Framing MrtRecord MrtRecordSpec Elem ElemSpec Iter IterSpec.

(** The bytes of [w] are read as the record [w], with nothing left. *)
Definition whole (w : raw) : Prop := chunk_mrt_record (raw_bytes w) = FRec w [].
(** A peer table, by its header. *)
Definition peer_index (w : raw) : Prop := h_type (r_hdr w) = 13 /\ h_sub (r_hdr w) = 1.
(** The record with other octets for its body. *)
Definition with_body (w : raw) (b : bytes) : raw := Raw (r_hdr w) (r_hbytes w) b.
(** The elements of what was read for one record, under the peer table [t], or its error. *)
Definition elements_under (t : option peer_table) (x : item mrt_record) : list (item elem) :=
  map_item elems_of (match x with inl r => inl (t, r) | inr e => inr e end).
(** Not a peer table. *)
Definition no_table (x : item mrt_record) : Prop := match x with inl r => is_peer_table r = false | inr _ => True end.
(** The peer table in force after some items. *)
Fixpoint table_since (t : option peer_table) (l : list (item mrt_record)) : option peer_table :=
  match l with [] => t | inl r :: l' => table_since (table_after t r) l' | inr _ :: l' => table_since t l' end.

(** The octets [b] in the place of the body of [w] call for no correction of a historical TABLE_DUMP
    length, and the body of [w] had none: it is as long as its header declares. *)
Definition in_place (w : raw) (b : bytes) : Prop :=
  h_type (r_hdr w) = 12 -> nlen (r_body w) = h_len (r_hdr w) /\ ~ four_short (h_sub (r_hdr w)) b.
