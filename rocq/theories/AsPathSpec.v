(** What AS paths mean, independent of how the library computes with them. *)
From Coq Require Import Permutation Sorting.Sorted.
From Verif Require Import Base Net AsPath.

(** The hops of a path: one per AS of a sequence, one per AS_SET, none for
    confederation segments (RFC 4271 / RFC 5065 path length). *)
Inductive hop := HAsn (a : asn) | HSet (l : list asn).
Definition seg_hops (s : seg) : list hop :=
  match s_kind s with
  | KSeq => map HAsn (s_asns s)
  | KSet => [HSet (s_asns s)]
  | KCSeq | KCSet => []
  end.
Definition hops (p : aspath) : list hop := flat_map seg_hops p.

(** Every AS number of the path in order, with the kind of segment it is in. *)
Definition tagged (p : aspath) : list (skind * asn) :=
  flat_map (fun s => map (pair (s_kind s)) (s_asns s)) p.
Definition asns (p : aspath) : list asn := flat_map s_asns p.

(** The set segments of the path. *)
Definition sets (p : aspath) : list seg :=
  filter (fun s => match s_kind s with KSet | KCSet => true | _ => false end) p.

(** Two adjacent segments that cannot be joined: not two sequences of the same
    kind, and neither is an empty sequence. *)
Definition empty_sequence (s : seg) : Prop :=
  (s_kind s = KSeq \/ s_kind s = KCSeq) /\ s_asns s = [].
Definition irreducible (x y : seg) : Prop :=
  ~ (s_kind x = s_kind y /\ (s_kind x = KSeq \/ s_kind x = KCSeq)) /\
  ~ empty_sequence x /\ ~ empty_sequence y.

(** Equality of segments: sequences in order, sets up to reordering. *)
Definition seg_equiv (a b : seg) : Prop :=
  s_kind a = s_kind b /\
  match s_kind a with
  | KSeq | KCSeq => s_asns a = s_asns b
  | KSet | KCSet => Permutation (s_asns a) (s_asns b)
  end.
Definition path_equiv : aspath -> aspath -> Prop := Forall2 seg_equiv.

(** A route through a path: pick one member of each AS_SET, keep sequences,
    skip confederation segments. *)
Inductive is_route : aspath -> list asn -> Prop :=
| route_nil : is_route [] []
| route_seq l p r : is_route p r -> is_route (Seg KSeq l :: p) (l ++ r)
| route_set l p a r : In a l -> is_route p r -> is_route (Seg KSet l :: p) (a :: r)
| route_confed k l p r : k = KCSeq \/ k = KCSet -> is_route p r -> is_route (Seg k l :: p) r.

(** All choices, the first set varying fastest. *)
Fixpoint all_routes (p : aspath) : list (list asn) :=
  match p with
  | [] => [[]]
  | Seg KSeq l :: p' => map (app l) (all_routes p')
  | Seg KSet l :: p' => flat_map (fun r => map (fun a => a :: r) l) (all_routes p')
  | _ :: p' => all_routes p'
  end.
(** Number of ways to choose one member of each AS_SET. *)
Fixpoint set_product (p : aspath) : N :=
  match p with
  | [] => 1
  | Seg KSet l :: p' => nlen l * set_product p'
  | _ :: p' => set_product p'
  end.

(** What the wire format can carry. *)
Definition wire_seg (l : asn_len) (s : seg) : Prop :=
  (length (s_asns s) <= 255)%nat /\
  Forall (fun a => a < match l with Bits16 => 2 ^ 16 | Bits32 => 2 ^ 32 end) (s_asns s).
Definition asn32 (p : aspath) : Prop := Forall (fun s => Forall (fun a => a < 2 ^ 32) (s_asns s)) p.
