(** What is asked of an equality. *)
From Verif Require Import Base.

Definition equivalence {A} (eqb : A -> A -> bool) (P : A -> Prop) : Prop :=
  (forall x, P x -> eqb x x = true) /\
  (forall x y, P x -> P y -> eqb x y = true -> eqb y x = true) /\
  (forall x y z, P x -> P y -> P z -> eqb x y = true -> eqb y z = true -> eqb x z = true).

(** The codes of attribute types with a name of their own
    (/repo/src/models/bgp/attributes/mod.rs:66-109). *)
Definition named_types : list N :=
  [0; 1; 2; 3; 4; 5; 6; 7; 8; 9; 10; 14; 15; 16; 17; 18; 22; 23; 24; 25; 26; 27; 29; 32; 33; 35; 37; 38; 40; 41; 128; 255].
