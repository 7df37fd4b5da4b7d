(** The bit pattern of a binary64 number is that of the IEEE encoding, as Flocq defines it. *)
From Coq Require Import ZArith NArith Lia ZifyBool ZifyN Floats.SpecFloat.
From Flocq Require Import IEEE754.Binary IEEE754.BinarySingleNaN IEEE754.Bits.
From Verif Require Import Base Elem Equal.
Lemma join53 s m e : Bits.join_bits 52 11 s m e = (((if s then 2 ^ 63 else 0) + e * 2 ^ 52) + m)%Z.
Proof. unfold Bits.join_bits. rewrite Z.shiftl_mul_pow2 by lia. destruct s; lia. Qed.
Lemma bits_b64 (x : binary64) : Binary.is_nan 53 1024 x = false -> Z.of_N (f64_bits (B2SF (Binary.B2BSN 53 1024 x))) = bits_of_b64 x.
Proof.
  unfold bits_of_b64. destruct x as [s|s|s pl H|s m e B]; intros NN; try discriminate NN; cbn [Binary.B2BSN B2SF f64_bits Bits.bits_of_binary_float].
  - rewrite join53. destruct s; reflexivity.
  - rewrite join53. destruct s; reflexivity.
  - clear NN. assert (B' := B). unfold SpecFloat.bounded, SpecFloat.canonical_mantissa, SpecFloat.fexp, SpecFloat.emin in B'. apply andb_prop in B' as (B' & _). apply Zeq_bool_eq in B'.
    clear B. change (Zpower 2 52) with (2 ^ 52)%Z. rewrite !join53. change (3 - 1024 - 53)%Z with (-1074)%Z in *.
    change (SpecFloat.emin (52 + 1) (2 ^ (11 - 1))) with (-1074)%Z.
    assert (L : (-1074 <= e)%Z) by lia. clear B'.
    destruct s, (N.ltb_spec (N.pos m) (2 ^ 52)), (Zle_bool 0 (Z.pos m - 2 ^ 52)) eqn:Q; lia.
Qed.
