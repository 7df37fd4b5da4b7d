(** Tactics for codec proofs. *)
From Coq Require Import ZifyBool ZifyNat ZifyN Lia.
From Verif Require Import Base BaseFacts Reader ReaderFacts.
Ltac Zify.zify_post_hook ::= Z.div_mod_to_equations.

(** Solve [n < 256 ^ N.of_nat k] for a literal [k]. *)
Ltac fits :=
  match goal with
  | |- ?n < 256 ^ N.of_nat ?k =>
      let v := eval vm_compute in (256 ^ N.of_nat k) in
      change (n < v); first [assumption | reflexivity | lia]
  end.

(** One parsing step on an encoded prefix: [bind (read_be k) f (be k n ++ r)]. *)
Ltac rstep :=
  repeat rewrite <- !app_assoc;
  match goal with
  | |- bind (read_be ?k) _ (be ?k ?n ++ ?r) = _ =>
      rewrite (bind_ok _ _ _ n r (read_be_be k n r ltac:(fits)))
  | |- bind (read_be ?k) _ (be ?k ?n) = _ =>
      rewrite <- (app_nil_r (be k n));
      rewrite (bind_ok _ _ _ n [] (read_be_be k n [] ltac:(fits)))
  | |- bind (read_be 1) _ (?n :: ?r) = _ =>
      rewrite (bind_ok _ _ _ n r (read_u8_cons n r))
  | |- bind (read_n_bytes ?n) _ (?l ++ ?r) = _ =>
      rewrite (bind_ok _ _ _ l r (read_n_bytes_app n l r ltac:(unfold nlen in *; lia)))
  end.

(** Invert one [bind] whose first parser is a primitive read; the consumed
    octets replace the buffer variable.  Needs [bytes_ok] of the buffer. *)
Ltac pstep H :=
  let a := fresh "a" in let s := fresh "s" in
  let Hp := fresh "Hp" in let Hb := fresh "Hb" in let Ho := fresh "Ho" in
  apply bind_inv in H as (a & s & Hp & H);
  first
  [ apply read_be_inv_ok in Hp; [destruct Hp as (-> & Hb & Ho) | assumption]
  | apply read_n_bytes_inv in Hp as (-> & Hb);
    match goal with Hx : bytes_ok (a ++ s) |- _ =>
      assert (bytes_ok a /\ bytes_ok s) as [? ?] by (apply bytes_ok_app; exact Hx) end ].

(** Numeric bounds produced by [pstep] as literals. *)
Ltac lits :=
  repeat match goal with
  | H : ?n < 256 ^ N.of_nat ?k |- _ =>
      let v := eval vm_compute in (256 ^ N.of_nat k) in change (n < v) in H
  end.

(** Splitting a big-endian field. *)
Lemma be_split a b n : be (a + b) n = be a (n / 256 ^ N.of_nat b) ++ be b n.
Proof.
  revert n. induction b; intros n.
  - rewrite Nat.add_0_r, N.div_1_r, app_nil_r. reflexivity.
  - rewrite Nat.add_succ_r. cbn [be]. rewrite IHb, <- app_assoc. f_equal. f_equal.
    rewrite pow256_S, N.div_div by (pose proof (pow256_pos b); lia). reflexivity.
Qed.
Lemma be_mod_small k n m : m = 256 ^ N.of_nat k -> be k (n mod m) = be k n.
Proof. intros ->. apply be_mod. rewrite N.mod_mod; auto. pose proof (pow256_pos k). lia. Qed.
