(** Lemmas about [Base]. *)
From Coq Require Import ZifyBool ZifyNat ZifyN Lia.
From Verif Require Import Base.
Ltac Zify.zify_post_hook ::= Z.div_mod_to_equations.

(** * Basic tactics *)
Ltac inv H :=
  first [ discriminate H | injection H; clear H; intros; subst | inversion H; subst; clear H ].

Lemma bytes_ok_app a b : bytes_ok (a ++ b) <-> bytes_ok a /\ bytes_ok b.
Proof. apply Forall_app. Qed.

Lemma bytes_okb_spec l : bytes_okb l = true <-> bytes_ok l.
Proof.
  unfold bytes_okb, bytes_ok. rewrite forallb_forall, Forall_forall.
  split; intros H x Hx; specialize (H x Hx); lia.
Qed.

(** * Big-endian integers *)
Lemma be_length k n : length (be k n) = k.
Proof. revert n; induction k; intros; simpl; [auto|]. rewrite app_length, IHk; simpl; lia. Qed.

Lemma be_ok k n : bytes_ok (be k n).
Proof.
  revert n; induction k; intros; simpl; [constructor|].
  apply bytes_ok_app; split; auto. constructor; [|constructor]. lia.
Qed.

Lemma be_val_snoc l b : be_val (l ++ [b]) = be_val l * 256 + b.
Proof. unfold be_val. rewrite fold_left_app. reflexivity. Qed.

Lemma pow256_S k : 256 ^ N.of_nat (S k) = 256 * 256 ^ N.of_nat k.
Proof. rewrite Nat2N.inj_succ, N.pow_succ_r'. reflexivity. Qed.

Lemma pow256_pos k : 0 < 256 ^ N.of_nat k.
Proof. assert (256 ^ N.of_nat k <> 0) by (apply N.pow_nonzero; lia). lia. Qed.

Lemma be_val_be k n : be_val (be k n) = n mod 256 ^ N.of_nat k.
Proof.
  revert n; induction k; intros.
  - simpl. unfold be_val; simpl. rewrite N.mod_1_r. reflexivity.
  - cbn [be]. rewrite be_val_snoc, IHk, pow256_S.
    rewrite (N.mod_mul_r n 256 (256 ^ N.of_nat k)); pose proof (pow256_pos k); lia.
Qed.

Lemma be_val_be_small k n : n < 256 ^ N.of_nat k -> be_val (be k n) = n.
Proof. intros. rewrite be_val_be. apply N.mod_small; auto. Qed.

Lemma be_val_bound l : bytes_ok l -> be_val l < 256 ^ N.of_nat (length l).
Proof.
  induction l using rev_ind; intros H.
  - unfold be_val; simpl; lia.
  - apply bytes_ok_app in H as [H1 H2]. inv H2.
    rewrite be_val_snoc, app_length. cbn [length].
    replace (length l + 1)%nat with (S (length l)) by lia.
    rewrite pow256_S. specialize (IHl H1). nia.
Qed.

Lemma be_be_val l : bytes_ok l -> be (length l) (be_val l) = l.
Proof.
  induction l using rev_ind; intros H; [reflexivity|].
  apply bytes_ok_app in H as [H1 H2]. inv H2.
  rewrite app_length; cbn [length].
  replace (length l + 1)%nat with (S (length l)) by lia.
  cbn [be]. rewrite be_val_snoc.
  replace ((be_val l * 256 + x) / 256) with (be_val l) by lia.
  replace ((be_val l * 256 + x) mod 256) with x by lia.
  rewrite IHl; auto.
Qed.

Lemma be_mod k n m : n mod 256 ^ N.of_nat k = m mod 256 ^ N.of_nat k -> be k n = be k m.
Proof.
  intros H. 
  rewrite <- (be_be_val (be k n)) by apply be_ok.
  rewrite <- (be_be_val (be k m)) by apply be_ok.
  rewrite !be_length, !be_val_be, H. reflexivity.
Qed.

Lemma be_inj k n m : n < 256 ^ N.of_nat k -> m < 256 ^ N.of_nat k -> be k n = be k m -> n = m.
Proof.
  intros Hn Hm H. apply (f_equal be_val) in H. rewrite !be_val_be_small in H; auto.
Qed.

Lemma be_1 n : n < 256 -> be 1 n = [n].
Proof. intros. cbn [be app]. rewrite N.mod_small; auto. Qed.

Lemma be_val_1 b : be_val [b] = b.
Proof. unfold be_val; simpl. lia. Qed.

Lemma be_val_2 a b : be_val [a; b] = a * 256 + b.
Proof. unfold be_val; cbn [fold_left]. lia. Qed.

(** * splitn *)
Lemma splitn_app k l r : length l = k -> splitn k (l ++ r) = Some (l, r).
Proof.
  revert l; induction k; intros [|b l] H; simpl in *; try discriminate; auto.
  rewrite IHk; auto.
Qed.

Lemma splitn_some k s l r : splitn k s = Some (l, r) -> s = l ++ r /\ length l = k.
Proof.
  revert s l; induction k; intros s l H; simpl in H.
  - inv H. auto.
  - destruct s as [|b s]; [discriminate|].
    destruct (splitn k s) as [[l' r']|] eqn:E; [|discriminate].
    inv H. apply IHk in E as [-> <-]. auto.
Qed.

Lemma splitn_none k s : splitn k s = None <-> (length s < k)%nat.
Proof.
  revert s; induction k; intros s; simpl.
  - split; [discriminate|lia].
  - destruct s as [|b s]; simpl.
    + split; [lia|auto].
    + destruct (splitn k s) as [[l' r']|] eqn:E.
      * split; [discriminate|]. intros. assert (length s < k)%nat by lia.
        apply IHk in H0. congruence.
      * split; auto. intros _. apply IHk in E. lia.
Qed.

Lemma splitn_ge k s : (k <= length s)%nat -> splitn k s = Some (firstn k s, skipn k s).
Proof.
  intros. rewrite <- (firstn_skipn k s) at 1. apply splitn_app.
  rewrite firstn_length. lia.
Qed.

Lemma splitn_all l : splitn (length l) l = Some (l, []).
Proof. rewrite <- (app_nil_r l) at 2. apply splitn_app; auto. Qed.

(** * Monad laws used as rewriting rules *)
Lemma bind_ok {A B} (p : P A) (k : A -> P B) s a s' :
  p s = Ok (a, s') -> bind p k s = k a s'.
Proof. intros H; unfold bind; rewrite H; reflexivity. Qed.

Lemma bind_err {A B} (p : P A) (k : A -> P B) s e :
  p s = Err e -> bind p k s = Err e.
Proof. intros H; unfold bind; rewrite H; reflexivity. Qed.

Lemma bind_inv {A B} (p : P A) (k : A -> P B) s b r :
  bind p k s = Ok (b, r) -> exists a s', p s = Ok (a, s') /\ k a s' = Ok (b, r).
Proof.
  unfold bind. destruct (p s) as [[a s']|e|]; try discriminate. eauto.
Qed.

Lemma rbind_inv {A B} (p : res A) (k : A -> res B) b :
  rbind p k = Ok b -> exists a, p = Ok a /\ k a = Ok b.
Proof. destruct p; simpl; try discriminate; eauto. Qed.

Lemma ret_inv {A} (a b : A) s r : ret a s = Ok (b, r) -> a = b /\ s = r.
Proof. unfold ret; intros H; inv H; auto. Qed.

Lemma lift_inv {A} (x : res A) s b r : lift x s = Ok (b, r) -> x = Ok b /\ s = r.
Proof. unfold lift. destruct x; simpl; intros H; inv H; auto. Qed.

Lemma split_to_app k l r : length l = k -> split_to k (l ++ r) = Ok (l, r).
Proof. intros; unfold split_to; rewrite splitn_app; auto. Qed.

Lemma split_to_inv k s l r : split_to k s = Ok (l, r) -> s = l ++ r /\ length l = k.
Proof.
  unfold split_to. destruct (splitn k s) as [[l' r']|] eqn:E; intros H; inv H.
  apply splitn_some; auto.
Qed.

Lemma split_to_ge k s : (k <= length s)%nat -> split_to k s = Ok (firstn k s, skipn k s).
Proof. intros; unfold split_to; rewrite splitn_ge; auto. Qed.

Lemma run_ok {A} (p : P A) s a r : p s = Ok (a, r) -> run p s = Ok a.
Proof. intros H; unfold run; rewrite H; auto. Qed.

Lemma run_inv {A} (p : P A) s a : run p s = Ok a -> exists r, p s = Ok (a, r).
Proof. unfold run; destruct (p s) as [[x r]|e|]; intros H; inv H; eauto. Qed.

(** * "Never panics" *)
Definition np {A} (r : res A) : Prop := r <> Panic.
Definition npp {A} (p : P A) : Prop := forall s, p s <> Panic.

Lemma np_ok {A} (a : A) : np (Ok a). Proof. discriminate. Qed.
Lemma np_err {A} e : np (@Err A e). Proof. discriminate. Qed.
Lemma np_rbind {A B} (r : res A) (k : A -> res B) :
  np r -> (forall a, r = Ok a -> np (k a)) -> np (rbind r k).
Proof. unfold np; destruct r; simpl; intros H1 H2; auto; congruence. Qed.
Lemma np_bind {A B} (p : P A) (k : A -> P B) s :
  np (p s) -> (forall a s', p s = Ok (a, s') -> np (k a s')) -> np (bind p k s).
Proof.
  unfold bind, np. destruct (p s) as [[a s']|e|]; intros H1 H2; auto; discriminate.
Qed.
Lemma npp_bind {A B} (p : P A) (k : A -> P B) :
  npp p -> (forall a, npp (k a)) -> npp (bind p k).
Proof. intros H1 H2 s. apply np_bind. apply H1. intros; apply H2. Qed.
Lemma npp_ret {A} (a : A) : npp (ret a). Proof. intros s; discriminate. Qed.
Lemma npp_fail {A} e : npp (@fail A e). Proof. intros s; discriminate. Qed.
Lemma npp_lift {A} (r : res A) : np r -> npp (lift r).
Proof. intros H s. unfold lift; destruct r; simpl; try discriminate. contradiction H; auto. Qed.
Lemma npp_remaining : npp remaining. Proof. intros s; discriminate. Qed.
Lemma npp_peek : npp peek. Proof. intros s; discriminate. Qed.
Lemma np_run {A} (p : P A) s : np (p s) -> np (run p s).
Proof. unfold run, np; destruct (p s) as [[a s']|e|]; intros; auto; discriminate. Qed.
Lemma np_rmap {A B} (f : A -> res B) l : (forall a, In a l -> np (f a)) -> np (rmap f l).
Proof.
  induction l; simpl; intros; [apply np_ok|].
  apply np_rbind; [apply H; auto|]. intros. apply np_rbind; [apply IHl; auto|].
  intros; apply np_ok.
Qed.
#[export] Hint Resolve npp_ret npp_fail npp_remaining npp_peek np_ok np_err : np.

(** * What a parser leaves is a suffix of what it was given *)
Definition consumes {A} (p : P A) : Prop :=
  forall s a r, p s = Ok (a, r) -> exists pre, s = pre ++ r.

Lemma consumes_ret {A} (a : A) : consumes (ret a).
Proof. intros s x r H. apply ret_inv in H as [_ ->]. exists []; auto. Qed.
Lemma consumes_fail {A} e : consumes (@fail A e). Proof. intros s x r H; discriminate. Qed.
Lemma consumes_bind {A B} (p : P A) (k : A -> P B) :
  consumes p -> (forall a, consumes (k a)) -> consumes (bind p k).
Proof.
  intros H1 H2 s b r H. apply bind_inv in H as (a & s' & Ha & Hb).
  apply H1 in Ha as [p1 ->]. apply H2 in Hb as [p2 ->].
  exists (p1 ++ p2). rewrite app_assoc; auto.
Qed.
Lemma consumes_split_to k : consumes (split_to k).
Proof. intros s a r H. apply split_to_inv in H as [-> _]. eauto. Qed.
Lemma consumes_lift {A} (r : res A) : consumes (lift r).
Proof. intros s a r' H. apply lift_inv in H as [_ ->]. exists []; auto. Qed.
Lemma consumes_remaining : consumes remaining.
Proof. intros s a r H; inv H; exists []; auto. Qed.
Lemma consumes_peek : consumes peek.
Proof. intros s a r H; inv H; exists []; auto. Qed.
Lemma consumes_len {A} (p : P A) s a r : consumes p -> p s = Ok (a, r) -> (length r <= length s)%nat.
Proof. intros H E. apply H in E as [pre ->]. rewrite app_length; lia. Qed.
Lemma consumes_bytes_ok {A} (p : P A) s a r :
  consumes p -> p s = Ok (a, r) -> bytes_ok s -> bytes_ok r.
Proof. intros H E Hs. apply H in E as [pre ->]. apply bytes_ok_app in Hs; tauto. Qed.
#[export] Hint Resolve consumes_ret consumes_fail consumes_split_to consumes_lift
  consumes_remaining consumes_peek : consumes.

(** * Misc *)
Lemma bytes_eqb_eq a b : bytes_eqb a b = true <-> a = b.
Proof.
  revert b; induction a; intros [|y b]; simpl; split; intros; try discriminate; auto.
  - apply andb_true_iff in H as [H1 H2]. apply N.eqb_eq in H1. apply IHa in H2. congruence.
  - inv H. rewrite N.eqb_refl. simpl. apply IHa; auto.
Qed.

Lemma bytes_eqb_refl a : bytes_eqb a a = true.
Proof. apply bytes_eqb_eq; auto. Qed.

Lemma rmap_ok {A B} (f : A -> res B) l l' :
  rmap f l = Ok l' <-> Forall2 (fun a b => f a = Ok b) l l'.
Proof.
  revert l'; induction l; simpl; intros; split; intros H.
  - inv H; constructor.
  - inv H; auto.
  - apply rbind_inv in H as (b & Hb & H). apply rbind_inv in H as (bs & Hbs & H).
    inv H. constructor; auto. apply IHl; auto.
  - inv H. rewrite H2; simpl. apply IHl in H4. rewrite H4; auto.
Qed.

Lemma nlen_app {A} (a b : list A) : nlen (a ++ b) = nlen a + nlen b.
Proof. unfold nlen. rewrite app_length. lia. Qed.
Lemma nlen_nil {A} : nlen (@nil A) = 0. Proof. reflexivity. Qed.
Lemma nlen_cons {A} (a : A) l : nlen (a :: l) = nlen l + 1.
Proof. unfold nlen. simpl length. lia. Qed.
Lemma nlen_be k n : nlen (be k n) = N.of_nat k.
Proof. unfold nlen. rewrite be_length; auto. Qed.
Lemma to_nat_nlen {A} (l : list A) : N.to_nat (nlen l) = length l.
Proof. unfold nlen; lia. Qed.

Lemma skipn_app_len {A} (l r : list A) : skipn (length l) (l ++ r) = r.
Proof. rewrite skipn_app, skipn_all, Nat.sub_diag. reflexivity. Qed.
Lemma firstn_app_len {A} (l r : list A) : firstn (length l) (l ++ r) = l.
Proof. rewrite firstn_app, firstn_all, Nat.sub_diag. simpl. apply app_nil_r. Qed.
Lemma bytes_ok_firstn k l : bytes_ok l -> bytes_ok (firstn k l).
Proof. intros H. rewrite <- (firstn_skipn k l) in H. apply bytes_ok_app in H; tauto. Qed.
Lemma bytes_ok_skipn k l : bytes_ok l -> bytes_ok (skipn k l).
Proof. intros H. rewrite <- (firstn_skipn k l) in H. apply bytes_ok_app in H; tauto. Qed.
