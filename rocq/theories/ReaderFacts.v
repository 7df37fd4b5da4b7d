(** Lemmas about [Reader]. *)
From Coq Require Import ZifyBool ZifyNat ZifyN Lia.
From Verif Require Import Base BaseFacts Reader.
Ltac Zify.zify_post_hook ::= Z.div_mod_to_equations.

Lemma has_n_ok n s : n <= nlen s -> has_n n s = Ok (tt, s).
Proof. intros; unfold has_n. destruct (nlen s <? n) eqn:E; auto. lia. Qed.
Lemma has_n_short n s : nlen s < n -> has_n n s = Err ETrunc.
Proof. intros; unfold has_n. destruct (nlen s <? n) eqn:E; auto. lia. Qed.
Lemma has_n_inv n s u r : has_n n s = Ok (u, r) -> r = s /\ n <= nlen s.
Proof. unfold has_n. destruct (nlen s <? n) eqn:E; intros H; inv H. split; auto; lia. Qed.

Lemma get_be_app k l r : length l = k -> get_be k (l ++ r) = Ok (be_val l, r).
Proof. intros. unfold get_be. rewrite (bind_ok _ _ _ _ _ (split_to_app k l r H)). reflexivity. Qed.
Lemma get_be_inv k s n r : get_be k s = Ok (n, r) ->
  exists l, s = l ++ r /\ length l = k /\ n = be_val l.
Proof.
  unfold get_be; intros H. apply bind_inv in H as (l & s' & H1 & H2).
  apply split_to_inv in H1 as [-> H1]. apply ret_inv in H2 as [<- <-]. eauto.
Qed.

Lemma read_be_bytes k l r : length l = k -> read_be k (l ++ r) = Ok (be_val l, r).
Proof.
  intros. unfold read_be. rewrite (bind_ok _ _ _ tt (l ++ r)).
  - apply get_be_app; auto.
  - apply has_n_ok. unfold nlen. rewrite app_length. lia.
Qed.
Lemma read_be_inv k s n r : read_be k s = Ok (n, r) ->
  exists l, s = l ++ r /\ length l = k /\ n = be_val l.
Proof.
  unfold read_be; intros H. apply bind_inv in H as (u & s' & H1 & H2).
  apply has_n_inv in H1 as [-> H1]. apply get_be_inv in H2; auto.
Qed.
Lemma read_be_inv_ok k s n r : read_be k s = Ok (n, r) -> bytes_ok s ->
  s = be k n ++ r /\ n < 256 ^ N.of_nat k /\ bytes_ok r.
Proof.
  intros H Hs. apply read_be_inv in H as (l & -> & <- & ->).
  apply bytes_ok_app in Hs as [H1 H2]. rewrite be_be_val by auto.
  repeat split; auto. apply be_val_bound; auto.
Qed.
Lemma read_be_short k s : (length s < k)%nat -> read_be k s = Err ETrunc.
Proof. intros. unfold read_be. apply bind_err. apply has_n_short. unfold nlen; lia. Qed.

Lemma read_be_be k n r : n < 256 ^ N.of_nat k -> read_be k (be k n ++ r) = Ok (n, r).
Proof. intros. rewrite read_be_bytes by apply be_length. rewrite be_val_be_small; auto. Qed.
Lemma read_be_be_mod k n r : read_be k (be k n ++ r) = Ok (n mod 256 ^ N.of_nat k, r).
Proof. rewrite read_be_bytes by apply be_length. rewrite be_val_be; auto. Qed.

Lemma read_u8_be n r : n < 256 -> read_u8 (be 1 n ++ r) = Ok (n, r).
Proof. intros; apply read_be_be. exact H. Qed.
Lemma read_u8_cons n r : read_u8 (n :: r) = Ok (n, r).
Proof. change (n :: r) with ([n] ++ r). rewrite read_be_bytes by auto. rewrite be_val_1; auto. Qed.
Lemma read_u16_be n r : n < 65536 -> read_u16 (be 2 n ++ r) = Ok (n, r).
Proof. intros; apply read_be_be. exact H. Qed.
Lemma read_u32_be n r : n < 4294967296 -> read_u32 (be 4 n ++ r) = Ok (n, r).
Proof. intros; apply read_be_be. exact H. Qed.
Lemma read_u64_be n r : n < 18446744073709551616 -> read_u64 (be 8 n ++ r) = Ok (n, r).
Proof. intros; apply read_be_be. exact H. Qed.
Lemma read_u128_be n r : n < 340282366920938463463374607431768211456 ->
  read_be 16 (be 16 n ++ r) = Ok (n, r).
Proof. intros; apply read_be_be. exact H. Qed.

Lemma read_n_bytes_app n l r : nlen l = n -> read_n_bytes n (l ++ r) = Ok (l, r).
Proof.
  intros <-. unfold read_n_bytes. rewrite (bind_ok _ _ _ tt (l ++ r)).
  - apply split_to_app. unfold nlen; lia.
  - apply has_n_ok. rewrite nlen_app; lia.
Qed.
Lemma read_n_bytes_inv n s l r : read_n_bytes n s = Ok (l, r) -> s = l ++ r /\ nlen l = n.
Proof.
  unfold read_n_bytes; intros H. apply bind_inv in H as (u & s' & H1 & H2).
  apply has_n_inv in H1 as [-> H1]. apply split_to_inv in H2 as [-> H2].
  split; auto. unfold nlen; lia.
Qed.

(** * Panic-freedom *)
Lemma npp_has_n n : npp (has_n n).
Proof. intros s; unfold has_n; destruct (nlen s <? n); discriminate. Qed.
Lemma np_split_to k s : (k <= length s)%nat -> np (split_to k s).
Proof. intros; rewrite split_to_ge; auto. discriminate. Qed.
Lemma np_get_be k s : (k <= length s)%nat -> np (get_be k s).
Proof. intros. unfold get_be. apply np_bind. apply np_split_to; auto. intros; discriminate. Qed.
Lemma npp_read_be k : npp (read_be k).
Proof.
  intros s. unfold read_be. apply np_bind. apply npp_has_n.
  intros u s' H. apply has_n_inv in H as [-> H]. apply np_get_be. unfold nlen in H; lia.
Qed.
Lemma npp_read_n_bytes n : npp (read_n_bytes n).
Proof.
  intros s. unfold read_n_bytes. apply np_bind. apply npp_has_n.
  intros u s' H. apply has_n_inv in H as [-> H]. apply np_split_to. unfold nlen in H; lia.
Qed.
Lemma npp_repeat {A} n (p : P A) : npp p -> npp (repeat_p n p).
Proof.
  intros H; induction n; simpl; [apply npp_ret|].
  apply npp_bind; auto. intros; apply npp_bind; auto. intros; apply npp_ret.
Qed.

(** * Consumption *)
Lemma consumes_has_n n : consumes (has_n n).
Proof. intros s a r H. apply has_n_inv in H as [-> _]. exists []; auto. Qed.
Lemma consumes_get_be k : consumes (get_be k).
Proof. intros s a r H. apply get_be_inv in H as (l & -> & _). eauto. Qed.
Lemma consumes_read_be k : consumes (read_be k).
Proof. intros s a r H. apply read_be_inv in H as (l & -> & _). eauto. Qed.
Lemma consumes_read_n_bytes n : consumes (read_n_bytes n).
Proof. intros s a r H. apply read_n_bytes_inv in H as [-> _]. eauto. Qed.
Lemma consumes_repeat {A} n (p : P A) : consumes p -> consumes (repeat_p n p).
Proof.
  intros H; induction n; simpl; [apply consumes_ret|].
  apply consumes_bind; auto. intros; apply consumes_bind; auto. intros; apply consumes_ret.
Qed.
#[export] Hint Resolve npp_has_n npp_read_be npp_read_n_bytes npp_repeat : np.
#[export] Hint Resolve consumes_has_n consumes_get_be consumes_read_be
  consumes_read_n_bytes consumes_repeat : consumes.

Lemma read_be_len k s n r : read_be k s = Ok (n, r) -> length s = (k + length r)%nat.
Proof. intros H. apply read_be_inv in H as (l & -> & <- & _). apply app_length. Qed.
Lemma read_n_bytes_len k s n r : read_n_bytes k s = Ok (n, r) -> nlen s = k + nlen r.
Proof. intros H. apply read_n_bytes_inv in H as [-> <-]. apply nlen_app. Qed.

(** * Repetition round-trips *)
Lemma repeat_p_app {A} (p : P A) (enc : A -> bytes) (Q : A -> Prop) l r :
  (forall a s, Q a -> p (enc a ++ s) = Ok (a, s)) -> Forall Q l ->
  repeat_p (length l) p (flat_map enc l ++ r) = Ok (l, r).
Proof.
  intros Hp. induction l as [|a l IH]; intros HQ; [reflexivity|].
  inv HQ. cbn [flat_map length repeat_p]. rewrite <- app_assoc.
  rewrite (bind_ok _ _ _ a (flat_map enc l ++ r)) by auto.
  rewrite (bind_ok _ _ _ l r) by auto. reflexivity.
Qed.

Lemma many_p_app {A} (p : P A) (enc : A -> bytes) (Q : A -> Prop) l fuel :
  (forall a s, Q a -> p (enc a ++ s) = Ok (a, s)) ->
  (forall a, Q a -> (0 < length (enc a))%nat) -> Forall Q l ->
  (length (flat_map enc l) <= fuel)%nat ->
  many_p fuel p (flat_map enc l) = Ok l.
Proof.
  intros Hp Hlen. revert fuel. induction l as [|a l IH]; intros fuel HQ Hf.
  - destruct fuel; reflexivity.
  - inv HQ. cbn [flat_map] in *. rewrite app_length in Hf. specialize (Hlen a H1) as Hl.
    destruct fuel as [|f]; [lia|].
    destruct (enc a ++ flat_map enc l) as [|b s] eqn:E.
    { apply app_eq_nil in E as [E _]. rewrite E in Hl. simpl in Hl; lia. }
    cbn [many_p]. rewrite <- E. rewrite Hp by auto. cbn [rbind].
    rewrite IH by (auto; lia). reflexivity.
Qed.

Lemma many_p_np {A} (p : P A) fuel s :
  npp p -> (forall s a r, p s = Ok (a, r) -> (length r < length s)%nat) ->
  (length s <= fuel)%nat -> np (many_p fuel p s).
Proof.
  intros Hp Hc. revert s. induction fuel; intros s Hf; destruct s as [|b s]; cbn [many_p].
  - discriminate.
  - simpl in Hf; lia.
  - discriminate.
  - apply np_rbind. apply Hp. intros [a s'] E. apply np_rbind.
    + apply IHfuel. apply Hc in E. simpl in *; lia.
    + intros; discriminate.
Qed.

Lemma length_flat_map {A B} (f : A -> list B) l : length (flat_map f l) = list_sum (map (fun a => length (f a)) l).
Proof. induction l; simpl; auto. rewrite app_length, IHl. auto. Qed.

Lemma many_p_inv {A} (p : P A) (enc : A -> bytes) (Q : A -> Prop) :
  (forall s a r, p s = Ok (a, r) -> bytes_ok s -> s = enc a ++ r /\ Q a) ->
  forall fuel s l, many_p fuel p s = Ok l -> bytes_ok s -> s = flat_map enc l /\ Forall Q l.
Proof.
  intros Hp. induction fuel; intros s l H Hs; destruct s as [|b s]; cbn [many_p] in H.
  - inv H; simpl; auto.
  - discriminate.
  - inv H; simpl; auto.
  - apply rbind_inv in H as ([a s'] & H1 & H2). apply rbind_inv in H2 as (l' & H2 & H3).
    inv H3. apply Hp in H1 as [H1 HQ]; auto. rewrite H1 in Hs |- *.
    apply bytes_ok_app in Hs as [_ Hs]. apply IHfuel in H2 as [-> H2]; auto.
Qed.

Lemma repeat_p_inv {A} (p : P A) (enc : A -> bytes) (Q : A -> Prop) :
  (forall s a r, p s = Ok (a, r) -> bytes_ok s -> s = enc a ++ r /\ Q a) ->
  forall n s l r, repeat_p n p s = Ok (l, r) -> bytes_ok s ->
  s = flat_map enc l ++ r /\ Forall Q l /\ length l = n.
Proof.
  intros Hp. induction n; intros s l r H Hs; cbn [repeat_p] in H.
  - apply ret_inv in H as [<- <-]; auto.
  - apply bind_inv in H as (a & s1 & H1 & H). apply bind_inv in H as (l' & s2 & H2 & H).
    apply ret_inv in H as [<- <-]. apply Hp in H1 as [-> HQ]; auto.
    apply bytes_ok_app in Hs as [_ Hs]. apply IHn in H2 as (-> & H2 & <-); auto.
    cbn [flat_map]. rewrite <- app_assoc. auto.
Qed.
