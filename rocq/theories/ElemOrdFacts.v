(** Proofs about the order of elements. *)
From Coq Require Import Lia ZArith Floats.SpecFloat.
From Verif Require Import Tac Base BaseFacts Net TableDump BgpMsg Bgp4mp Framing MrtRecord Elem ElemSpec ElemFacts Filter Iter IterSpec IterFacts ElemOrd.

(** ** Floats and addresses: an order of lists of numbers. *)
Fixpoint lex (a b : list Z) : comparison :=
  match a, b with
  | [], [] => Eq
  | [], _ => Lt
  | _, [] => Gt
  | x :: a', y :: b' => match (x ?= y)%Z with Eq => lex a' b' | c => c end
  end.
Lemma lex_opp a b : lex b a = CompOpp (lex a b).
Proof.
  revert b. induction a as [|x a IH]; intros [|y b]; try reflexivity. cbn [lex]. rewrite (Z.compare_antisym x y). destruct (x ?= y)%Z; cbn [CompOpp]; auto.
Qed.
Lemma lex_eq a b : lex a b = Eq <-> a = b.
Proof.
  revert b. induction a as [|x a IH]; intros [|y b]; cbn [lex]; try (split; [discriminate|congruence]); [tauto|].
  destruct (Z.compare_spec x y) as [->|L|L]; [rewrite IH; split; congruence| |]; (split; [discriminate|intros H; injection H; lia]).
Qed.
Lemma lex_lt a b c : lex a b = Lt -> lex b c = Lt -> lex a c = Lt.
Proof.
  revert b c. induction a as [|x a IH]; intros [|y b] [|z c]; cbn [lex]; try discriminate; auto.
  destruct (Z.compare_spec x y) as [->|L|L]; try discriminate; destruct (Z.compare_spec y z) as [->|M|M]; try discriminate; intros A B.
  - rewrite ?Z.compare_refl. eapply IH; eauto.
  - reflexivity.
  - rewrite (proj2 (Z.compare_lt_iff x z)) by lia. reflexivity.
  - rewrite (proj2 (Z.compare_lt_iff x z)) by lia. reflexivity.
Qed.
Lemma lex_trans a b c k : lex a b = k -> lex b c = k -> lex a c = k.
Proof.
  destruct k; intros A B.
  - apply lex_eq in A as ->. exact B.
  - eapply lex_lt; eauto.
  - assert (A' : lex b a = Lt) by (rewrite lex_opp, A; reflexivity). assert (B' : lex c b = Lt) by (rewrite lex_opp, B; reflexivity). rewrite lex_opp, (lex_lt _ _ _ B' A'). reflexivity.
Qed.

Definition fkey (x : f64) : option (list Z) :=
  match x with
  | S754_nan => None
  | S754_infinity true => Some [-2; 0; 0]%Z
  | S754_finite true m e => Some [-1; - e; Z.neg m]%Z
  | S754_zero _ => Some [0; 0; 0]%Z
  | S754_finite false m e => Some [1; e; Z.pos m]%Z
  | S754_infinity false => Some [2; 0; 0]%Z
  end.
Lemma compare_lex x y : SFcompare x y = match fkey x, fkey y with Some a, Some b => Some (lex a b) | _, _ => None end.
Proof.
  destruct x as [[]|[]| |[] m e], y as [[]|[]| |[] m' e']; try reflexivity; cbn -[Z.compare Z.opp]; change (-1 ?= -1)%Z with Eq; change (1 ?= 1)%Z with Eq; cbn iota; f_equal.
  - change (Pos.compare_cont Eq m m') with (m ?= m')%positive. assert (E : (- e ?= - e')%Z = CompOpp (e ?= e')%Z) by (rewrite <- Z.compare_antisym; apply Z.compare_opp). rewrite E. destruct (e ?= e')%Z; cbn [CompOpp]; try reflexivity. change (Z.neg m ?= Z.neg m')%Z with (CompOpp (m ?= m')%positive). destruct (m ?= m')%positive; reflexivity.
  - change (Pos.compare_cont Eq m m') with (m ?= m')%positive. change (Z.pos m ?= Z.pos m')%Z with (m ?= m')%positive. destruct (e ?= e')%Z; try reflexivity. destruct (m ?= m')%positive; reflexivity.
Qed.

Definition ikey (i : ip) : list Z := match i with V4 n => [4; Z.of_N n]%Z | V6 n => [6; Z.of_N n]%Z end.
Lemma ip_lex a b : compare_ip a b = lex (ikey a) (ikey b).
Proof. destruct a as [x|x], b as [y|y]; cbn -[Z.compare]; try reflexivity; rewrite N2Z.inj_compare; change (4 ?= 4)%Z with Eq; change (6 ?= 6)%Z with Eq; cbn iota; destruct (x ?= y); reflexivity. Qed.
Lemma ikey_inj a b : ikey a = ikey b -> a = b.
Proof. destruct a, b; cbn; intros H; injection H as H; try discriminate; f_equal; lia. Qed.
Lemma lex_app a b c d : length a = length c -> lex (a ++ b) (c ++ d) = match lex a c with Eq => lex b d | k => k end.
Proof. revert c. induction a as [|x a IH]; intros [|y c] L; try discriminate L; [reflexivity|]. cbn [app lex]. destruct (x ?= y)%Z; try reflexivity. apply IH. injection L as L. exact L. Qed.
Lemma fkey_len x a : fkey x = Some a -> length a = 3%nat.
Proof. destruct x as [|[]| |[]]; cbn; intros H; try discriminate H; injection H as <-; reflexivity. Qed.
Definition key (t : f64) (i : ip) : option (list Z) := option_map (fun a => a ++ ikey i) (fkey t).
Lemma keys_lex t i t' i' : compare_keys t i t' i' = match key t i, key t' i' with Some a, Some b => Ok (lex a b) | _, _ => Panic end.
Proof.
  unfold compare_keys, key. rewrite compare_lex. destruct (fkey t) as [a|] eqn:A; [|reflexivity]. destruct (fkey t') as [b|] eqn:B; [|reflexivity]. cbn [option_map].
  rewrite lex_app by (rewrite (fkey_len _ _ A), (fkey_len _ _ B); reflexivity). rewrite ip_lex. destruct (lex a b); reflexivity.
Qed.
Lemma key_nan t i : key t i = None <-> t = S754_nan.
Proof. unfold key. destruct t as [|[]| |[]]; cbn; split; congruence. Qed.
Lemma keys_opp t i t' i' c : compare_keys t i t' i' = Ok c -> compare_keys t' i' t i = Ok (CompOpp c).
Proof. rewrite !keys_lex. destruct (key t i), (key t' i'); try discriminate. intros H. injection H as <-. rewrite <- lex_opp. reflexivity. Qed.
Lemma keys_trans t1 i1 t2 i2 t3 i3 c : compare_keys t1 i1 t2 i2 = Ok c -> compare_keys t2 i2 t3 i3 = Ok c -> compare_keys t1 i1 t3 i3 = Ok c.
Proof.
  rewrite !keys_lex. destruct (key t1 i1), (key t2 i2), (key t3 i3); try discriminate. intros A B. injection A as A. injection B as B. f_equal. eapply lex_trans; eauto.
Qed.
Lemma keys_eq_left t1 i1 t2 i2 t3 i3 : compare_keys t1 i1 t2 i2 = Ok Eq -> compare_keys t1 i1 t3 i3 = compare_keys t2 i2 t3 i3.
Proof.
  rewrite !keys_lex. destruct (key t1 i1), (key t2 i2); try discriminate. intros A. injection A as A. apply lex_eq in A as ->. reflexivity.
Qed.
Lemma keys_eq t i t' i' : compare_keys t i t' i' = Ok Eq <-> SFcompare t t' = Some Eq /\ i = i'.
Proof.
  unfold compare_keys. destruct (SFcompare t t') as [[]|]; try (split; [discriminate|intros [X _]; discriminate X]). rewrite ip_lex. split.
  - intros H. injection H as H. apply lex_eq, ikey_inj in H. auto.
  - intros [_ ->]. f_equal. apply lex_eq. reflexivity.
Qed.
Lemma keys_panic t i t' i' : compare_keys t i t' i' = Panic <-> t = S754_nan \/ t' = S754_nan.
Proof.
  rewrite keys_lex, <- (key_nan t i), <- (key_nan t' i'). destruct (key t i), (key t' i'); split; try tauto; try discriminate. intros [X|X]; discriminate X.
Qed.

(** ** The times of elements *)
Definition not_negative (x : f64) : Prop := match x with S754_zero false | S754_infinity false | S754_finite false _ _ => True | _ => False end.
Lemma iter_inv {A} (P : A -> Prop) (f : A -> A) n x : (forall y, P y -> P (f y)) -> P x -> P (SpecFloat.iter_pos f n x).
Proof. intros F. revert x. induction n as [n IH|n IH|]; intros x H; cbn [SpecFloat.iter_pos]; auto. Qed.
Lemma shr_nonneg r : (0 <= shr_m (shr_1 r) \/ shr_m r < 0)%Z.
Proof. destruct r as [[|[p|p|]|p] r s]; cbn; lia. Qed.
Lemma shr_pos r e n : (0 <= shr_m r)%Z -> (0 <= shr_m (fst (shr r e n)))%Z.
Proof.
  intros H. unfold shr. destruct n; cbn [fst]; auto. apply (iter_inv (fun r => 0 <= shr_m r)%Z); auto. intros y Y. destruct (shr_nonneg y); lia.
Qed.
Lemma fexp_pos m e l : (0 <= m)%Z -> (0 <= shr_m (fst (shr_fexp 53 1024 m e l)))%Z.
Proof. intros H. unfold shr_fexp. apply shr_pos. destruct l as [|[]]; cbn; exact H. Qed.
Lemma nearest_pos m l : (0 <= m)%Z -> (0 <= round_nearest_even m l)%Z.
Proof. intros H. destruct l as [|[]]; cbn; try destruct (Z.even m); lia. Qed.
Lemma aux_pos m e l : (0 <= m)%Z -> not_negative (binary_round_aux 53 1024 false m e l).
Proof.
  intros H. unfold binary_round_aux. pose proof (fexp_pos m e l H) as A. destruct (shr_fexp 53 1024 m e l) as [r e']. cbn [fst] in A.
  pose proof (fexp_pos _ e' loc_Exact (nearest_pos _ (loc_of_shr_record r) A)) as B. destruct (shr_fexp 53 1024 _ e' loc_Exact) as [r2 e2]. cbn [fst] in B.
  destruct (shr_m r2) as [|p|p]; [exact I| |lia]. destruct (Z.leb _ _); exact I.
Qed.
Lemma normalize_pos m e : (0 <= m)%Z -> not_negative (binary_normalize 53 1024 m e false).
Proof.
  intros H. destruct m as [|p|p]; cbn -[binary_round]; [exact I| |lia]. unfold binary_round. destruct (shl_align p e _) as [q e']. apply aux_pos. lia.
Qed.
Lemma N_pos n : not_negative (f64_of_N n).
Proof. apply normalize_pos. lia. Qed.
Lemma add_pos x y : not_negative x -> not_negative y -> not_negative (f64_add x y).
Proof.
  unfold f64_add. destruct x as [[]|[]| |[] m e], y as [[]|[]| |[] m' e']; cbn -[binary_normalize]; try contradiction; intros _ _; try exact I. apply normalize_pos. lia.
Qed.
Lemma div_pos x m e : not_negative x -> not_negative (f64_div x (S754_finite false m e)).
Proof.
  unfold f64_div. destruct x as [[]|[]| |[] m' e']; cbn -[binary_round_aux SFdiv_core_binary]; try contradiction; intros _; try exact I.
  unfold SFdiv_core_binary. cbv zeta. set (m0 := match _ with Z0 => _ | Zpos _ => _ | Zneg _ => _ end). assert (M : (0 <= m0)%Z).
  { unfold m0. destruct (_ - _)%Z; try lia. apply Z.shiftl_nonneg. lia. }
  pose proof (Z.div_pos m0 (Z.pos m) M eq_refl) as Q. unfold Z.div in Q. destruct (Z.div_eucl m0 (Z.pos m)) as [q r]. apply aux_pos. exact Q.
Qed.
Lemma time_pos h : not_negative (record_time h).
Proof.
  unfold record_time. destruct (h_us h) as [us|]; [|apply N_pos]. apply add_pos; [apply N_pos|].
  assert (E : exists m e, f64_of_N 1000000 = S754_finite false m e) by (do 2 eexists; vm_compute; reflexivity). destruct E as (m & e & ->). apply div_pos, N_pos.
Qed.
Lemma not_nan x : not_negative x -> x <> S754_nan.
Proof. intros H ->. exact H. Qed.
Lemma elems_pos el r l : record_elems el r l -> Forall (fun e => not_negative (e_time e)) l.
Proof.
  assert (B : forall b pi pa l, bgp_elems b (record_time (mr_hdr r)) pi pa l -> Forall (fun e => not_negative (e_time e)) l).
  { intros b pi pa l0. destruct b; cbn [bgp_elems]; try (intros ->; constructor). intros (x1 & x2 & x3 & x4 & x5 & _ & _ & _ & _ & _ & _ & F). eapply Forall_impl; [|exact F]. cbv beta. intros e (-> & _). apply time_pos. }
  assert (D : forall d e, dump_elem d e -> not_negative (e_time e)) by (intros d e (_ & _ & -> & _); apply N_pos).
  unfold record_elems. destruct (mr_msg r) as [d|ds|[p|b| |g]|[m|m]|[m|m]]; intros H.
  - destruct H as (e & -> & H). constructor; [eapply D, H|constructor].
  - induction H; constructor; eauto.
  - subst. constructor.
  - destruct el; [|subst; constructor]. induction H as [|x e xs es H F IH]; constructor; auto. destruct H as (_ & _ & -> & _). apply N_pos.
  - subst. constructor.
  - subst. constructor.
  - subst. constructor.
  - eapply B, H.
  - eapply B, H.
  - subst. constructor.
Qed.
Lemma elems_of_pos x : Forall (fun e => not_negative (e_time e)) (elems_of x).
Proof.
  destruct x as [el r]. destruct (record_elems_ok el r) as (l & E & H). rewrite elems_rec in E. injection E as E. rewrite E. eapply elems_pos, H.
Qed.
