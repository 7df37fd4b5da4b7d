(** Proofs about BGP Link-State. *)
From Coq Require Import ZifyBool ZifyNat ZifyN Lia Sorting.Permutation.
From Verif Require Import Base BaseFacts Reader ReaderFacts Tac Net AsPath Mpls MplsFacts FlowSpecFacts
  Tlv TlvSpec TlvFacts LinkState LinkStateSpec.
Ltac Zify.zify_post_hook ::= Z.div_mod_to_equations.

(** * Maps *)
Lemma kget_insert k v m k' : kget k' (kinsert k v m) = if k' =? k then Some v else kget k' m.
Proof.
  induction m as [|[x w] m IH]; cbn [kinsert kget]; [reflexivity|].
  destruct (N.ltb_spec k x); [reflexivity|]. destruct (N.eqb_spec k x) as [->|E].
  - cbn [kget]. destruct (N.eqb_spec k' x); reflexivity.
  - cbn [kget]. rewrite IH. destruct (N.eqb_spec k' x); destruct (N.eqb_spec k' k); auto; lia.
Qed.
Lemma kinsert_forall (R : N -> Prop) k v m : R k -> Forall (fun kv => R (fst kv)) m ->
  Forall (fun kv => R (fst kv)) (kinsert k v m).
Proof.
  intros Hk. induction 1 as [|[x w] m Hx Hm IH]; cbn [kinsert]; [auto|].
  destruct (k <? x); [auto|]. destruct (k =? x); auto.
Qed.
Lemma kinsert_incr k v m : increasing_keys m -> increasing_keys (kinsert k v m).
Proof.
  induction m as [|[x w] m IH]; cbn [kinsert increasing_keys]; [auto|]. intros (H1 & H2).
  destruct (N.ltb_spec k x).
  - cbn [increasing_keys]. repeat split; auto. constructor; [exact H|].
    revert H1. apply Forall_impl. cbn. intros; lia.
  - destruct (N.eqb_spec k x) as [->|E]; cbn [increasing_keys]; split; auto.
    apply (kinsert_forall (fun y => x < y)); auto. lia.
Qed.
Lemma kinsert_incr_if (b : bool) k v m : increasing_keys m -> increasing_keys (if b then kinsert k v m else m).
Proof. destruct b; auto using kinsert_incr. Qed.
Lemma kget_above k m : Forall (fun kv => k < fst kv) m -> kget k m = None.
Proof.
  induction 1 as [|[x w] m Hx Hm IH]; cbn [kget]; auto. cbn [fst] in Hx. destruct (N.eqb_spec k x); [lia|auto].
Qed.
Lemma incr_ext a : forall b, increasing_keys a -> increasing_keys b -> (forall k, kget k a = kget k b) -> a = b.
Proof.
  induction a as [|[x w] a IH]; intros [|[y u] b] Ha Hb E; auto.
  - specialize (E y). cbn [kget] in E. rewrite N.eqb_refl in E. discriminate.
  - specialize (E x). cbn [kget] in E. rewrite N.eqb_refl in E. discriminate.
  - cbn [increasing_keys] in Ha, Hb. destruct Ha as [Ha1 Ha2], Hb as [Hb1 Hb2].
    assert (x = y).
    { pose proof (E x) as E1. pose proof (E y) as E2. cbn [kget] in E1, E2. rewrite N.eqb_refl in E1, E2.
      destruct (N.eqb_spec x y) as [|N1]; auto. destruct (N.eqb_spec y x) as [|N2]; auto.
      destruct (N.lt_ge_cases x y).
      - rewrite kget_above in E1; [discriminate|]. revert Hb1. apply Forall_impl. intros; lia.
      - rewrite kget_above in E2; [discriminate|]. revert Ha1. apply Forall_impl. intros; lia. }
    subst y. assert (w = u) by (specialize (E x); cbn [kget] in E; rewrite N.eqb_refl in E; congruence). subst u.
    f_equal. apply IH; auto. intros k. specialize (E k). cbn [kget] in E. destruct (N.eqb_spec k x) as [E0|]; [subst k|exact E].
    rewrite !kget_above; auto.
Qed.
Lemma kget_in m k v : increasing_keys m -> (kget k m = Some v <-> In (k, v) m).
Proof.
  induction m as [|[x w] m IH]; cbn [kget increasing_keys In]; [split; [discriminate|tauto]|]. intros (H1 & H2).
  destruct (N.eqb_spec k x) as [->|N].
  - split; [intros E; left; congruence|]. intros [E|E]; [congruence|].
    rewrite Forall_forall in H1. apply H1 in E. cbn [fst] in E. lia.
  - rewrite IH by auto. split; auto. intros [E|E]; auto. congruence.
Qed.

(** * Last value *)
Lemma last_such_nil f : last_such f [] = None. Proof. reflexivity. Qed.
Lemma last_such_snoc f l t : last_such f (l ++ [t]) = if f t then Some (t_value t) else last_such f l.
Proof. unfold last_such. rewrite rev_app_distr. cbn [rev app find]. destruct (f t); reflexivity. Qed.

(** * The attribute *)
Inductive slot := SNode | SLink | SPrefix | SUnknown.
Definition slot_of (k : N) : slot :=
  if existsb (N.eqb k) node_types then SNode else if existsb (N.eqb k) link_types then SLink
  else if existsb (N.eqb k) prefix_types then SPrefix else SUnknown.
Definition filed (a : ls_attr) (t : tlv) : ls_attr :=
  match slot_of (t_type t) with
  | SNode => add_node a (t_type t) (t_value t)
  | SLink => add_link a (t_type t) (t_value t)
  | SPrefix => add_prefix a (t_type t) (t_value t)
  | SUnknown => add_unknown a t
  end.
(** The range tests of the code and the lists of the specification agree: by
    enumeration between 1024 and 1174, outside it neither matches. *)
Definition class_code (n : N) : slot :=
  if (1024 <=? n) && (n <=? 1039) then if node_attr_of n =? 0 then SUnknown else SNode
  else if (1088 <=? n) && (n <=? 1103) then if link_attr_of n =? 0 then SUnknown else SLink
  else if ((1114 <=? n) && (n <=? 1120)) || (n =? 1122) then if link_attr_of n =? 0 then SUnknown else SLink
  else if n =? 1172 then if link_attr_of n =? 0 then SUnknown else SLink
  else if ((1152 <=? n) && (n <=? 1163)) || ((1170 <=? n) && (n <=? 1171)) || (n =? 1174) then
    if prefix_attr_of n =? 0 then SUnknown else SPrefix
  else SUnknown.
Lemma existsb_eqb k l : existsb (N.eqb k) l = true <-> In k l.
Proof.
  rewrite existsb_exists. split.
  - intros (x & H & E). apply N.eqb_eq in E. congruence.
  - intros H. exists k. split; auto. apply N.eqb_refl.
Qed.
Lemma existsb_out k l : Forall (fun x => x <> k) l -> existsb (N.eqb k) l = false.
Proof.
  induction 1 as [|x l H F IH]; [reflexivity|]. cbn [existsb]. rewrite IH.
  destruct (N.eqb_spec k x); [congruence|reflexivity].
Qed.
Lemma types_range : Forall (fun x => 1024 <= x <= 1174) (node_types ++ link_types ++ prefix_types).
Proof. repeat constructor; discriminate. Qed.
Lemma slot_of_out k : ~ (1024 <= k <= 1174) -> slot_of k = SUnknown.
Proof.
  intros H. pose proof types_range as R. rewrite !Forall_app in R. destruct R as (R1 & R2 & R3).
  unfold slot_of. rewrite !existsb_out; auto; (eapply Forall_impl; [|eassumption]); cbn; intros; lia.
Qed.
Definition slot_eqb (a b : slot) : bool :=
  match a, b with SNode, SNode | SLink, SLink | SPrefix, SPrefix | SUnknown, SUnknown => true | _, _ => false end.
Lemma slot_eqb_eq a b : slot_eqb a b = true -> a = b.
Proof. destruct a, b; cbn; congruence. Qed.
Lemma class_in : forallb (fun i => slot_eqb (class_code (1024 + N.of_nat i)) (slot_of (1024 + N.of_nat i))) (seq 0 151) = true.
Proof. vm_compute. reflexivity. Qed.
Lemma class_slot n : class_code n = slot_of n.
Proof.
  destruct (N.le_gt_cases 1024 n) as [L|L]; [destruct (N.le_gt_cases n 1174) as [L'|L']|].
  - pose proof class_in as C. rewrite forallb_forall in C. specialize (C (N.to_nat (n - 1024))).
    assert (In (N.to_nat (n - 1024)) (seq 0 151)) by (apply in_seq; lia). apply C in H.
    apply slot_eqb_eq in H. replace (1024 + N.of_nat (N.to_nat (n - 1024))) with n in H by lia. exact H.
  - rewrite slot_of_out by lia. unfold class_code.
    repeat match goal with |- context [if ?b then _ else _] => destruct b eqn:?; try lia; auto end.
  - rewrite slot_of_out by lia. unfold class_code.
    repeat match goal with |- context [if ?b then _ else _] => destruct b eqn:?; try lia; auto end.
Qed.
Lemma attr_of_self n : (node_attr_of n = 0 \/ node_attr_of n = n) /\ (link_attr_of n = 0 \/ link_attr_of n = n) /\
  (prefix_attr_of n = 0 \/ prefix_attr_of n = n).
Proof.
  unfold node_attr_of, link_attr_of, prefix_attr_of.
  repeat match goal with |- context [if ?b then n else 0] => destruct b end; auto.
Qed.
Lemma add_ls_filed a t : add_ls_tlv a t = filed a t.
Proof.
  unfold filed. rewrite <- class_slot. unfold add_ls_tlv, class_code. cbv zeta.
  destruct (attr_of_self (t_type t)) as (A & B & C).
  destruct ((1024 <=? t_type t) && (t_type t <=? 1039)).
  { destruct (N.eqb_spec (node_attr_of (t_type t)) 0); [auto|]. destruct A as [A|A]; [congruence|]. rewrite A. auto. }
  destruct ((1088 <=? t_type t) && (t_type t <=? 1103)).
  { destruct (N.eqb_spec (link_attr_of (t_type t)) 0); [auto|]. destruct B as [B|B]; [congruence|]. rewrite B. auto. }
  destruct ((1114 <=? t_type t) && (t_type t <=? 1120) || (t_type t =? 1122)).
  { destruct (N.eqb_spec (link_attr_of (t_type t)) 0); [auto|]. destruct B as [B|B]; [congruence|]. rewrite B. auto. }
  destruct (t_type t =? 1172).
  { destruct (N.eqb_spec (link_attr_of (t_type t)) 0); [auto|]. destruct B as [B|B]; [congruence|]. rewrite B. auto. }
  destruct ((1152 <=? t_type t) && (t_type t <=? 1163) || (1170 <=? t_type t) && (t_type t <=? 1171) || (t_type t =? 1174)).
  { destruct (N.eqb_spec (prefix_attr_of (t_type t)) 0); [auto|]. destruct C as [C|C]; [congruence|]. rewrite C. auto. }
  reflexivity.
Qed.
Lemma recognised_slot k : recognised k = match slot_of k with SUnknown => false | _ => true end.
Proof.
  unfold recognised, slot_of. rewrite !existsb_app.
  destruct (existsb (N.eqb k) node_types), (existsb (N.eqb k) link_types), (existsb (N.eqb k) prefix_types); reflexivity.
Qed.
(** The three lists are disjoint. *)
Lemma slot_node k : In k node_types <-> slot_of k = SNode.
Proof.
  unfold slot_of. rewrite <- existsb_eqb. destruct (existsb (N.eqb k) node_types); split; try congruence.
  destruct (existsb _ _); [|destruct (existsb _ _)]; discriminate.
Qed.
Lemma disjoint_types : forallb (fun k => match slot_of k with SLink => true | _ => false end) link_types &&
  forallb (fun k => match slot_of k with SPrefix => true | _ => false end) prefix_types = true.
Proof. vm_compute. reflexivity. Qed.
Lemma slot_link k : In k link_types <-> slot_of k = SLink.
Proof.
  split.
  - intros H. pose proof disjoint_types as D. apply andb_true_iff in D as [D _]. rewrite forallb_forall in D.
    apply D in H. destruct (slot_of k); congruence.
  - unfold slot_of. rewrite <- existsb_eqb. destruct (existsb (N.eqb k) node_types); [discriminate|].
    destruct (existsb _ link_types); [auto|]. destruct (existsb _ _); discriminate.
Qed.
Lemma slot_prefix k : In k prefix_types <-> slot_of k = SPrefix.
Proof.
  split.
  - intros H. pose proof disjoint_types as D. apply andb_true_iff in D as [_ D]. rewrite forallb_forall in D.
    apply D in H. destruct (slot_of k); congruence.
  - unfold slot_of. rewrite <- existsb_eqb. destruct (existsb (N.eqb k) node_types); [discriminate|].
    destruct (existsb _ link_types); [discriminate|]. destruct (existsb _ prefix_types); congruence.
Qed.

Lemma in_dec_slot k l : (if existsb (N.eqb k) l then True else False) <-> In k l.
Proof. rewrite <- existsb_eqb. destruct (existsb _ l); split; auto; try tauto; discriminate. Qed.

Lemma kget_step k t (types : list N) (m : kmap) l (b : bool) :
  (b = true <-> In (t_type t) types) ->
  kget k m = (if existsb (N.eqb k) types then last_value k l else None) ->
  kget k (if b then kinsert (t_type t) (t_value t) m else m) =
  (if existsb (N.eqb k) types then last_value k (l ++ [t]) else None).
Proof.
  intros Hb E. unfold last_value. rewrite last_such_snoc. fold (last_value k l).
  destruct b.
  - rewrite kget_insert, E. destruct (N.eqb_spec k (t_type t)) as [->|N].
    + rewrite N.eqb_refl. destruct (existsb (N.eqb (t_type t)) types) eqn:X; [reflexivity|].
      assert (In (t_type t) types) as HI by (apply Hb; auto). apply existsb_eqb in HI. congruence.
    + destruct (N.eqb_spec (t_type t) k); [congruence|reflexivity].
  - rewrite E. destruct (existsb (N.eqb k) types) eqn:X; auto.
    destruct (N.eqb_spec (t_type t) k) as [E'|]; [|reflexivity]. subst k.
    apply existsb_eqb in X. apply Hb in X. discriminate.
Qed.
Lemma fold_view l : ls_view l (fold_left add_ls_tlv l ls_empty).
Proof.
  induction l as [|t l IH] using rev_ind.
  - repeat split; cbn [fold_left ls_empty la_node la_link la_prefix la_unknown kget]; auto;
      intros; destruct (existsb _ _); reflexivity.
  - rewrite fold_left_app. cbn [fold_left]. rewrite add_ls_filed.
    destruct (fold_left add_ls_tlv l ls_empty) as [n k p u].
    destruct IH as (I1 & I2 & I3 & G1 & G2 & G3 & U). cbn [la_node la_link la_prefix la_unknown] in *.
    assert (R : filed (LsAttr n k p u) t =
      LsAttr (if slot_eqb (slot_of (t_type t)) SNode then kinsert (t_type t) (t_value t) n else n)
             (if slot_eqb (slot_of (t_type t)) SLink then kinsert (t_type t) (t_value t) k else k)
             (if slot_eqb (slot_of (t_type t)) SPrefix then kinsert (t_type t) (t_value t) p else p)
             (if slot_eqb (slot_of (t_type t)) SUnknown then u ++ [t] else u)).
    { unfold filed. destruct (slot_of (t_type t)); reflexivity. }
    rewrite R. clear R. unfold ls_view. cbn [la_node la_link la_prefix la_unknown].
    split; [apply kinsert_incr_if; auto|].
    split; [apply kinsert_incr_if; auto|].
    split; [apply kinsert_incr_if; auto|].
    split; [|split; [|split]].
    + intros x. apply kget_step; auto. rewrite slot_node. destruct (slot_of (t_type t)); cbn; split; congruence.
    + intros x. apply kget_step; auto. rewrite slot_link. destruct (slot_of (t_type t)); cbn; split; congruence.
    + intros x. apply kget_step; auto. rewrite slot_prefix. destruct (slot_of (t_type t)); cbn; split; congruence.
    + rewrite filter_app. cbn [filter]. rewrite recognised_slot, U.
      destruct (slot_of (t_type t)); cbn [slot_eqb negb]; rewrite ?app_nil_r; reflexivity.
Qed.

Lemma read_ls_tlv_ok t r : tlv_ok 2 2 t -> read_ls_tlv (tlv_wire 2 2 t ++ r) = Ok (t, r).
Proof.
  intros (Ht & Hn & Hv). destruct t as [t v]. cbn [t_type t_value] in *. unfold read_ls_tlv, tlv_wire.
  cbn [t_type t_value]. rewrite <- !app_assoc.
  rewrite (bind_ok _ _ _ _ _ (read_be_be 2 t _ Ht)). rewrite (bind_ok _ _ _ _ _ (read_be_be 2 _ _ Hn)).
  rewrite to_nat_nlen, need_bind by (rewrite app_length; lia). rstep. reflexivity.
Qed.
Lemma read_ls_tlv_inv s t r : read_ls_tlv s = Ok (t, r) -> bytes_ok s -> s = tlv_wire 2 2 t ++ r /\ tlv_ok 2 2 t.
Proof.
  intros H Hs. unfold read_ls_tlv in H. pstep H. pstep H.
  apply bind_inv in H as (u & s2 & Hn & H). apply need_inv in Hn as (-> & Hn). pstep H.
  apply ret_inv in H as [<- <-]. unfold tlv_wire, tlv_ok. cbn [t_type t_value]. rewrite Hb1, <- !app_assoc. auto.
Qed.
Lemma ls_tlvs_iff s l : bytes_ok s -> (many_min 4 (length s) read_ls_tlv s = Ok l <->
  exists t, s = flat_map (tlv_wire 2 2) l ++ t /\ (length t < 4)%nat /\ Forall (tlv_ok 2 2) l).
Proof.
  intros Hs. rewrite (many_min_iff 4 read_ls_tlv (tlv_wire 2 2) (fun x => x) (tlv_ok 2 2)); auto using Nat.lt_0_succ.
  - split.
    + intros (x & t & -> & Ht & F & E). rewrite map_id in E. subst x. eauto.
    + intros (t & -> & Ht & F). exists l, t. rewrite map_id. auto.
  - intros; apply read_ls_tlv_ok; auto.
  - intros s' b r H Ho. destruct (read_ls_tlv_inv _ _ _ H Ho). eauto.
  - intros a _. rewrite tlv_wire_length. lia.
Qed.
Lemma ls_parse_iff s a : bytes_ok s -> (parse_link_state s = Ok a <->
  exists l t, s = flat_map (tlv_wire 2 2) l ++ t /\ (length t < 4)%nat /\ Forall (tlv_ok 2 2) l /\ ls_view l a).
Proof.
  intros Hs. unfold parse_link_state. split.
  - intros H. apply rbind_inv in H as (l & H & E). injection E as <-.
    apply (proj1 (ls_tlvs_iff s l Hs)) in H as (t & E & Ht & F). exists l, t. auto using fold_view.
  - intros (l & t & E & Ht & F & V). rewrite (proj2 (ls_tlvs_iff s l Hs)) by eauto. cbn [rbind]. f_equal.
    destruct (fold_view l) as (I1 & I2 & I3 & G1 & G2 & G3 & U). destruct V as (J1 & J2 & J3 & K1 & K2 & K3 & W).
    destruct (fold_left add_ls_tlv l ls_empty) as [n k p u], a as [n' k' p' u'].
    cbn [la_node la_link la_prefix la_unknown] in *. f_equal.
    + apply incr_ext; auto. intros x. rewrite G1, K1. auto.
    + apply incr_ext; auto. intros x. rewrite G2, K2. auto.
    + apply incr_ext; auto. intros x. rewrite G3, K3. auto.
    + congruence.
Qed.
Lemma npp_read_ls_tlv : npp read_ls_tlv.
Proof.
  repeat (apply npp_bind; [apply npp_read_be|]; intros). apply npp_bind; [apply npp_need|]. intros _.
  apply npp_bind; [apply npp_read_n_bytes|]. intros. apply npp_ret.
Qed.
Lemma read_ls_tlv_len s t r : read_ls_tlv s = Ok (t, r) -> (length r < length s)%nat.
Proof.
  intros H. unfold read_ls_tlv in H.
  apply bind_inv in H as (t' & s1 & H1 & H). apply read_be_len in H1.
  apply bind_inv in H as (n & s2 & H2 & H). apply read_be_len in H2.
  apply bind_inv in H as (u' & s3 & Hn2 & H). apply need_inv in Hn2 as (-> & Hn2).
  apply bind_inv in H as (v & s3 & Hv & H). apply read_n_bytes_inv in Hv as (-> & Hv).
  apply ret_inv in H as [_ <-]. rewrite app_length in *. lia.
Qed.
Lemma ls_parse_np s : np (parse_link_state s).
Proof.
  unfold parse_link_state. apply np_rbind; [|intros; discriminate].
  apply many_min_np; auto using npp_read_ls_tlv, Nat.lt_0_succ. apply read_ls_tlv_len.
Qed.

(** Encoding, in any iteration order. *)
Lemma entries_app a b : entries (a ++ b) = entries a ++ entries b. Proof. apply map_app. Qed.
Lemma last_value_app k a b : last_value k (a ++ b) = match last_value k b with Some v => Some v | None => last_value k a end.
Proof.
  unfold last_value. induction b as [|t b IH] using rev_ind.
  - rewrite app_nil_r. reflexivity.
  - rewrite app_assoc, !last_such_snoc. destruct (t_type t =? k); auto.
Qed.
Lemma last_value_absent k l : (forall t, In t l -> t_type t <> k) -> last_value k l = None.
Proof.
  induction l as [|t l IH] using rev_ind; [reflexivity|]. intros H. unfold last_value. rewrite last_such_snoc.
  destruct (N.eqb_spec (t_type t) k) as [E|E]; [exfalso; apply (H t); auto using in_or_app, in_eq|].
  apply IH. intros; apply H; auto using in_or_app.
Qed.
Lemma in_entries t m : In t (entries m) <-> In (t_type t, t_value t) m.
Proof.
  unfold entries. rewrite in_map_iff. split.
  - intros ([k v] & <- & H). exact H.
  - intros H. exists (t_type t, t_value t). split; auto. destruct t; reflexivity.
Qed.
Lemma last_value_some k l v : last_value k l = Some v -> exists t, In t l /\ t_type t = k /\ t_value t = v.
Proof.
  unfold last_value, last_such. destruct (find _ (rev l)) as [t|] eqn:E; [|discriminate].
  intros H. injection H as <-. apply find_some in E as [H E]. exists t. rewrite <- in_rev in H. split; auto. split; auto. lia.
Qed.
Lemma last_value_in k l t : In t l -> t_type t = k -> exists v, last_value k l = Some v.
Proof.
  intros H E. unfold last_value, last_such. destruct (find (fun t0 => t_type t0 =? k) (rev l)) eqn:F; [cbn; eauto|].
  exfalso. rewrite in_rev in H. eapply find_none in F; eauto. cbn in F. lia.
Qed.
Lemma last_value_perm k m m' : increasing_keys m -> Permutation m' m -> last_value k (entries m') = kget k m.
Proof.
  intros Hi Hp. destruct (kget k m) as [v|] eqn:E.
  - apply kget_in in E; auto. apply Permutation_sym in Hp. eapply Permutation_in in E; [|exact Hp].
    destruct (last_value_in k (entries m') (Tlv k v)) as (w & Hw); [apply in_entries; auto|reflexivity|].
    rewrite Hw. f_equal. apply last_value_some in Hw as (t & H1 & H2 & H3). apply in_entries in H1.
    eapply Permutation_in in H1; [|apply Permutation_sym, Hp]. eapply Permutation_in in E; [|apply Permutation_sym, Hp].
    rewrite H2, H3 in H1. apply kget_in in H1; auto. apply kget_in in E; auto. congruence.
  - apply last_value_absent. intros t H1 H2. apply in_entries in H1. eapply Permutation_in in H1; [|exact Hp].
    rewrite H2 in H1. apply kget_in in H1; auto. congruence.
Qed.
Lemma map_ok_slot types m m' t : map_ok types m -> Permutation m' m -> In t (entries m') ->
  In (t_type t) types /\ nlen (t_value t) < 65536 /\ bytes_ok (t_value t).
Proof.
  intros (_ & F) Hp H. apply in_entries in H. eapply Permutation_in in H; [|exact Hp].
  rewrite Forall_forall in F. apply F in H. exact H.
Qed.
Lemma filter_none {A} (f : A -> bool) l : (forall x, In x l -> f x = false) -> filter f l = [].
Proof.
  induction l as [|a l IH]; cbn [filter]; auto. intros H. rewrite (H a) by (left; auto). apply IH. intros; apply H; right; auto.
Qed.
Lemma filter_all {A} (f : A -> bool) l : (forall x, In x l -> f x = true) -> filter f l = l.
Proof.
  induction l as [|a l IH]; cbn [filter]; auto. intros H. rewrite (H a) by (left; auto). f_equal. apply IH. intros; apply H; right; auto.
Qed.
Lemma slot_recognised k : slot_of k <> SUnknown -> recognised k = true.
Proof. rewrite recognised_slot. destruct (slot_of k); congruence. Qed.
Lemma kget_types types m k : map_ok types m -> kget k m <> None -> In k types.
Proof.
  intros (I & F) H. destruct (kget k m) as [v|] eqn:E; [|congruence]. apply kget_in in E; auto.
  rewrite Forall_forall in F. apply F in E. apply E.
Qed.
Lemma kget_if types m k : map_ok types m -> kget k m = if existsb (N.eqb k) types then kget k m else None.
Proof.
  intros H. destruct (existsb (N.eqb k) types) eqn:E; auto. destruct (kget k m) eqn:G; auto. exfalso.
  assert (In k types) by (eapply kget_types; eauto; congruence). apply existsb_eqb in H0. congruence.
Qed.
Lemma ls_roundtrip a ns ls ps : ls_ok a ->
  Permutation ns (la_node a) -> Permutation ls (la_link a) -> Permutation ps (la_prefix a) ->
  exists b, encode_link_state_in ns ls ps a = Ok b /\ parse_link_state b = Ok a.
Proof.
  intros (Hn & Hl & Hp & Hu) Pn Pl Pp.
  set (l := entries ns ++ entries ls ++ entries ps ++ la_unknown a).
  assert (SN : forall t, In t (entries ns) -> slot_of (t_type t) = SNode).
  { intros t H. apply slot_node. apply (map_ok_slot _ _ _ _ Hn Pn H). }
  assert (SL : forall t, In t (entries ls) -> slot_of (t_type t) = SLink).
  { intros t H. apply slot_link. apply (map_ok_slot _ _ _ _ Hl Pl H). }
  assert (SP : forall t, In t (entries ps) -> slot_of (t_type t) = SPrefix).
  { intros t H. apply slot_prefix. apply (map_ok_slot _ _ _ _ Hp Pp H). }
  assert (SU : forall t, In t (la_unknown a) -> slot_of (t_type t) = SUnknown).
  { intros t H. rewrite Forall_forall in Hu. apply Hu in H as (_ & H). rewrite recognised_slot in H.
    destruct (slot_of (t_type t)); congruence. }
  assert (SB : forall k, slot_of k <> SUnknown -> k < 65536).
  { intros k H. destruct (N.lt_ge_cases k 65536); auto. contradict H. apply slot_of_out. lia. }
  assert (F : Forall (tlv_ok 2 2) l).
  { apply Forall_forall. intros t H. unfold l in H. rewrite !in_app_iff in H.
    destruct H as [H|[H|[H|H]]].
    - pose proof (SN t H). split; [apply SB; congruence|]. apply (map_ok_slot _ _ _ _ Hn Pn H).
    - pose proof (SL t H). split; [apply SB; congruence|]. apply (map_ok_slot _ _ _ _ Hl Pl H).
    - pose proof (SP t H). split; [apply SB; congruence|]. apply (map_ok_slot _ _ _ _ Hp Pp H).
    - rewrite Forall_forall in Hu. apply Hu in H. apply H. }
  exists (flat_map (tlv_wire 2 2) l). split.
  - apply encode_tlvs_iff. split; auto. eapply tlv_ok_fit; eauto.
  - apply ls_parse_iff; [apply flat_map_wire_ok; auto|]. exists l, []. rewrite app_nil_r.
    split; auto. split; [cbn; lia|]. split; auto.
    assert (LU : forall k, slot_of k <> SUnknown -> last_value k (la_unknown a) = None).
    { intros k H. apply last_value_absent. intros t Ht E. apply SU in Ht. congruence. }
    unfold ls_view, l. split; [apply Hn|]. split; [apply Hl|]. split; [apply Hp|].
    split; [|split; [|split]].
    + intros k. rewrite (kget_if node_types _ _ Hn). destruct (existsb (N.eqb k) node_types) eqn:E; auto.
      apply existsb_eqb in E. apply slot_node in E. rewrite !last_value_app, LU by congruence.
      rewrite (last_value_absent k (entries ps)) by (intros t H H'; apply SP in H; congruence).
      rewrite (last_value_absent k (entries ls)) by (intros t H H'; apply SL in H; congruence).
      rewrite (last_value_perm k (la_node a)); auto. apply Hn.
    + intros k. rewrite (kget_if link_types _ _ Hl). destruct (existsb (N.eqb k) link_types) eqn:E; auto.
      apply existsb_eqb in E. apply slot_link in E. rewrite !last_value_app, LU by congruence.
      rewrite (last_value_absent k (entries ps)) by (intros t H H'; apply SP in H; congruence).
      rewrite (last_value_absent k (entries ns)) by (intros t H H'; apply SN in H; congruence).
      rewrite (last_value_perm k (la_link a)); auto; [|apply Hl]. destruct (kget k (la_link a)); auto.
    + intros k. rewrite (kget_if prefix_types _ _ Hp). destruct (existsb (N.eqb k) prefix_types) eqn:E; auto.
      apply existsb_eqb in E. apply slot_prefix in E. rewrite !last_value_app, LU by congruence.
      rewrite (last_value_absent k (entries ls)) by (intros t H H'; apply SL in H; congruence).
      rewrite (last_value_absent k (entries ns)) by (intros t H H'; apply SN in H; congruence).
      rewrite (last_value_perm k (la_prefix a)); auto; [|apply Hp]. destruct (kget k (la_prefix a)); auto.
    + rewrite !filter_app.
      rewrite (filter_none _ (entries ns)) by (intros t H; rewrite slot_recognised; [auto|apply SN in H; congruence]).
      rewrite (filter_none _ (entries ls)) by (intros t H; rewrite slot_recognised; [auto|apply SL in H; congruence]).
      rewrite (filter_none _ (entries ps)) by (intros t H; rewrite slot_recognised; [auto|apply SP in H; congruence]).
      rewrite filter_all; auto. intros t H. apply SU in H. rewrite recognised_slot, H. reflexivity.
Qed.

(** * Descriptors *)
Lemma desc_tlvs_ok ts t fuel : Forall (tlv_ok 2 2) ts -> cut t ->
  (length (flat_map (tlv_wire 2 2) ts ++ t) <= fuel)%nat ->
  desc_tlvs fuel (flat_map (tlv_wire 2 2) ts ++ t) = Ok ts.
Proof.
  intros F Hc. revert fuel. induction F as [|x ts Hx F IH]; intros fuel Hf.
  - cbn [flat_map app] in *. destruct Hc as [Hc|(ty & n & r & -> & H1 & H2 & H3)].
    + destruct fuel; cbn [desc_tlvs]; destruct (Nat.ltb_spec (length t) 4); auto; lia.
    + rewrite !app_length, !be_length in Hf. destruct fuel; [lia|]. cbn [desc_tlvs].
      destruct (Nat.ltb_spec (length (be 2 ty ++ be 2 n ++ r)) 4) as [L|L]; auto.
      assert (R : (t <- read_u16 ;; n <- read_u16 ;; ret (t, n)) (be 2 ty ++ be 2 n ++ r) = Ok ((ty, n), r)).
      { rstep. rstep. reflexivity. }
      rewrite R. cbn [rbind fst snd]. destruct (N.ltb_spec (nlen r) n); [reflexivity|lia].
  - cbn [flat_map] in *. rewrite <- app_assoc in *. rewrite app_length, tlv_wire_length in Hf.
    destruct fuel; [lia|]. cbn [desc_tlvs].
    destruct (Nat.ltb_spec (length (tlv_wire 2 2 x ++ flat_map (tlv_wire 2 2) ts ++ t)) 4) as [L|L].
    { rewrite app_length, tlv_wire_length in L. lia. }
    destruct x as [ty v]. destruct Hx as (H1 & H2 & H3). cbn [t_type t_value] in *. lits.
    set (rest := flat_map (tlv_wire 2 2) ts ++ t) in *.
    assert (R : (t <- read_u16 ;; n <- read_u16 ;; ret (t, n)) (tlv_wire 2 2 (Tlv ty v) ++ rest) = Ok ((ty, nlen v), v ++ rest)).
    { unfold tlv_wire. cbn [t_type t_value]. rstep. rstep. reflexivity. }
    rewrite R. cbn [rbind fst snd]. rewrite nlen_app. destruct (N.ltb_spec (nlen v + nlen rest) (nlen v)); [lia|].
    rewrite to_nat_nlen, split_to_app by reflexivity. cbn [rbind]. rewrite IH by lia. reflexivity.
Qed.
Lemma desc_tlvs_total fuel : forall s, bytes_ok s -> (length s <= fuel)%nat ->
  exists ts t, s = flat_map (tlv_wire 2 2) ts ++ t /\ Forall (tlv_ok 2 2) ts /\ cut t.
Proof.
  induction fuel; intros s Hs Hf.
  - exists [], s. repeat split; auto. left. lia.
  - destruct (Nat.lt_ge_cases (length s) 4) as [L|L]; [exists [], s; repeat split; auto; left; auto|].
    destruct (splitn 4 s) as [[h r]|] eqn:E; [|apply splitn_none in E; lia].
    apply splitn_some in E as [-> Eh]. do 4 (destruct h as [|? h]; try discriminate Eh). destruct h; [|discriminate].
    clear Eh L. apply bytes_ok_app in Hs as [Hh Hr].
    assert (E1 : [n; n0; n1; n2] = be 2 (be_val [n; n0]) ++ be 2 (be_val [n1; n2])).
    { change [n; n0; n1; n2] with ([n; n0] ++ [n1; n2]) in *. apply bytes_ok_app in Hh as [Ha Hb].
      pose proof (be_be_val _ Ha) as X. pose proof (be_be_val _ Hb) as Y. cbn [length] in X, Y. rewrite X, Y. reflexivity. }
    change [n; n0; n1; n2] with ([n; n0] ++ [n1; n2]) in Hh. apply bytes_ok_app in Hh as [Ha Hb].
    pose proof (be_val_bound _ Ha) as Ba. pose proof (be_val_bound _ Hb) as Bb. cbn [length] in Ba, Bb. lits.
    set (ty := be_val [n; n0]) in *. set (k := be_val [n1; n2]) in *.
    destruct (N.lt_ge_cases (nlen r) k) as [L|L].
    + exists [], ([n; n0; n1; n2] ++ r). repeat split; auto. right. exists ty, k, r. rewrite E1, <- app_assoc. auto.
    + rewrite app_length in Hf. cbn [length] in Hf.
      assert (L' : (N.to_nat k <= length r)%nat) by (unfold nlen in L; lia).
      destruct (splitn (N.to_nat k) r) as [[v r']|] eqn:S; [|apply splitn_none in S; lia]. clear L L'.
      apply splitn_some in S as [-> Ev]. apply bytes_ok_app in Hr as [Hv Hr]. rewrite app_length in Hf.
      destruct (IHfuel r' Hr ltac:(lia)) as (ts & t & -> & F & C).
      exists (Tlv ty v :: ts), t. cbn [flat_map]. split; [|split; auto].
      * assert (W : tlv_wire 2 2 (Tlv ty v) = be 2 ty ++ be 2 k ++ v).
        { unfold tlv_wire. cbn [t_type t_value]. replace (nlen v) with k by (unfold nlen; lia). reflexivity. }
        rewrite W, E1, <- !app_assoc. reflexivity.
      * constructor; auto. unfold tlv_ok. cbn [t_type t_value]. repeat split; auto. unfold nlen. lits.
        change (N.of_nat (length v) < 65536). lia.
Qed.
Lemma desc_tlvs_np fuel : forall s, (length s <= fuel)%nat -> np (desc_tlvs fuel s).
Proof.
  induction fuel; intros s Hf; cbn [desc_tlvs]; destruct (Nat.ltb_spec (length s) 4); try discriminate; [lia|].
  apply np_rbind.
  - apply npp_bind; [apply npp_read_be|]. intros. apply npp_bind; [apply npp_read_be|]. intros. apply npp_ret.
  - intros [[t n] r] E. apply bind_inv in E as (a & s1 & E1 & E). apply bind_inv in E as (b & s2 & E2 & E).
    apply ret_inv in E as [E <-]. injection E as -> ->. apply read_be_len in E1, E2. cbn [fst snd].
    destruct (N.ltb_spec (nlen s2) n); [discriminate|]. apply np_rbind.
    + apply np_split_to. unfold nlen in *. lia.
    + intros [v r'] E. apply split_to_inv in E as [-> E]. rewrite app_length in *. apply np_rbind.
      * apply IHfuel. lia.
      * intros; discriminate.
Qed.
Lemma npp_read_desc {D} (add : D -> tlv -> D) e : npp (read_desc add e).
Proof.
  unfold read_desc. apply npp_bind; [apply npp_remaining|]. intros k. destruct (k <? 2)%nat; [apply npp_ret|].
  apply npp_bind; [apply npp_read_be|]. intros n. apply npp_bind; [apply npp_need|]. intros _.
  apply npp_bind; [apply npp_read_n_bytes|]. intros d. apply npp_bind; [apply npp_lift, desc_tlvs_np; auto|].
  intros. apply npp_ret.
Qed.
Lemma read_desc_ok {D} (add : D -> tlv -> D) e ts t r :
  Forall (tlv_ok 2 2) ts -> cut t -> nlen (flat_map (tlv_wire 2 2) ts ++ t) < 65536 ->
  read_desc add e (be 2 (nlen (flat_map (tlv_wire 2 2) ts ++ t)) ++ (flat_map (tlv_wire 2 2) ts ++ t) ++ r) =
  Ok (fold_left add ts e, r).
Proof.
  intros F C L. set (d := flat_map (tlv_wire 2 2) ts ++ t) in *. unfold read_desc.
  assert (R : remaining (be 2 (nlen d) ++ d ++ r) = Ok (length (be 2 (nlen d) ++ d ++ r), be 2 (nlen d) ++ d ++ r)) by reflexivity.
  rewrite (bind_ok _ _ _ _ _ R). destruct (Nat.ltb_spec (length (be 2 (nlen d) ++ d ++ r)) 2) as [B|B].
  { rewrite app_length, be_length in B. lia. }
  rstep. rewrite to_nat_nlen, need_bind by (rewrite app_length; lia). rstep.
  rewrite (bind_ok _ _ _ ts r); [reflexivity|]. unfold d, lift. rewrite desc_tlvs_ok; auto.
Qed.
Lemma np_single ty d : np (parse_single_ls ty d).
Proof.
  unfold parse_single_ls. cbv zeta. apply np_run. apply np_need_bind. intros _.
  apply npp_bind; [apply npp_read_be|]. intros p. apply npp_bind; [apply npp_read_be|]. intros i.
  destruct (nlri_type_of ty =? 2).
  - apply npp_bind; [apply npp_read_desc|]. intros. apply npp_bind; [apply npp_read_desc|]. intros.
    apply npp_bind; [apply npp_read_desc|]. intros. apply npp_ret.
  - destruct ((nlri_type_of ty =? 3) || (nlri_type_of ty =? 4)).
    + apply npp_bind; [apply npp_read_desc|]. intros. apply npp_bind; [apply npp_read_desc|]. intros. apply npp_ret.
    + apply npp_bind; [apply npp_read_desc|]. intros. apply npp_ret.
Qed.
Lemma npp_read_ls_nlri : npp read_ls_nlri.
Proof.
  repeat (apply npp_bind; [apply npp_read_be|]; intros). apply npp_bind; [apply npp_need|]. intros _.
  apply npp_bind; [apply npp_read_n_bytes|]. intros d. apply npp_lift, np_single.
Qed.
Lemma read_ls_nlri_len s t r : read_ls_nlri s = Ok (t, r) -> (length r < length s)%nat.
Proof.
  intros H. unfold read_ls_nlri in H.
  apply bind_inv in H as (t' & s1 & H1 & H). apply read_be_len in H1.
  apply bind_inv in H as (n & s2 & H2 & H). apply read_be_len in H2.
  apply bind_inv in H as (u' & s3 & Hn2 & H). apply need_inv in Hn2 as (-> & Hn2).
  apply bind_inv in H as (v & s3 & Hv & H). apply read_n_bytes_inv in Hv as (-> & Hv).
  apply lift_inv in H as [_ <-]. rewrite app_length in *. lia.
Qed.
Lemma ls_nlris_np s : np (parse_ls_nlris s).
Proof. apply many_min_np; auto using npp_read_ls_nlri, Nat.lt_0_succ. apply read_ls_nlri_len. Qed.
(** Framing of the NLRI list. *)
Lemma ls_nlris_ok ts ns t : Forall (tlv_ok 2 2) ts -> (length t < 4)%nat ->
  Forall2 (fun x n => parse_single_ls (t_type x) (t_value x) = Ok n) ts ns ->
  parse_ls_nlris (flat_map (tlv_wire 2 2) ts ++ t) = Ok ns.
Proof.
  intros F Ht F2. unfold parse_ls_nlris.
  assert (G : forall fuel, (length (flat_map (tlv_wire 2 2) ts ++ t) <= fuel)%nat ->
    many_min 4 fuel read_ls_nlri (flat_map (tlv_wire 2 2) ts ++ t) = Ok ns); [|apply G; auto].
  induction F2 as [|x n ts ns E F2 IH]; intros fuel Hf.
  - cbn [flat_map app]. destruct fuel; cbn [many_min]; destruct (Nat.ltb_spec (length t) 4); auto; lia.
  - inv F. cbn [flat_map] in *. rewrite <- app_assoc in *. rewrite app_length, tlv_wire_length in Hf.
    destruct fuel; [lia|]. cbn [many_min]. set (rest := flat_map (tlv_wire 2 2) ts ++ t) in *.
    destruct (Nat.ltb_spec (length (tlv_wire 2 2 x ++ rest)) 4) as [L|L].
    { rewrite app_length, tlv_wire_length in L. lia. }
    assert (R : read_ls_nlri (tlv_wire 2 2 x ++ rest) = Ok (n, rest)).
    { destruct x as [ty v]. destruct H1 as (A & B & C). cbn [t_type t_value] in *. lits.
      unfold read_ls_nlri, tlv_wire. cbn [t_type t_value]. rstep. rstep.
      rewrite to_nat_nlen, need_bind by (rewrite app_length; lia). rstep. unfold lift. rewrite E. reflexivity. }
    rewrite R. cbn [rbind]. rewrite IH by (auto; lia). reflexivity.
Qed.
Lemma ls_nlris_inv s ns : bytes_ok s -> parse_ls_nlris s = Ok ns ->
  exists ts t, s = flat_map (tlv_wire 2 2) ts ++ t /\ (length t < 4)%nat /\ Forall (tlv_ok 2 2) ts /\
    Forall2 (fun x n => parse_single_ls (t_type x) (t_value x) = Ok n) ts ns.
Proof.
  unfold parse_ls_nlris. remember (length s) as fuel eqn:E. assert (Hf : (length s <= fuel)%nat) by lia. clear E.
  revert s ns Hf. induction fuel; intros s ns Hf Hs H; cbn [many_min] in H;
    destruct (Nat.ltb_spec (length s) 4) as [L|L].
  - injection H as <-. exists [], s. auto.
  - lia.
  - injection H as <-. exists [], s. auto.
  - apply rbind_inv in H as ([n s'] & H & H'). apply rbind_inv in H' as (l' & H' & H''). injection H'' as <-.
    unfold read_ls_nlri in H. pstep H. pstep H.
    apply bind_inv in H as (u & s2 & Hn & H). apply need_inv in Hn as (-> & Hn). pstep H.
    apply lift_inv in H as [H <-]. rewrite !app_length, !be_length in Hf.
    destruct (IHfuel s0 l' ltac:(lia)) as (ts & t & -> & Ht & F & F2); auto.
    exists (Tlv a a1 :: ts), t. split; [|split; [auto|split]].
    + assert (W : tlv_wire 2 2 (Tlv a a1) = be 2 a ++ be 2 a0 ++ a1).
      { unfold tlv_wire. cbn [t_type t_value]. rewrite Hb1. reflexivity. }
      cbn [flat_map]. rewrite W, <- !app_assoc. reflexivity.
    + constructor; auto. repeat split; cbn [t_type t_value]; auto. rewrite Hb1. auto.
    + constructor; auto.
Qed.

(** What the descriptors hold: the last sub-TLV of each type with the right length. *)
Lemma last_num_snoc k w l t : last_num k w (l ++ [t]) =
  if (t_type t =? k) && (length (t_value t) =? w)%nat then Some (be_val (t_value t)) else last_num k w l.
Proof. unfold last_num. rewrite last_such_snoc. destruct (_ && _); reflexivity. Qed.
Definition known_node (k : N) : bool := (512 <=? k) && (k <=? 515).
Lemma node_desc_view l : let d := fold_left add_node_desc l (NodeDesc None None None None []) in
  nd_as d = last_num 512 4 l /\ nd_ls_id d = last_num 513 4 l /\ nd_area d = last_num 514 4 l /\
  nd_router d = last_value 515 l /\
  nd_unknown d = filter (fun t => negb ((512 <=? t_type t) && (t_type t <=? 515))) l.
Proof.
  induction l as [|t l IH] using rev_ind; [repeat split|]. cbv zeta in *. rewrite fold_left_app. cbn [fold_left].
  rewrite filter_app. cbn [filter]. unfold last_value. rewrite !last_num_snoc, last_such_snoc. fold (last_value 515 l).
  destruct (fold_left add_node_desc l (NodeDesc None None None None [])) as [a b c r u].
  cbn [nd_as nd_ls_id nd_area nd_router nd_unknown] in IH. destruct IH as (I1 & I2 & I3 & I4 & I5).
  unfold add_node_desc. cbv zeta.
  destruct (N.eqb_spec (t_type t) 512) as [->|N1].
  { change (_ =? 513) with false. change (_ =? 514) with false. change (_ =? 515) with false.
    change (negb ((512 <=? 512) && (512 <=? 515))) with false. rewrite app_nil_r. cbn [andb].
    destruct (length (t_value t) =? 4)%nat; cbn [nd_as nd_ls_id nd_area nd_router nd_unknown]; auto. }
  destruct (N.eqb_spec (t_type t) 513) as [->|N2].
  { change (_ =? 514) with false. change (_ =? 515) with false.
    change (negb ((512 <=? 513) && (513 <=? 515))) with false. rewrite app_nil_r. cbn [andb].
    destruct (length (t_value t) =? 4)%nat; cbn [nd_as nd_ls_id nd_area nd_router nd_unknown]; auto. }
  destruct (N.eqb_spec (t_type t) 514) as [->|N3].
  { change (_ =? 515) with false.
    change (negb ((512 <=? 514) && (514 <=? 515))) with false. rewrite app_nil_r. cbn [andb].
    destruct (length (t_value t) =? 4)%nat; cbn [nd_as nd_ls_id nd_area nd_router nd_unknown]; auto. }
  destruct (N.eqb_spec (t_type t) 515) as [->|N4].
  { change (negb ((512 <=? 515) && (515 <=? 515))) with false. rewrite app_nil_r. cbn [andb].
    cbn [nd_as nd_ls_id nd_area nd_router nd_unknown]; auto. }
  assert (X : negb ((512 <=? t_type t) && (t_type t <=? 515)) = true) by lia. rewrite X. cbn [andb].
  cbn [nd_as nd_ls_id nd_area nd_router nd_unknown]. rewrite I5. auto.
Qed.
Lemma link_desc_view l : let d := fold_left add_link_desc l (LinkDesc None None None None None None []) in
  ld_ids d = last_pair 258 l /\ ld_if4 d = last_num 259 4 l /\ ld_nb4 d = last_num 260 4 l /\
  ld_if6 d = last_num 261 16 l /\ ld_nb6 d = last_num 262 16 l /\ ld_mt d = last_num 263 2 l /\
  ld_unknown d = filter (fun t => negb ((258 <=? t_type t) && (t_type t <=? 263))) l.
Proof.
  induction l as [|t l IH] using rev_ind; [repeat split|]. cbv zeta in *. rewrite fold_left_app. cbn [fold_left].
  rewrite filter_app. cbn [filter]. unfold last_pair. rewrite !last_num_snoc, last_such_snoc. fold (last_pair 258 l).
  destruct (fold_left add_link_desc l (LinkDesc None None None None None None [])) as [a b c d e f u].
  cbn [ld_ids ld_if4 ld_nb4 ld_if6 ld_nb6 ld_mt ld_unknown] in IH. destruct IH as (I1 & I2 & I3 & I4 & I5 & I6 & I7).
  unfold add_link_desc. cbv zeta.
  destruct (N.eqb_spec (t_type t) 258) as [->|N1].
  { cbn [N.eqb Pos.eqb N.leb N.compare Pos.compare Pos.compare_cont andb negb]. rewrite app_nil_r.
    destruct (length (t_value t) =? 8)%nat; cbn [ld_ids ld_if4 ld_nb4 ld_if6 ld_nb6 ld_mt ld_unknown]; repeat split; auto. }
  destruct (N.eqb_spec (t_type t) 259) as [->|N2].
  { cbn [N.eqb Pos.eqb N.leb N.compare Pos.compare Pos.compare_cont andb negb]. rewrite app_nil_r.
    destruct (length (t_value t) =? 4)%nat; cbn [ld_ids ld_if4 ld_nb4 ld_if6 ld_nb6 ld_mt ld_unknown]; repeat split; auto. }
  destruct (N.eqb_spec (t_type t) 260) as [->|N3].
  { cbn [N.eqb Pos.eqb N.leb N.compare Pos.compare Pos.compare_cont andb negb]. rewrite app_nil_r.
    destruct (length (t_value t) =? 4)%nat; cbn [ld_ids ld_if4 ld_nb4 ld_if6 ld_nb6 ld_mt ld_unknown]; repeat split; auto. }
  destruct (N.eqb_spec (t_type t) 261) as [->|N4].
  { cbn [N.eqb Pos.eqb N.leb N.compare Pos.compare Pos.compare_cont andb negb]. rewrite app_nil_r.
    destruct (length (t_value t) =? 16)%nat; cbn [ld_ids ld_if4 ld_nb4 ld_if6 ld_nb6 ld_mt ld_unknown]; repeat split; auto. }
  destruct (N.eqb_spec (t_type t) 262) as [->|N5].
  { cbn [N.eqb Pos.eqb N.leb N.compare Pos.compare Pos.compare_cont andb negb]. rewrite app_nil_r.
    destruct (length (t_value t) =? 16)%nat; cbn [ld_ids ld_if4 ld_nb4 ld_if6 ld_nb6 ld_mt ld_unknown]; repeat split; auto. }
  destruct (N.eqb_spec (t_type t) 263) as [->|N6].
  { cbn [N.eqb Pos.eqb N.leb N.compare Pos.compare Pos.compare_cont andb negb]. rewrite app_nil_r.
    destruct (length (t_value t) =? 2)%nat; cbn [ld_ids ld_if4 ld_nb4 ld_if6 ld_nb6 ld_mt ld_unknown]; repeat split; auto. }
  assert (X : negb ((258 <=? t_type t) && (t_type t <=? 263)) = true) by lia. rewrite X. cbn [andb].
  cbn [ld_ids ld_if4 ld_nb4 ld_if6 ld_nb6 ld_mt ld_unknown]. rewrite I7. repeat split; auto.
Qed.
Lemma prefix_desc_view l : let d := fold_left add_prefix_desc l (PrefixDesc None None None []) in
  pd_mt d = last_num 263 2 l /\ pd_ospf d = last_num 264 1 l /\
  pd_unknown d = filter (fun t => negb ((263 <=? t_type t) && (t_type t <=? 265))) l.
Proof.
  induction l as [|t l IH] using rev_ind; [repeat split|]. cbv zeta in *. rewrite fold_left_app. cbn [fold_left].
  rewrite filter_app. cbn [filter]. rewrite !last_num_snoc.
  destruct (fold_left add_prefix_desc l (PrefixDesc None None None [])) as [a b c u].
  cbn [pd_mt pd_ospf pd_reach pd_unknown] in IH. destruct IH as (I1 & I2 & I3).
  unfold add_prefix_desc. cbv zeta.
  destruct (N.eqb_spec (t_type t) 263) as [->|N1].
  { cbn [N.eqb Pos.eqb N.leb N.compare Pos.compare Pos.compare_cont andb negb]. rewrite app_nil_r.
    destruct (length (t_value t) =? 2)%nat; cbn [pd_mt pd_ospf pd_reach pd_unknown]; auto. }
  destruct (N.eqb_spec (t_type t) 264) as [->|N2].
  { cbn [N.eqb Pos.eqb N.leb N.compare Pos.compare Pos.compare_cont andb negb]. rewrite app_nil_r.
    destruct (length (t_value t) =? 1)%nat; cbn [pd_mt pd_ospf pd_reach pd_unknown]; auto. }
  destruct (N.eqb_spec (t_type t) 265) as [->|N3].
  { cbn [N.eqb Pos.eqb N.leb N.compare Pos.compare Pos.compare_cont andb negb]. rewrite app_nil_r.
    destruct (parse_ip_prefix (t_value t)); cbn [pd_mt pd_ospf pd_reach pd_unknown]; auto. }
  assert (X : negb ((263 <=? t_type t) && (t_type t <=? 265)) = true) by lia. rewrite X. cbn [andb].
  cbn [pd_mt pd_ospf pd_reach pd_unknown]. rewrite I3. auto.
Qed.
(** * Whole NLRIs *)
Lemma run_app {A} (p : P A) s x r : p s = Ok (x, r) -> run p s = Ok x.
Proof. intros H. unfold run. rewrite H. reflexivity. Qed.
Lemma single_head (q : N -> N -> P ls_nlri) p i r : p < 256 -> i < 2 ^ 64 ->
  (need 9 ETrunc ;;; p <- read_u8 ;; i <- read_u64 ;; q p i) (be 1 p ++ be 8 i ++ r) = q p i r.
Proof.
  intros Hp Hi. rewrite need_bind by (rewrite !app_length, !be_length; lia). rstep. rstep. reflexivity.
Qed.
Lemma read_desc_wire {D} (add : D -> tlv -> D) e l t r : desc_ok l t ->
  read_desc add e (desc_wire l t ++ r) = Ok (fold_left add l e, r).
Proof. intros (A & B & C). unfold desc_wire. rewrite <- app_assoc. apply read_desc_ok; auto. Qed.
Lemma single_node ty p i l t r : nlri_type_of ty <> 2 -> nlri_type_of ty <> 3 -> nlri_type_of ty <> 4 ->
  p < 256 -> i < 2 ^ 64 -> desc_ok l t ->
  exists d, parse_single_ls ty (be 1 p ++ be 8 i ++ desc_wire l t ++ r) =
    Ok (LsNlri (nlri_type_of ty) (protocol_of p) i d None None None) /\ node_of l d.
Proof.
  intros H1 H2 H3 Hp Hi Hd. eexists. split; [|apply node_desc_view]. unfold parse_single_ls. cbv zeta.
  apply run_app with r. rewrite single_head by auto.
  destruct (N.eqb_spec (nlri_type_of ty) 2); [congruence|]. destruct (N.eqb_spec (nlri_type_of ty) 3); [congruence|].
  destruct (N.eqb_spec (nlri_type_of ty) 4); [congruence|]. cbn [orb].
  unfold read_node_desc.
  rewrite (bind_ok _ _ _ _ _ (read_desc_wire add_node_desc _ _ _ _ Hd)). reflexivity.
Qed.
Lemma single_link p i l t l2 t2 l3 t3 r : p < 256 -> i < 2 ^ 64 -> desc_ok l t -> desc_ok l2 t2 -> desc_ok l3 t3 ->
  exists d e k, parse_single_ls 2 (be 1 p ++ be 8 i ++ desc_wire l t ++ desc_wire l2 t2 ++ desc_wire l3 t3 ++ r) =
    Ok (LsNlri 2 (protocol_of p) i d (Some e) (Some k) None) /\ node_of l d /\ node_of l2 e /\ link_of l3 k.
Proof.
  intros Hp Hi H1 H2 H3. do 3 eexists. split; [|split; [apply node_desc_view|split; [apply node_desc_view|apply link_desc_view]]].
  unfold parse_single_ls. cbv zeta. change (nlri_type_of 2) with 2.
  apply run_app with r. rewrite single_head by auto. change (2 =? 2) with true. cbv iota. unfold read_node_desc, read_link_desc.
  rewrite (bind_ok _ _ _ _ _ (read_desc_wire add_node_desc _ _ _ _ H1)).
  rewrite (bind_ok _ _ _ _ _ (read_desc_wire add_node_desc _ _ _ _ H2)).
  rewrite (bind_ok _ _ _ _ _ (read_desc_wire add_link_desc _ _ _ _ H3)). reflexivity.
Qed.
Lemma single_prefix ty p i l t l2 t2 r : ty = 3 \/ ty = 4 -> p < 256 -> i < 2 ^ 64 -> desc_ok l t -> desc_ok l2 t2 ->
  exists d x, parse_single_ls ty (be 1 p ++ be 8 i ++ desc_wire l t ++ desc_wire l2 t2 ++ r) =
    Ok (LsNlri ty (protocol_of p) i d None None (Some x)) /\ node_of l d /\ prefix_of l2 x.
Proof.
  intros Ht Hp Hi H1 H2. do 2 eexists. split; [|split; [apply node_desc_view|apply prefix_desc_view]].
  unfold parse_single_ls. cbv zeta. apply run_app with r. rewrite single_head by auto.
  unfold read_node_desc, read_prefix_desc. destruct Ht as [-> | ->]; cbn [N.eqb Pos.eqb orb nlri_type_of N.leb N.compare Pos.compare Pos.compare_cont];
  rewrite (bind_ok _ _ _ _ _ (read_desc_wire add_node_desc _ _ _ _ H1));
  rewrite (bind_ok _ _ _ _ _ (read_desc_wire add_prefix_desc _ _ _ _ H2)); reflexivity.
Qed.

(** * Accessors *)
Lemma view_link l a k : ls_view l a -> In k link_types -> kget k (la_link a) = last_value k l.
Proof. intros (_ & _ & _ & _ & G & _) H. rewrite G. apply existsb_eqb in H. rewrite H. reflexivity. Qed.
Lemma view_node l a k : ls_view l a -> In k node_types -> kget k (la_node a) = last_value k l.
Proof. intros (_ & _ & _ & G & _) H. rewrite G. apply existsb_eqb in H. rewrite H. reflexivity. Qed.
Lemma view_prefix l a k : ls_view l a -> In k prefix_types -> kget k (la_prefix a) = last_value k l.
Proof. intros (_ & _ & _ & _ & _ & G & _) H. rewrite G. apply existsb_eqb in H. rewrite H. reflexivity. Qed.
Lemma low24_be x : x < 2 ^ 32 -> low24 (Some x) = Some (x mod 2 ^ 24). Proof. reflexivity. Qed.
Lemma accessors l a : ls_view l a ->
  (forall b r, last_value 1024 l = Some (b :: r) -> get_node_flags a = Some b) /\
  (forall w m, (1 <= w <= 3)%nat -> m < 256 ^ N.of_nat w -> last_value 1095 l = Some (be w m) -> get_igp_metric a = Some m) /\
  (forall m r, m < 2 ^ 32 -> last_value 1088 l = Some (be 4 m ++ r) -> get_admin_group a = Some m) /\
  (forall m r, m < 2 ^ 32 -> last_value 1155 l = Some (be 4 m ++ r) -> get_prefix_metric a = Some m) /\
  (forall f m r, f < 256 -> m < 2 ^ 24 -> last_value 1114 l = Some (be 1 f ++ be 3 m ++ r) -> get_link_delay a = Some m) /\
  (forall f m g n r, f < 256 -> m < 2 ^ 24 -> g < 256 -> n < 2 ^ 24 ->
     last_value 1115 l = Some (be 1 f ++ be 3 m ++ be 1 g ++ be 3 n ++ r) -> get_min_max_delay a = Some (m, n)) /\
  (forall f m r, f < 256 -> m < 2 ^ 24 -> last_value 1116 l = Some (be 1 f ++ be 3 m ++ r) -> get_delay_variation a = Some m).
Proof.
  intros V.
  assert (F4 : forall x r, firstn 4 (be 4 x ++ r) = be 4 x) by (intros x r; exact (firstn_app_len (be 4 x) r)).
  assert (S4 : forall x r, skipn 4 (be 4 x ++ r) = r) by (intros x r; exact (skipn_app_len (be 4 x) r)).
  assert (J : forall f m, f < 256 -> m < 2 ^ 24 -> be 1 f ++ be 3 m = be 4 (f * 2 ^ 24 + m)).
  { intros f m Hf Hm. assert (B : bytes_ok (be 1 f ++ be 3 m)) by (rewrite bytes_ok_app; auto using be_ok).
    pose proof (be_be_val _ B) as E. rewrite app_length, !be_length in E. cbn [Nat.add] in E. rewrite <- E. f_equal.
    rewrite NetFacts.be_val_app, nlen_be, !be_val_be_small by (auto; lia). reflexivity. }
  assert (K : forall f m, m < 2 ^ 24 -> (f * 2 ^ 24 + m) mod 2 ^ 24 = m) by (intros; lia).
  split; [|split; [|split; [|split; [|split; [|split]]]]].
  - intros b r E. unfold get_node_flags. rewrite (view_node l a) by (auto; cbn; auto). rewrite E. reflexivity.
  - intros w m Hw Hm E. unfold get_igp_metric. rewrite (view_link l a) by (auto; cbn; tauto). rewrite E, be_length.
    replace ((w =? 1) || (w =? 2) || (w =? 3))%nat with true by lia. rewrite be_val_be_small; auto.
  - intros m r Hm E. unfold get_admin_group. rewrite (view_link l a) by (auto; cbn; tauto). rewrite E. apply first_be_app. exact Hm.
  - intros m r Hm E. unfold get_prefix_metric. rewrite (view_prefix l a) by (auto; cbn; tauto). rewrite E. apply first_be_app. exact Hm.
  - intros f m r Hf Hm E. unfold get_link_delay. rewrite (view_link l a) by (auto; cbn; tauto). rewrite E, app_assoc, J by auto.
    rewrite first_be_app by lia. cbn [low24 option_map]. rewrite K; auto.
  - intros f m g n r Hf Hm Hg Hn E. unfold get_min_max_delay. rewrite (view_link l a) by (auto; cbn; tauto).
    rewrite E. replace (be 1 f ++ be 3 m ++ be 1 g ++ be 3 n ++ r) with (be 4 (f * 2 ^ 24 + m) ++ be 4 (g * 2 ^ 24 + n) ++ r)
      by (rewrite <- !J by auto; rewrite <- !app_assoc; reflexivity).
    rewrite !app_length, !be_length. cbn [Nat.add Nat.leb].
    rewrite F4, S4, F4.
    rewrite !be_val_be_small by lia. rewrite !K; auto.
  - intros f m r Hf Hm E. unfold get_delay_variation. rewrite (view_link l a) by (auto; cbn; tauto). rewrite E, app_assoc, J by auto.
    rewrite first_be_app by lia. cbn [low24 option_map]. rewrite K; auto.
Qed.
