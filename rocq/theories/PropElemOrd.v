(** C87: the order of elements. *)
From Coq Require Import Lia Reals Floats.SpecFloat.
From Flocq Require Import Core.Raux.
From Verif Require Import Base BaseFacts Net Framing MrtRecord Elem ElemSpec Filter Iter IterSpec IterFacts F64Real PropTime PropElem PropIter PropFilter ElemOrd ElemOrdFacts.

(** ** C87: elements are ordered by time and then by peer address. *)
(** Comparing panics exactly if one of the times is not a number. *)
Theorem C87_panic a b : cmp_elem a b = Panic <-> e_time a = S754_nan \/ e_time b = S754_nan.
Proof. apply keys_panic. Qed.
Print Assumptions C87_panic.
Theorem C87_total a b : e_time a <> S754_nan -> e_time b <> S754_nan -> exists c, cmp_elem a b = Ok c /\ partial_cmp_elem a b = Ok (Some c).
Proof.
  intros A B. unfold partial_cmp_elem. pose proof (C87_panic a b) as P. destruct (cmp_elem a b) as [c|e|] eqn:E; [exists c; auto| |tauto].
  exfalso. unfold cmp_elem, compare_keys in E. destruct (SFcompare (e_time a) (e_time b)) as [[]|]; discriminate E.
Qed.
Print Assumptions C87_total.
(** A total preorder: swapping the arguments swaps the answer; less, equal and greater are
    transitive; equal elements compare alike with all others. *)
Theorem C87_swap a b c : cmp_elem a b = Ok c -> cmp_elem b a = Ok (CompOpp c).
Proof. apply keys_opp. Qed.
Print Assumptions C87_swap.
Theorem C87_transitive a b d c : cmp_elem a b = Ok c -> cmp_elem b d = Ok c -> cmp_elem a d = Ok c.
Proof. apply keys_trans. Qed.
Print Assumptions C87_transitive.
Theorem C87_equal_alike a b d : cmp_elem a b = Ok Eq -> cmp_elem a d = cmp_elem b d.
Proof. apply keys_eq_left. Qed.
Print Assumptions C87_equal_alike.
Theorem C87_reflexive a : e_time a <> S754_nan -> cmp_elem a a = Ok Eq.
Proof.
  intros A. destruct (C87_total a a A A) as (c & E & _). pose proof (C87_swap a a c E) as S. destruct c; cbn in S; congruence.
Qed.
Print Assumptions C87_reflexive.
(** Equal are those with the same time and the same peer address. *)
Theorem C87_equal a b : cmp_elem a b = Ok Eq <-> SFcompare (e_time a) (e_time b) = Some Eq /\ e_peer a = e_peer b.
Proof. apply keys_eq. Qed.
Print Assumptions C87_equal.
(** Times that are the real numbers [x] and [y] decide if they differ; then IPv4 addresses
    come before IPv6 ones, and addresses of one version by their value. *)
Theorem C87_meaning a b x y : is_real (e_time a) x -> is_real (e_time b) y ->
  ((x < y)%R -> cmp_elem a b = Ok Lt) /\ ((y < x)%R -> cmp_elem a b = Ok Gt) /\
  (x = y -> cmp_elem a b = Ok (match e_peer a, e_peer b with
     | V4 m, V4 n | V6 m, V6 n => m ?= n | V4 _, V6 _ => Lt | V6 _, V4 _ => Gt end)).
Proof.
  intros A B. unfold cmp_elem, compare_keys. rewrite (real_compare _ _ _ _ A B). split; [|split].
  - intros H. rewrite Rcompare_Lt by exact H. reflexivity.
  - intros H. rewrite Rcompare_Gt by exact H. reflexivity.
  - intros ->. rewrite Rcompare_Eq by reflexivity. reflexivity.
Qed.
Print Assumptions C87_meaning.
(** The elements of a record, and those an iterator gives for an MRT source, can all be
    compared: sorting them never panics. *)
Theorem C87_record el r : Forall (fun e => e_time e <> S754_nan) (elems_of (el, r)).
Proof. eapply Forall_impl; [|apply elems_of_pos]. intros e. apply not_nan. Qed.
Print Assumptions C87_record.
Theorem C87_source show p : pr_text p = None -> exists n l,
  (forall fuel, (n <= fuel)%nat -> elem_list show fuel p = Ok l) /\ forall a b, In a l -> In b l -> exists c, cmp_elem a b = Ok c.
Proof.
  intros T. destruct (C33_filtered_elems show p) as (n & l & H). destruct (C33_elems_of_records show p T) as (n' & rs & _ & H').
  exists (Nat.max n n'). eexists. split; [intros fuel L; apply H; lia|]. destruct (H (Nat.max n n')) as [E _]; [lia|]. rewrite H' in E by lia. injection E as <-.
  assert (F : forall e, In e (flat_map elems_of (annotate None rs)) -> e_time e <> S754_nan).
  { intros e I. apply in_flat_map in I as ((el & r) & _ & I). pose proof (C87_record el r) as R. rewrite Forall_forall in R. exact (R e I). }
  intros a b A B. apply filter_In in A as [A _]. apply filter_In in B as [B _]. destruct (C87_total a b (F a A) (F b B)) as (c & E & _). eauto.
Qed.
Print Assumptions C87_source.
(** Elements of updates are ordered by the seconds and microseconds of their records. *)
Theorem C87_records a b h h' : time_ok h -> time_ok h' -> e_time a = record_time h -> e_time b = record_time h' ->
  cmp_elem a b = Ok (match micros h ?= micros h' with Eq => compare_ip (e_peer a) (e_peer b) | c => c end).
Proof. intros T T' A B. unfold cmp_elem, compare_keys. rewrite A, B, C70_order by assumption. destruct (_ ?= _); reflexivity. Qed.
Print Assumptions C87_records.
(** Route elements are compared in the same way. *)
Theorem C87_routes r r' a b : ro_time r = e_time a -> ro_peer r = e_peer a -> ro_time r' = e_time b -> ro_peer r' = e_peer b -> cmp_route r r' = cmp_elem a b.
Proof. intros A B C D. unfold cmp_route, cmp_elem. rewrite A, B, C, D. reflexivity. Qed.
Print Assumptions C87_routes.
Definition at_time (t : f64) (i : ip) (p : prefix) : elem := Elem t Announce i 1 None p None None None None None None None false None None None None None.
Example C87_ex : cmp_elem (at_time (f64_of_N 5) (V4 9) ex_p1) (at_time (f64_of_N 5) (V6 1) ex_p1) = Ok Lt /\
  cmp_elem (at_time (f64_of_N 6) (V4 9) ex_p1) (at_time (f64_of_N 5) (V6 1) ex_p1) = Ok Gt /\ is_real (f64_of_N 5) 5.
Proof. split; [reflexivity|]. split; [reflexivity|]. apply (real_N 5). reflexivity. Qed.
Example C87_ex_source : exists l, elem_list show_nothing 30 (ex_parser [] false) = Ok l /\ length l = 4%nat.
Proof. eexists. split; vm_compute; reflexivity. Qed.
(** Findings.  The order is not consistent with equality: routes of a peer at one time are
    all equal by it, so a sorted set keeps one of them.  With a time that is not a number
    comparing panics, even with itself. *)
Theorem C87_consistent_refuted : exists a b, e_prefix a <> e_prefix b /\ cmp_elem a b = Ok Eq.
Proof. exists (at_time (f64_of_N 5) (V4 9) ex_p1), (at_time (f64_of_N 5) (V4 9) ex_p6). split; [discriminate|reflexivity]. Qed.
Print Assumptions C87_consistent_refuted.
Theorem C87_nan_refuted : exists a, cmp_elem a a = Panic.
Proof. exists (at_time S754_nan (V4 9) ex_p1). reflexivity. Qed.
Print Assumptions C87_nan_refuted.
