(** The same for all that a source gives; times. *)
From Coq Require Import Reals Lra Floats.SpecFloat ZifyBool ZifyNat ZifyN Lia.
From Flocq Require Import Core.Zaux Core.Raux Core.Round_NE IEEE754.BinarySingleNaN.
From Verif Require Import Base BaseFacts Net NetSpec BgpMsg Bgp4mp TableDump Stream Framing MrtRecord Elem ElemSpec ElemFacts Filter Iter IterSpec IterFacts
  JsonSpec PsvSpec RangeSpec RangeFacts F64Real.

Lemma reads_ranged s l : reads s l -> octet_source s -> Forall (item_all record_ranged) l.
Proof.
  intros H. induction H as [s c s' H|s r z s' l H R IH|s e c s' l H E R IH]; intros Hs; [constructor| |].
  - destruct (record_ranged_of _ _ _ _ Hs H). constructor; auto.
  - pose proof (record_err_octets _ _ _ _ Hs H). constructor; [exact I|auto].
Qed.
Lemma usable_all {A} (Q : A -> Prop) core l : Forall (item_all Q) l -> Forall Q (usable core l).
Proof. intros H. induction H as [|[a|[e c]] l Hx Hl IH]; cbn [usable]; [constructor|constructor; auto|]. destruct (stops core e); [constructor|auto]. Qed.
Lemma table_after_ok t r : table_ok t -> record_ranged r -> table_ok (table_after t r).
Proof. intros Ht [_ Hr]. unfold table_after. destruct (mr_msg r) as [| |[]| |]; auto. Qed.
Definition known_record (x : option peer_table * mrt_record) : Prop := table_ok (fst x) /\ record_ranged (snd x).
Lemma annotate_items_all t l : table_ok t -> Forall (item_all record_ranged) l -> Forall (item_all known_record) (annotate_items t l).
Proof.
  intros Ht Hl. revert t Ht. induction Hl as [|[r|x] l Hx Hl IH]; intros t Ht; cbn [annotate_items]; constructor; auto.
  - split; auto.
  - apply IH, table_after_ok; auto.
Qed.
Lemma annotate_all t l : table_ok t -> Forall record_ranged l -> Forall known_record (annotate t l).
Proof.
  intros Ht Hl. revert t Ht. induction Hl as [|r l Hx Hl IH]; intros t Ht; cbn [annotate]; constructor; auto.
  - split; auto.
  - apply IH, table_after_ok; auto.
Qed.
Lemma elems_all x : known_record x -> Forall in_range (elems_of x).
Proof.
  destruct x as [t r]. intros [Ht Hr]. unfold elems_of. cbn [fst snd]. destruct (record_to_elems t r) as [[l t']| |] eqn:E; try constructor.
  exact (proj1 (record_elems_ranged _ _ _ _ Ht Hr E)).
Qed.

(** * Times *)
Lemma real_timed x r : is_real x r -> binary64 x /\ finite x.
Proof.
  intros (b & <- & F & _). split; [apply valid_binary_B2SF|]. destruct b; cbn in *; auto; discriminate.
Qed.
Lemma real_small n : n < 2 ^ 32 -> is_real (f64_of_N n) (IZR (Z.of_N n)).
Proof. intros H. apply real_N. eapply N.lt_trans; [exact H|reflexivity]. Qed.
Lemma N_timed n : n < 2 ^ 32 -> binary64 (f64_of_N n) /\ finite (f64_of_N n).
Proof. intros H. exact (real_timed _ _ (real_small n H)). Qed.
Lemma header_timed h : clock_ok h -> binary64 (record_time h) /\ finite (record_time h).
Proof.
  intros [Ht Hu]. unfold record_time. destruct (h_us h) as [us|]; [|apply N_timed; exact Ht]. cbn [opt_all] in Hu.
  assert (B32 : bpow radix2 32 = IZR 4294967296) by (cbn; lra).
  assert (B33 : bpow radix2 33 = IZR 8589934592) by (cbn; lra).
  assert (B100 : (bpow radix2 33 <= bpow radix2 100)%R) by (apply bpow_le; lia).
  assert (forall n, n < 2 ^ 32 -> (0 <= IZR (Z.of_N n) <= IZR 4294967296)%R) as B by (intros n Hn; split; apply IZR_le; lia).
  pose proof (B _ Ht) as B1. pose proof (B _ Hu) as B2.
  set (zs := Z.of_N (h_ts h)) in *. set (zu := Z.of_N us) in *.
  assert (D : (0 <= IZR zu / 1000000 <= IZR 4294967296)%R).
  { split; [apply Rmult_le_pos; lra|]. unfold Rdiv. lra. }
  assert (Q : is_real (f64_div (f64_of_N us) (f64_of_N 1000000)) (rnd (IZR zu / 1000000))).
  { apply real_div; [apply real_small; exact Hu|apply (real_small 1000000); reflexivity|lra|]. rewrite Rabs_pos_eq; lra. }
  assert (QE : (Rabs (rnd (IZR zu / 1000000) - IZR zu / 1000000) <= / 2 * bpow radix2 (32 - 52))%R) by (apply rnd_err; [rewrite Rabs_pos_eq; lra|lia]).
  assert (Q0 : (0 <= rnd (IZR zu / 1000000))%R) by (apply (rnd_ge 0); [lia|lra]).
  set (q := rnd (IZR zu / 1000000)) in *. change (bpow radix2 (32 - 52)) with (/ 1048576)%R in QE. apply Rabs_le_inv in QE.
  apply (real_timed _ (rnd (IZR zs + q))). apply real_add; [apply real_small; exact Ht|exact Q|rewrite Rabs_pos_eq; lra].
Qed.
Lemma rib_time p pe e x : rib_entry_to_elem p pe e = Ok x -> e_time x = f64_of_N (re_time e).
Proof. unfold rib_entry_to_elem. cbv zeta. intros H. apply rbind_inv in H as (path & H1 & H). injection H as <-. reflexivity. Qed.
Lemma elems_timed el r l : record_ranged r -> record_elems el r l -> Forall timed l.
Proof.
  intros [Hc Hr].
  assert (B : forall b pi pa l, bgp_elems b (record_time (mr_hdr r)) pi pa l -> Forall timed l).
  { intros b pi pa l0. destruct b; cbn [bgp_elems]; try (intros ->; constructor). intros (x1 & x2 & x3 & x4 & x5 & _ & _ & _ & _ & _ & _ & F).
    eapply Forall_impl; [|exact F]. cbv beta. intros e (Et & _). unfold timed. rewrite Et. apply header_timed, Hc. }
  assert (D : forall d e, dump_ranged d -> dump_elem d e -> timed e).
  { intros d e (_ & Ht & _) (_ & _ & Et & _). unfold timed. rewrite Et. apply N_timed, Ht. }
  unfold record_elems. destruct (mr_msg r) as [d|ds|[p|b| |g]|[m|m]|[m|m]]; intros H; cbn [body_ranged] in Hr; try (subst; constructor; fail).
  - destruct H as (e & -> & H). constructor; [exact (D _ _ Hr H)|constructor].
  - induction H; [constructor|]. apply Forall_cons_iff in Hr as [Hx Hr]. constructor; eauto.
  - destruct el as [t|]; [|subst; constructor]. destruct Hr as [_ Hr].
    assert (K : Forall (fun x => entry_ranged (snd x)) (known_entries t (rb_entries b))).
    { clear -Hr. induction Hr as [|e l He Hl IH]; cbn [known_entries]; [constructor|]. destruct (get_peer_by_id t (re_peer e)); [constructor; auto|constructor]. }
    induction H as [|x e xs es H F IH]; constructor; apply Forall_cons_iff in K as [[Kt _] K]; auto.
    destruct H as (_ & _ & Et & _). unfold timed. rewrite Et. apply N_timed, Kt.
  - eapply B, H.
  - eapply B, H.
Qed.

(** * Elements of sources *)
Lemma elems_typed x : known_record x -> Forall typed (elems_of x).
Proof.
  intros H. pose proof (elems_all x H) as R. destruct x as [t r]. destruct H as [Ht Hr]. destruct (record_elems_ok t r) as (l & E & S).
  unfold elems_of in *. cbn [fst snd] in *. rewrite E in *. pose proof (elems_timed _ _ _ Hr S) as T.
  rewrite Forall_forall in *. intros e I. split; auto.
Qed.
Lemma felems_all (Q : elem -> Prop) items : (forall x, known_record x -> Forall Q (elems_of x)) -> Forall (item_all record_ranged) items -> Forall (item_all Q) (felems None items).
Proof.
  intros G H. apply (annotate_items_all None) in H; [|exact I]. unfold felems. induction H as [|[x|x] l Hx Hl IH]; cbn [flat_map map_item]; [constructor| |constructor; auto; exact I].
  apply Forall_app. split; [|exact IH]. apply Forall_map. exact (G x Hx).
Qed.
Lemma filter_all {A} (Q : A -> Prop) f l : Forall Q l -> Forall Q (List.filter f l).
Proof. intros H. rewrite Forall_forall in *. intros x I. apply filter_In in I. apply H, I. Qed.
Lemma source_all (Q : elem -> Prop) show p : (forall x, known_record x -> Forall Q (elems_of x)) -> pr_text p = None -> octet_source (pr_stream p) ->
  exists n items l, (forall fuel, (n <= fuel)%nat -> felem_list show fuel p = Ok items /\ elem_list show fuel p = Ok l) /\
    Forall (item_all Q) items /\ Forall Q l.
Proof.
  intros G T Hs. destruct (reads_total (pr_stream p)) as (items & R). destruct (felem_list_ok show p items T R) as (n1 & H1).
  destruct (default_elems show p) as (n2 & it & H2). exists (Nat.max n1 n2), it, (usable (pr_core p) it).
  assert (A : Forall (item_all Q) it).
  { destruct (H2 (Nat.max n1 n2)) as [E _]; [lia|]. rewrite H1 in E by lia. injection E as <-. apply filter_all, felems_all; auto. exact (reads_ranged _ _ R Hs). }
  split; [intros fuel L; apply H2; lia|]. split; [exact A|apply usable_all; exact A].
Qed.
Lemma records_all show p : pr_text p = None -> octet_source (pr_stream p) -> exists l, record_list show p = Ok l /\ Forall record_ranged l.
Proof.
  intros T Hs. destruct (filtered_records show p T) as (l & E & F). eexists. split; [exact F|].
  assert (A : Forall record_ranged l).
  { destruct (reads_total (pr_stream p)) as (items & R). destruct (default_records show (unfiltered p)) as (it & E1 & E2).
    rewrite (frecord_list_ok show (unfiltered p) items T R) in E1. cbn [pr_filters unfiltered] in E1. rewrite fkept_nil in E1. injection E1 as <-.
    rewrite E in E2. injection E2 as ->. apply usable_all. exact (reads_ranged _ _ R Hs). }
  apply Forall_map. apply filter_all. apply (annotate_all None) in A; [|exact I]. eapply Forall_impl; [|exact A]. intros x [_ H]. exact H.
Qed.
