(** The records of sources are in range; their elements are those of the records one by one. *)
From Coq Require Import Lia.
From Verif Require Import Base BaseFacts Net NetSpec BgpMsg Bgp4mp TableDump TableDumpFacts Stream Framing MrtRecord Elem ElemSpec ElemFacts Filter Iter IterSpec IterFacts
  JsonSpec RangeSpec RangeFacts RangeIterFacts JsonMsgSpec JsonRecSpec ParsedFacts.

Lemma reads_in s l : reads s l -> octet_source s -> Forall (item_all record_in) l.
Proof.
  intros H. induction H as [s c s' H|s r z s' l H R IH|s e c s' l H E R IH]; intros Hs; [constructor| |].
  - destruct (record_in_of _ _ _ _ Hs H). constructor; auto.
  - pose proof (record_err_octets _ _ _ _ Hs H). constructor; [exact I|auto].
Qed.
Lemma in_all {A} (Q : A -> Prop) (f : A -> bool) l : Forall Q l -> Forall Q (List.filter f l).
Proof. intros H. rewrite Forall_forall in *. intros x I. apply filter_In in I. apply H, I. Qed.
Lemma annotate_in t l : Forall record_in l -> Forall (fun x => record_in (snd x)) (annotate t l).
Proof. intros H. revert t. induction H as [|r l Hr Hl IH]; intros t; cbn [annotate]; constructor; auto. Qed.
Lemma source_records show p : pr_text p = None -> octet_source (pr_stream p) -> exists l, record_list show p = Ok l /\ Forall record_in l.
Proof.
  intros T Hs. destruct (filtered_records show p T) as (l & E & F). eexists. split; [exact F|].
  assert (A : Forall record_in l).
  { destruct (reads_total (pr_stream p)) as (items & R). destruct (default_records show (unfiltered p)) as (it & E1 & E2).
    rewrite (frecord_list_ok show (unfiltered p) items T R) in E1. cbn [pr_filters unfiltered] in E1. rewrite fkept_nil in E1. injection E1 as <-.
    rewrite E in E2. injection E2 as ->. apply usable_all. exact (reads_in _ _ R Hs). }
  apply Forall_map. apply in_all, annotate_in, A.
Qed.
Lemma elements_list l : forall t, elements t l = Ok (flat_map elems_of (annotate t l)).
Proof.
  induction l as [|r l IH]; intros t; cbn [elements annotate flat_map]; [reflexivity|]. destruct (record_elems_ok t r) as (es & E & _).
  unfold elems_of at 1. cbn [fst snd]. rewrite E. cbn [rbind fst snd]. rewrite IH. reflexivity.
Qed.
