(** Proofs about update iteration. *)
From Coq Require Import Lia.
From Verif Require Import Base BaseFacts TableDumpFacts Net AsPath Attr BgpMsg Bgp4mp TableDump Stream Framing MrtRecord MrtRecordFacts Elem ElemSpec ElemFacts Filter Iter IterSpec IterFacts Update UpdateSpec.

Lemma pop_nil {A} : @pop A [] = None. Proof. reflexivity. Qed.
Lemma pop_snoc {A} (l : list A) a : pop (l ++ [a]) = Some (a, l).
Proof. unfold pop. rewrite rev_app_distr. cbn [rev app]. rewrite rev_involutive. reflexivity. Qed.
Lemma policy_handle p e c : update_policy p e c = handle_error p e c.
Proof. destruct e; cbn; try reflexivity. destruct (pr_core p); reflexivity. Qed.
Lemma of_record_spec r el : match of_record r el [] with
  | inl u => updates_of r = [u]
  | inr (_, pend) => updates_of r = map UDump (rev pend)
  end.
Proof.
  unfold of_record, updates_of. destruct r as [h m]. cbn [mr_msg mr_hdr].
  destruct m as [d|l|x|x|x]; try reflexivity; cbn iota; try (rewrite rev_involutive; reflexivity).
  - destruct x; reflexivity.
  - destruct x as [c|[t pa la i pi li b]]; [reflexivity|]. cbn [mm_bgp mm_peer mm_peer_as]. destruct b; reflexivity.
  - destruct x as [y|c]; [|reflexivity]. destruct (lg_bgp y); reflexivity.
Qed.
Definition ust_inv (fs : list filter) (core : bool) (st : update_state) : Prop := mrt_inv fs core (fst (fst st)).
Definition pending (d : list dump) : list mrt_update := map UDump (rev d).
Lemma pending_snoc d x : pending (d ++ [x]) = UDump x :: pending d.
Proof. unfold pending. rewrite rev_app_distr. reflexivity. Qed.
Lemma update_loop_spec fs core items s : reads s items -> forall fuel p el, mrt_inv fs core p -> pr_stream p = s -> (S (ssize s) < fuel)%nat ->
  exists o p' el' pend', update_loop fuel (p, el, []) = Ok (o, (p', el', pend')) /\ mrt_inv fs core p' /\
    match o with
    | None => flat_map updates_of (usable core items) = []
    | Some u => exists items', reads (pr_stream p') items' /\ (ssize (pr_stream p') < ssize s)%nat /\
        flat_map updates_of (usable core items) = u :: pending pend' ++ flat_map updates_of (usable core items')
    end.
Proof.
  induction 1 as [s c s' E|s r z s' l E H IH|s e c s' l E N H IH]; intros fuel p el I <- L; (destruct fuel as [|f]; [lia|]); cbn [update_loop]; rewrite pop_nil;
    unfold next_record; rewrite (proj1 I), E; pose proof (record_size (pr_stream p)) as Sz; rewrite E in Sz; cbv iota.
  - cbn [update_policy]. exists None, (with_stream p s'), el, []. split; [reflexivity|]. split; [apply inv_stream; auto|]. reflexivity.
  - cbn [usable flat_map]. pose proof (of_record_spec r el) as O. destruct (of_record r el []) as [u|[el' pend]].
    + exists (Some u), (with_stream p s'), el, []. split; [reflexivity|]. split; [apply inv_stream; auto|]. exists l. rewrite O. auto.
    + rewrite O.
      assert (D : pend = [] \/ exists q d, pend = q ++ [d]) by (destruct pend using rev_ind; eauto). destruct D as [->|(q & d & ->)].
      * destruct (IH f (with_stream p s') el') as (o & p2 & el2 & pend2 & A & B & C); [apply inv_stream; auto|reflexivity|lia|].
        exists o, p2, el2, pend2. split; [exact A|]. split; [exact B|]. cbn [rev map app]. destruct o as [u|]; [|exact C].
        destruct C as (it & C1 & C2 & C3). exists it. repeat split; auto. lia.
      * destruct f as [|f]; [lia|]. cbn [update_loop]. rewrite pop_snoc. exists (Some (UDump d)), (with_stream p s'), el', q. split; [reflexivity|]. split; [apply inv_stream; auto|].
        exists l. split; [auto|]. split; [auto|]. fold (pending (q ++ [d])). rewrite pending_snoc. reflexivity.
  - rewrite policy_handle. destruct (handle_spec fs core (with_stream p s') e c (inv_stream _ _ _ _ I)) as (p1 & -> & I1 & S1). cbn [usable]. destruct (stops core e); cbn [negb].
    + exists None, p1, el, []. split; [reflexivity|]. split; [auto|reflexivity].
    + specialize (Sz N). destruct (IH f p1 el) as (o & p2 & el2 & pend2 & A & B & C); [auto|rewrite S1; reflexivity|lia|].
      exists o, p2, el2, pend2. split; [exact A|]. split; [exact B|]. destruct o as [r'|]; [|exact C].
      destruct C as (it & C1 & C2 & C3). exists it. repeat split; auto. lia.
Qed.

Lemma update_yields fs core pend p el items : mrt_inv fs core p -> reads (pr_stream p) items ->
  yields (ust_inv fs core) update_next (p, el, pend) (pending pend ++ flat_map updates_of (usable core items)).
Proof.
  remember (ssize (pr_stream p)) as n. revert p el items pend Heqn. induction n as [n IH] using (well_founded_induction lt_wf). intros p el items pend -> I R.
  induction pend as [|d q IHq] using rev_ind.
  - cbn [pending rev map app].
    destruct (update_loop_spec fs core items _ R (S (S (ssize (pr_stream p)))) p el I eq_refl ltac:(lia)) as (o & p' & el' & pend' & A & B & C).
    assert (X : update_next (p, el, []) = Ok (o, (p', el', pend'))) by (unfold update_next; cbn [fst]; rewrite (proj1 I); exact A).
    destruct o as [r|]; [|rewrite C; eapply y_end; eauto].
    destruct C as (it & C1 & C2 & ->). eapply y_some; eauto.
  - rewrite pending_snoc. cbn [app]. eapply y_some; [exact I| |exact IHq].
    unfold update_next. cbn [fst]. rewrite (proj1 I). cbn [update_loop]. rewrite pop_snoc. reflexivity.
Qed.
Lemma fupdate_loop_spec fs core items s : reads s items -> forall fuel p el, mrt_inv fs core p -> pr_stream p = s -> (S (ssize s) < fuel)%nat ->
  exists o p' el' pend', fupdate_loop fuel (p, el, []) = Ok (o, (p', el', pend')) /\ mrt_inv fs core p' /\
    match o with
    | None => flat_map (map_item updates_of) items = []
    | Some u => exists items', reads (pr_stream p') items' /\ (ssize (pr_stream p') < ssize s)%nat /\
        flat_map (map_item updates_of) items = u :: map inl (pending pend') ++ flat_map (map_item updates_of) items'
    end.
Proof.
  induction 1 as [s c s' E|s r z s' l E H IH|s e c s' l E N H IH]; intros fuel p el I <- L; (destruct fuel as [|f]; [lia|]); cbn [fupdate_loop]; rewrite pop_nil;
    unfold next_record; rewrite (proj1 I), E; pose proof (record_size (pr_stream p)) as Sz; rewrite E in Sz; cbv iota.
  - exists None, (with_stream p s'), el, []. split; [reflexivity|]. split; [apply inv_stream; auto|]. reflexivity.
  - cbn [flat_map map_item]. pose proof (of_record_spec r el) as O. destruct (of_record r el []) as [u|[el' pend]].
    + exists (Some (inl u)), (with_stream p s'), el, []. split; [reflexivity|]. split; [apply inv_stream; auto|]. exists l. rewrite O. auto.
    + rewrite O.
      assert (D : pend = [] \/ exists q d, pend = q ++ [d]) by (destruct pend using rev_ind; eauto). destruct D as [->|(q & d & ->)].
      * destruct (IH f (with_stream p s') el') as (o & p2 & el2 & pend2 & A & B & C); [apply inv_stream; auto|reflexivity|lia|].
        exists o, p2, el2, pend2. split; [exact A|]. split; [exact B|]. cbn [rev map app]. destruct o as [u|]; [|exact C].
        destruct C as (it & C1 & C2 & C3). exists it. repeat split; auto. lia.
      * destruct f as [|f]; [lia|]. cbn [fupdate_loop]. rewrite pop_snoc. exists (Some (inl (UDump d))), (with_stream p s'), el', q. split; [reflexivity|]. split; [apply inv_stream; auto|].
        exists l. split; [auto|]. split; [auto|]. fold (pending (q ++ [d])). rewrite pending_snoc. reflexivity.
  - specialize (Sz N). exists (Some (inr (e, c))), (with_stream p s'), el, []. split; [destruct e; try reflexivity; congruence|]. split; [apply inv_stream; auto|].
    exists l. auto.
Qed.
Lemma fupdate_yields fs core pend p el items : mrt_inv fs core p -> reads (pr_stream p) items ->
  yields (ust_inv fs core) fupdate_next (p, el, pend) (map inl (pending pend) ++ flat_map (map_item updates_of) items).
Proof.
  remember (ssize (pr_stream p)) as n. revert p el items pend Heqn. induction n as [n IH] using (well_founded_induction lt_wf). intros p el items pend -> I R.
  induction pend as [|d q IHq] using rev_ind.
  - cbn [pending rev map app].
    destruct (fupdate_loop_spec fs core items _ R (S (S (ssize (pr_stream p)))) p el I eq_refl ltac:(lia)) as (o & p' & el' & pend' & A & B & C).
    assert (X : fupdate_next (p, el, []) = Ok (o, (p', el', pend'))) by (unfold fupdate_next; cbn [fst]; rewrite (proj1 I); exact A).
    destruct o as [r|]; [|rewrite C; eapply y_end; eauto].
    destruct C as (it & C1 & C2 & ->). eapply y_some; eauto.
  - rewrite pending_snoc. cbn [map app]. eapply y_some; [exact I| |exact IHq].
    unfold fupdate_next. cbn [fst]. rewrite (proj1 I). cbn [fupdate_loop]. rewrite pop_snoc. reflexivity.
Qed.
(** ** The lists *)
Lemma update_lists p items : pr_text p = None -> reads (pr_stream p) items -> exists n, forall fuel, (n <= fuel)%nat ->
  update_list fuel p = Ok (flat_map updates_of (usable (pr_core p) items)) /\
  fupdate_list fuel p = Ok (flat_map (map_item updates_of) items).
Proof.
  intros T R. exists (S (length (flat_map updates_of (usable (pr_core p) items)) + length (flat_map (map_item updates_of) items))).
  intros fuel L. unfold update_list, fupdate_list. split.
  - eapply (yields_collect (ust_inv (pr_filters p) (pr_core p))); [apply (update_yields _ _ [] p None items); [repeat split; auto|auto]|]. cbn [pending rev map app]. lia.
  - eapply (yields_collect (ust_inv (pr_filters p) (pr_core p))); [apply (fupdate_yields _ _ [] p None items); [repeat split; auto|auto]|]. cbn [pending rev map app]. unfold item in *. lia.
Qed.
Lemma updates_of_records show p : pr_text p = None -> exists rs items n, record_list show (unfiltered p) = Ok rs /\ frecord_list show (unfiltered p) = Ok items /\
  forall fuel, (n <= fuel)%nat -> update_list fuel p = Ok (flat_map updates_of rs) /\ fupdate_list fuel p = Ok (flat_map (map_item updates_of) items).
Proof.
  intros T. destruct (reads_total (pr_stream p)) as (items & R). destruct (update_lists p items T R) as (n & U).
  destruct (default_records show (unfiltered p)) as (it & A & B).
  rewrite (frecord_list_ok show (unfiltered p) items T R) in A. cbn [pr_filters unfiltered] in A. rewrite fkept_nil in A. apply ok_inj in A. subst it.
  exists (usable (pr_core p) items), items, n. split; [exact B|]. split; [|exact U].
  rewrite (frecord_list_ok show (unfiltered p) items T R). cbn [pr_filters unfiltered]. rewrite fkept_nil. reflexivity.
Qed.
Lemma update_text p l fuel : pr_text p = Some l -> (0 < fuel)%nat -> update_list fuel p = Ok [] /\ fupdate_list fuel p = Ok [].
Proof.
  intros T L. destruct fuel as [|f]; [lia|]. unfold update_list, fupdate_list, update_next, fupdate_next. cbn [collect fst]. rewrite T. split; reflexivity.
Qed.
(** ** Elements *)

Lemma forall2_singletons {A B} (P : A -> B -> Prop) l l' : Forall2 P l l' -> Forall2 (fun a x => exists b, x = [b] /\ P a b) l (map (fun b => [b]) l').
Proof. induction 1; cbn [map]; constructor; eauto. Qed.
Lemma concat_singletons {A} (l : list A) : concat (map (fun b => [b]) l) = l.
Proof. induction l as [|a l IH]; [reflexivity|]. cbn. f_equal. exact IH. Qed.
Lemma record_updates t r l : record_elems t r l -> exists ls, Forall2 (elems_of_update t) (updates_of r) ls /\ l = concat ls.
Proof.
  unfold record_elems, updates_of. destruct r as [h m]. cbn [mr_msg mr_hdr]. destruct m as [d|ds|x|x|x].
  - intros (e & -> & D). exists [[e]]. split; [|reflexivity]. constructor; [|constructor]. cbn [elems_of_update]. eauto.
  - intros H. exists (map (fun b => [b]) l). rewrite concat_singletons. split; [|reflexivity].
    apply forall2_singletons in H. induction H as [|a y l1 l2 H0 H1 IH]; cbn [map]; constructor; auto.
  - destruct x as [p|b| |g]; try (intros ->; exists []; split; [constructor|reflexivity]).
    intros H. exists [l]. split; [|cbn [concat]; rewrite app_nil_r; reflexivity]. constructor; [exact H|constructor].
  - destruct x as [c|[ty pa la i pi li b]]; [intros ->; exists []; split; [constructor|reflexivity]|]. cbn [mm_bgp mm_peer mm_peer_as].
    destruct b; try (intros ->; exists []; split; [constructor|reflexivity]).
    intros H. exists [l]. split; [|cbn [concat]; rewrite app_nil_r; reflexivity]. constructor; [exact H|constructor].
  - destruct x as [y|c]; [|intros ->; exists []; split; [constructor|reflexivity]].
    destruct (lg_bgp y); try (intros ->; exists []; split; [constructor|reflexivity]).
    intros H. exists [l]. split; [|cbn [concat]; rewrite app_nil_r; reflexivity]. constructor; [exact H|constructor].
Qed.
Lemma annotate_elems rs : forall t, exists ls, Forall2 (fun x l => elems_of_update (fst x) (snd x) l) (flat_map with_table (annotate t rs)) ls /\
  flat_map elems_of (annotate t rs) = concat ls.
Proof.
  induction rs as [|r rs IH]; intros t; [exists []; split; [constructor|reflexivity]|]. cbn [annotate flat_map].
  destruct (IH (table_after t r)) as (ls & A & B).
  destruct (record_updates t r (elems_of (t, r))) as (l1 & C & D).
  { destruct (record_elems_ok t r) as (l & E & F). unfold elems_of. cbn [fst snd]. rewrite E. exact F. }
  exists (l1 ++ ls). rewrite concat_app, <- D, B. split; [|reflexivity]. apply Forall2_app; [|exact A].
  unfold with_table. cbn [fst snd]. clear D. induction C; cbn [map]; constructor; auto.
Qed.
Lemma with_table_snd rs : forall t, map snd (flat_map with_table (annotate t rs)) = flat_map updates_of rs.
Proof.
  induction rs as [|r rs IH]; intros t; [reflexivity|]. cbn [annotate flat_map]. rewrite map_app, IH. f_equal.
  unfold with_table. cbn [fst snd]. rewrite map_map. apply map_id.
Qed.
Lemma updates_elems show p : pr_text p = None -> exists rs ls n, record_list show (unfiltered p) = Ok rs /\
  Forall2 (fun x l => elems_of_update (fst x) (snd x) l) (flat_map with_table (annotate None rs)) ls /\
  forall fuel, (n <= fuel)%nat -> update_list fuel p = Ok (map snd (flat_map with_table (annotate None rs))) /\ elem_list show fuel (unfiltered p) = Ok (concat ls).
Proof.
  intros T. destruct (updates_of_records show p T) as (rs & items & n & A & B & C). destruct (elems_of_records show p T) as (m & l & D & E).
  rewrite A in D. apply ok_inj in D. subst l. destruct (annotate_elems rs None) as (ls & F & G). exists rs, ls, (n + m)%nat.
  split; [exact A|]. split; [exact F|]. intros fuel L. rewrite with_table_snd. split; [apply C; lia|]. rewrite <- G. apply E. lia.
Qed.
Lemma update_times t u l : elems_of_update t u l -> match u with URib _ _ _ _ _ => True | _ => Forall (fun e => e_time e = update_time u) l end.
Proof.
  destruct u; cbn [elems_of_update update_time].
  1,2: intros (? & ? & ? & ? & ? & _ & _ & _ & _ & _ & _ & F); revert F; apply Forall_impl; tauto.
  - auto.
  - intros (e & -> & D). constructor; [|constructor]. apply D.
Qed.
