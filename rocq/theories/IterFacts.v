(** Proofs about iteration. *)
From Coq Require Import Lia.
From Verif Require Import Base BaseFacts Reader Net Community TableDump TableDumpFacts Stream Framing FramingFacts MrtRecord MrtRecordFacts Elem ElemSpec ElemFacts Filter Iter IterSpec.

(** ** Progress of the source *)
Lemma ssize_data l s : ssize (Data l :: s) = S (length l + ssize s). Proof. reflexivity. Qed.
Lemma read_upto_size n s st g r : read_upto n s = (st, g, r) -> (ssize r + length g <= ssize s)%nat /\ (st = Failed -> (ssize r < ssize s)%nat).
Proof.
  revert n st g r. induction s as [|e s IH]; intros n st g r H; destruct n as [|n]; cbn [read_upto] in H.
  1,2,3: injection H as <- <- <-; split; [cbn [length ssize]; lia|discriminate].
  remember (S n) as m. destruct e as [l| |].
  - destruct (Nat.leb m (length l)) eqn:L.
    + injection H as <- <- <-. rewrite !ssize_data. rewrite firstn_length, skipn_length. apply Nat.leb_le in L. split; [lia|discriminate].
    + destruct (read_upto (m - length l) s) as [[st' g'] r'] eqn:E. injection H as <- <- <-. apply IH in E as (E1 & E2).
      rewrite ssize_data, app_length. split; [lia|]. intros F. specialize (E2 F). lia.
  - apply IH in H as (H1 & H2). cbn [ssize]. split; [lia|]. intros F. specialize (H2 F). lia.
  - injection H as <- <- <-. cbn [ssize length]. split; lia.
Qed.
Lemma chunk_size s : match chunk_mrt_record_s s with CRec _ s' => (ssize s' < ssize s)%nat | CErr e _ _ s' => e <> EEofExpected -> (ssize s' < ssize s)%nat end.
Proof.
  unfold chunk_mrt_record_s, parse_common_header_s.
  destruct (read_upto 12 s) as [[[] b] s1] eqn:E1; pose proof (read_upto_size _ _ _ _ _ E1) as (L1 & F1).
  - pose proof (read_upto_full _ _ _ _ E1) as N1. destruct (split_header b) as [[[ts ty] sub] len].
    destruct (negb (etype_known ty)); [intros _; lia|].
    assert (T : forall h hb s2, (ssize s2 < ssize s)%nat -> 
      match (if MAX_MRT_MESSAGE_LEN <? h_len h then CErr EUnsup (Some h) (Some hb) s2 else
      match read_upto (N.to_nat (h_len h)) s2 with
      | (Full, body, s'') =>
          if (h_type h =? ET_TABLE_DUMP) && needs_legacy_length_correction (h_sub h) body then
            match read_upto 4 s'' with
            | (Full, corr, s3) => CRec (Raw h hb (body ++ corr)) s3
            | (_, corr, s3) => CErr EIo (Some h) (Some (hb ++ body ++ corr)) s3
            end
          else CRec (Raw h hb body) s''
      | (_, part, s'') => CErr EIo (Some h) (Some (hb ++ part)) s''
      end) with CRec _ s' => (ssize s' < ssize s)%nat | CErr e _ _ s' => e <> EEofExpected -> (ssize s' < ssize s)%nat end).
    { intros h hb s2 L. destruct (MAX_MRT_MESSAGE_LEN <? h_len h); [intros _; lia|].
      destruct (read_upto (N.to_nat (h_len h)) s2) as [[[] body] s3] eqn:E; pose proof (read_upto_size _ _ _ _ _ E) as (L3 & _); [|intros _; lia|intros _; lia].
      destruct ((h_type h =? ET_TABLE_DUMP) && needs_legacy_length_correction (h_sub h) body); [|lia].
      destruct (read_upto 4 s3) as [[[] corr] s4] eqn:E4; pose proof (read_upto_size _ _ _ _ _ E4) as (L4 & _); [lia|intros _; lia|intros _; lia]. }
    destruct (ty =? ET_BGP4MP_ET).
    + destruct (len <? 4); [intros _; lia|]. destruct (read_upto 4 s1) as [[[] us] s2] eqn:E2; pose proof (read_upto_size _ _ _ _ _ E2) as (L2 & F2).
      * apply T. lia.
      * destruct b as [|? ?]; [discriminate|]. cbn [app]. intros _. cbn [length] in *. lia.
      * intros _. lia.
    + apply T. lia.
  - destruct b as [|x b]; [intros K; congruence|]. intros _. cbn [length] in L1. lia.
  - intros _. specialize (F1 eq_refl). lia.
Qed.
Lemma record_size s : match parse_mrt_record_s s with RRec _ _ s' => (ssize s' < ssize s)%nat | RErr e _ s' => e <> EEofExpected -> (ssize s' < ssize s)%nat | RPanic => False end.
Proof.
  pose proof (record_np s) as NP. revert NP. unfold parse_mrt_record_s. pose proof (chunk_size s) as C.
  destruct (chunk_mrt_record_s s) as [r s'|e h c s']; [|auto]. destruct (parse_raw r); auto.
Qed.
Lemma reads_total s : exists l, reads s l.
Proof.
  remember (ssize s) as n. revert s Heqn. induction n as [n IH] using (well_founded_induction lt_wf). intros s ->.
  pose proof (record_size s) as R. destruct (parse_mrt_record_s s) as [r z s'|e c s'|] eqn:E; [| |contradiction].
  - destruct (IH _ R s' eq_refl) as (l & H). exists (inl r :: l). econstructor; eauto.
  - assert (D : e = EEofExpected \/ e <> EEofExpected) by (destruct e; ((left; reflexivity) || (right; discriminate))).
    destruct D as [->|D]; [exists []; econstructor; eauto|].
    destruct (IH _ (R D) s' eq_refl) as (l & H). exists (inr (e, c) :: l). econstructor; eauto.
Qed.
Lemma reads_fun s l l' : reads s l -> reads s l' -> l = l'.
Proof.
  intros H. revert l'. induction H as [s c s' E|s r z s' l E H IH|s e c s' l E N H IH]; intros l' H'; inversion H'; subst; try congruence.
  - assert (s'0 = s') by congruence. subst. f_equal; [congruence|]. auto.
  - assert (s'0 = s') by congruence. subst. f_equal; [congruence|]. auto.
Qed.
Lemma reads_size s l : reads s l -> (length l <= ssize s)%nat.
Proof.
  induction 1 as [s c s' E|s r z s' l E H IH|s e c s' l E N H IH]; cbn [length]; [lia| |]; pose proof (record_size s) as R; rewrite E in R; [lia|]. specialize (R N). lia.
Qed.

(** ** Iterators in general *)
(** An iterator in state [st] gives [l] and then [None]; [Q] holds all along. *)
Inductive yields {S A} (Q : S -> Prop) (next : S -> res (option A * S)) : S -> list A -> Prop :=
| y_end st st' : Q st -> next st = Ok (None, st') -> yields Q next st []
| y_some st a st' l : Q st -> next st = Ok (Some a, st') -> yields Q next st' l -> yields Q next st (a :: l).
Lemma yields_collect {S A} Q (next : S -> res (option A * S)) st l fuel : yields Q next st l -> (length l < fuel)%nat -> collect next fuel st = Ok l.
Proof.
  intros H. revert fuel. induction H as [st st' q E|st a st' l q E H IH]; intros fuel L; destruct fuel as [|f]; cbn [length] in L; try lia; cbn [collect]; rewrite E; cbn [rbind]; [reflexivity|].
  rewrite IH by lia. reflexivity.
Qed.

(** ** Records *)
Definition kept (show : meta_community -> bytes) (fs : list filter) (el : option peer_table) (l : list mrt_record) : list mrt_record :=
  map snd (List.filter (passes show fs) (annotate el l)).
Lemma kept_nil show el l : kept show [] el l = l.
Proof. unfold kept. revert el. induction l as [|r l IH]; intros el; [reflexivity|]. cbn [annotate List.filter passes map snd]. rewrite IH. reflexivity. Qed.
Lemma kept_cons show fs el r l : kept show fs el (r :: l) = (if passes show fs (el, r) then [r] else []) ++ kept show fs (table_after el r) l.
Proof. unfold kept. cbn [annotate List.filter]. destruct (passes show fs (el, r)); reflexivity. Qed.
Lemma elems_rec (el : option peer_table) r : record_to_elems el r = Ok (elems_of (el, r), table_after el r).
Proof. destruct (record_elems_ok el r) as (l & H & _). unfold elems_of. cbn [fst snd]. rewrite H. reflexivity. Qed.
Lemma table_elems (el : option peer_table) r : is_peer_table r = true -> elems_of (el, r) = [].
Proof.
  intros H. pose proof (elems_rec el r) as E. destruct (record_elems_ok el r) as (l & H1 & H2). rewrite E in H1. apply ok_inj in H1. assert (l = elems_of (el, r)) by (injection H1; auto). subst l.
  revert H2. unfold record_elems. unfold is_peer_table in H. destruct (mr_msg r) as [| |[]| |]; try discriminate. auto.
Qed.
Lemma matches_rec show r fs (el : option peer_table) : exists el', record_matches_filters show r fs el = Ok (passes show fs (el, r), el') /\ (fs = [] /\ el' = el \/ el' = table_after el r).
Proof.
  unfold record_matches_filters, passes. destruct fs as [|f fs]; [exists el; split; [reflexivity|left; auto]|].
  rewrite elems_rec. cbn [rbind snd]. exists (table_after el r). split; [|right; reflexivity]. destruct (is_peer_table r); [reflexivity|].
  cbn [orb]. destruct (elems_of (el, r)); reflexivity.
Qed.
Definition mrt_inv (fs : list filter) (core : bool) (p : parser) : Prop := pr_text p = None /\ pr_filters p = fs /\ pr_core p = core.
Lemma inv_stream fs core p s : mrt_inv fs core p -> mrt_inv fs core (with_stream p s). Proof. auto. Qed.
Lemma dump_inv fs core p c : mrt_inv fs core p -> mrt_inv fs core (write_dump p c) /\ pr_stream (write_dump p c) = pr_stream p.
Proof. intros H. unfold write_dump. destruct (pr_core p) eqn:K; [|auto]. destruct c; [|auto]. destruct H as (A & B & C). repeat split; auto. cbn. congruence. Qed.
Lemma handle_spec fs core p e c : mrt_inv fs core p -> exists p', handle_error p e c = (negb (stops core e), p') /\ mrt_inv fs core p' /\ pr_stream p' = pr_stream p.
Proof.
  intros H. destruct (dump_inv _ _ _ c H) as (D & Ds). destruct H as (A & B & C).
  destruct e; cbn [handle_error stops negb]; rewrite ?C; eexists; (split; [reflexivity|]); split; auto; repeat split; auto.
Qed.
Lemma policy_same p e c : raw_policy p e c = handle_error p e c.
Proof. destruct e; try reflexivity. cbn. destruct (pr_core p); reflexivity. Qed.
Definition st_inv (fs : list filter) (core : bool) (st : rec_state) : Prop := mrt_inv fs core (fst st).
Lemma rec_loop_spec show fs core items s : reads s items -> forall fuel p (el : option peer_table), mrt_inv fs core p -> pr_stream p = s -> (ssize s < fuel)%nat ->
  exists o p' (el' : option peer_table), rec_loop show fuel (p, el) = Ok (o, (p', el')) /\ mrt_inv fs core p' /\
    match o with
    | None => kept show fs el (usable core items) = []
    | Some r => exists items', reads (pr_stream p') items' /\ (ssize (pr_stream p') < ssize s)%nat /\
        kept show fs el (usable core items) = r :: kept show fs el' (usable core items')
    end.
Proof.
  induction 1 as [s c s' E|s r z s' l E H IH|s e c s' l E N H IH]; intros fuel p el I <- L; (destruct fuel as [|f]; [lia|]); cbn [rec_loop];
    unfold next_record; rewrite (proj1 I), E; pose proof (record_size (pr_stream p)) as Sz; rewrite E in Sz; cbv iota.
  - cbn [handle_error]. exists None, (with_stream p s'), el. split; [reflexivity|]. split; [apply inv_stream; auto|]. reflexivity.
  - cbn [pr_filters with_stream]. replace (pr_filters p) with fs by (symmetry; apply I). destruct (matches_rec show r fs el) as (el' & -> & T). cbn [rbind].
    cbn [usable]. rewrite kept_cons.
    assert (K : kept show fs (table_after el r) (usable core l) = kept show fs el' (usable core l)) by (destruct T as [(-> & ->)| ->]; [rewrite !kept_nil|]; reflexivity).
    destruct (passes show fs (el, r)).
    + exists (Some r), (with_stream p s'), el'. split; [reflexivity|]. split; [apply inv_stream; auto|]. exists l. cbn [pr_stream with_stream app]. rewrite K. auto.
    + destruct (IH f (with_stream p s') el') as (o & p2 & el2 & A & B & C); [apply inv_stream; auto|reflexivity|lia|].
      exists o, p2, el2. split; [exact A|]. split; [exact B|]. cbn [app]. rewrite K. destruct o as [r'|]; [|exact C].
      destruct C as (it & C1 & C2 & C3). exists it. repeat split; auto. lia.
  - destruct (handle_spec fs core (with_stream p s') e c (inv_stream _ _ _ _ I)) as (p1 & -> & I1 & S1). cbn [usable]. destruct (stops core e); cbn [negb].
    + exists None, p1, el. split; [reflexivity|]. split; [auto|reflexivity].
    + specialize (Sz N). destruct (IH f p1 el) as (o & p2 & el2 & A & B & C); [auto|rewrite S1; reflexivity|lia|].
      exists o, p2, el2. split; [exact A|]. split; [exact B|]. destruct o as [r'|]; [|exact C].
      destruct C as (it & C1 & C2 & C3). exists it. repeat split; auto. lia.
Qed.
Lemma rec_yields show fs core p el items : mrt_inv fs core p -> reads (pr_stream p) items ->
  yields (st_inv fs core) (record_next show) (p, el) (kept show fs el (usable core items)).
Proof.
  remember (ssize (pr_stream p)) as n. revert p el items Heqn. induction n as [n IH] using (well_founded_induction lt_wf). intros p el items -> I R.
  destruct (rec_loop_spec show fs core items _ R (S (ssize (pr_stream p))) p el I eq_refl ltac:(lia)) as (o & p' & el' & A & B & C).
  assert (X : record_next show (p, el) = Ok (o, (p', el'))) by (unfold record_next; cbn [fst]; rewrite (proj1 I); exact A).
  destruct o as [r|]; [|rewrite C; eapply y_end; eauto].
  destruct C as (it & C1 & C2 & ->). eapply y_some; eauto.
Qed.
Lemma kept_length show fs el l : (length (kept show fs el l) <= length l)%nat.
Proof. revert el. induction l as [|r l IH]; intros el; [cbn; lia|]. rewrite kept_cons, app_length. specialize (IH (table_after el r)). destruct (passes show fs (el, r)); cbn [length]; lia. Qed.
Lemma usable_length {A} core (l : list (item A)) : (length (usable core l) <= length l)%nat.
Proof. induction l as [|[a|[e c]] l IH]; cbn [usable length]; [lia|lia|]. destruct (stops core e); cbn [length]; lia. Qed.
Lemma record_list_ok show p items : pr_text p = None -> reads (pr_stream p) items ->
  record_list show p = Ok (kept show (pr_filters p) None (usable (pr_core p) items)).
Proof.
  intros T R. unfold record_list. eapply yields_collect; [apply rec_yields; [repeat split; auto|auto]|].
  pose proof (kept_length show (pr_filters p) None (usable (pr_core p) items)). pose proof (usable_length (pr_core p) items). pose proof (reads_size _ _ R). lia.
Qed.

(** ** Elements over any record iterator *)
Lemma kept_tables show fs el l : annotate el (kept show fs el l) = List.filter (passes show fs) (annotate el l).
Proof.
  revert el. induction l as [|r l IH]; intros el; [reflexivity|]. rewrite kept_cons. cbn [annotate List.filter].
  destruct (passes show fs (el, r)) eqn:P; cbn [app annotate].
  - rewrite IH. reflexivity.
  - rewrite <- IH. f_equal. unfold passes in P. destruct fs; [discriminate|]. apply orb_false_iff in P as (P & _). cbn [snd] in P.
    unfold table_after. unfold is_peer_table in P. destruct (mr_msg r) as [| |[]| |]; auto; discriminate.
Qed.
Lemma filter_app_ {A} (f : A -> bool) a b : List.filter f (a ++ b) = List.filter f a ++ List.filter f b.
Proof. induction a as [|x a IH]; [reflexivity|]. cbn [app List.filter]. destruct (f x); cbn [app]; rewrite IH; reflexivity. Qed.
Lemma filter_none {A} (f : A -> bool) l : existsb f l = false -> List.filter f l = [].
Proof. induction l as [|x l IH]; [reflexivity|]. cbn. intros H. apply orb_false_iff in H as (-> & H). auto. Qed.
Lemma kept_elems show fs el l :
  List.filter (fun e => match_filters show (VElem e) fs) (flat_map elems_of (annotate el (kept show fs el l))) =
  List.filter (fun e => match_filters show (VElem e) fs) (flat_map elems_of (annotate el l)).
Proof.
  rewrite kept_tables. generalize (annotate el l). intros xs. induction xs as [|x xs IH]; [reflexivity|]. cbn [List.filter flat_map].
  destruct (passes show fs x) eqn:P; cbn [flat_map]; rewrite !filter_app_.
  - rewrite IH. reflexivity.
  - rewrite IH, (filter_none _ (elems_of x)); [reflexivity|]. unfold passes in P. destruct fs; [discriminate|]. apply orb_false_iff in P as (_ & P). exact P.
Qed.
Lemma refill_spec show Q rs rst : yields Q (record_next show) rst rs -> forall (el : option peer_table) fuel, (length rs < fuel)%nat ->
  exists o rst' el', refill show fuel rst el = Ok (o, (rst', el')) /\
    match o with
    | None => flat_map elems_of (annotate el rs) = []
    | Some l => exists e l' rs', l = e :: l' /\ yields Q (record_next show) rst' rs' /\ (length rs' <= length rs)%nat /\
        flat_map elems_of (annotate el rs) = l ++ flat_map elems_of (annotate el' rs')
    end.
Proof.
  induction 1 as [st st' q E|st r st' rs q E H IH]; intros el fuel L; (destruct fuel as [|f]; [lia|]); cbn [refill]; rewrite E; cbn [rbind].
  - exists None, st', el. split; reflexivity.
  - rewrite elems_rec. cbn [rbind annotate flat_map length] in *. destruct (elems_of (el, r)) as [|e l] eqn:El.
    + destruct (IH (table_after el r) f ltac:(lia)) as (o & rst2 & el2 & A & C). exists o, rst2, el2. split; [exact A|]. destruct o as [l|]; [|exact C].
      destruct C as (e & l' & rs' & C1 & C2 & C3 & C4). exists e, l', rs'. repeat split; auto.
    + exists (Some (e :: l)), st', (table_after el r). split; [reflexivity|]. exists e, l, rs. repeat split; auto.
Qed.
Lemma st_text fs core st : st_inv fs core st -> pr_text (fst st) = None. Proof. intros H. apply H. Qed.
Lemma yields_q {S A} Q (next : S -> res (option A * S)) st l : yields Q next st l -> Q st.
Proof. destruct 1; auto. Qed.
Lemma elem_loop_spec show fs core n : forall cache rst rs (el : option peer_table) fuel, yields (st_inv fs core) (record_next show) rst rs ->
  let all := cache ++ flat_map elems_of (annotate el rs) in
  (S (length all + length rs) < fuel)%nat -> length all = n ->
  exists o cache' rst' el', elem_loop show fuel (cache, rst, el) = Ok (o, (cache', rst', el')) /\
    match o with
    | None => List.filter (fun e => match_filters show (VElem e) fs) all = []
    | Some e => exists rs', yields (st_inv fs core) (record_next show) rst' rs' /\ (length rs' <= length rs)%nat /\
        let all' := cache' ++ flat_map elems_of (annotate el' rs') in
        (length all' < length all)%nat /\
        List.filter (fun e => match_filters show (VElem e) fs) all = e :: List.filter (fun e => match_filters show (VElem e) fs) all'
    end.
Proof.
  induction n as [n IH] using (well_founded_induction lt_wf). intros cache rst rs el fuel Y. cbv zeta. intros L Ln. destruct fuel as [|f]; [lia|].
  pose proof (yields_q _ _ _ _ Y) as (Qt & Qf & _). cbn [elem_loop].
  assert (Step : forall e c rst' rs' el', cache ++ flat_map elems_of (annotate el rs) = e :: c ++ flat_map elems_of (annotate el' rs') ->
    yields (st_inv fs core) (record_next show) rst' rs' -> (length rs' <= length rs)%nat ->
    exists o cache' rst'' el'',
      (if match_filters show (VElem e) (pr_filters (fst rst')) then Ok (Some e, (c, rst', el')) else elem_loop show f (c, rst', el')) = Ok (o, (cache', rst'', el'')) /\
      match o with
      | None => List.filter (fun e => match_filters show (VElem e) fs) (cache ++ flat_map elems_of (annotate el rs)) = []
      | Some e => exists rs', yields (st_inv fs core) (record_next show) rst'' rs' /\ (length rs' <= length rs)%nat /\
          let all' := cache' ++ flat_map elems_of (annotate el'' rs') in
          (length all' < length (cache ++ flat_map elems_of (annotate el rs)))%nat /\
          List.filter (fun e => match_filters show (VElem e) fs) (cache ++ flat_map elems_of (annotate el rs)) = e :: List.filter (fun e => match_filters show (VElem e) fs) all'
      end).
  { intros e c rst' rs' el' Eq Y' Lr. pose proof (yields_q _ _ _ _ Y') as (_ & Qf' & _). rewrite Qf'. rewrite Eq in *. cbn [List.filter length] in *.
    destruct (match_filters show (VElem e) fs).
    - exists (Some e), c, rst', el'. split; [reflexivity|]. exists rs'. cbv zeta. repeat split; auto.
    - destruct (IH (length (c ++ flat_map elems_of (annotate el' rs'))) ltac:(lia) c rst' rs' el' f Y') as (o & c2 & r2 & e2 & A & B); cbv zeta; [lia|reflexivity|].
      exists o, c2, r2, e2. split; [exact A|]. destruct o; [|exact B]. destruct B as (rs2 & B1 & B2 & B3 & B4). exists rs2. cbv zeta in *. repeat split; auto; lia. }
  destruct cache as [|e cache].
  - destruct (refill_spec show _ rs rst Y el f ltac:(lia)) as (o & rst' & el' & -> & C). cbn [rbind]. destruct o as [l|].
    + destruct C as (e & l' & rs' & -> & Y' & Lr & Eq). apply (Step e l' rst' rs' el'); auto.
    + exists None, [], rst', el'. split; [reflexivity|]. cbn [app]. rewrite C. reflexivity.
  - apply (Step e cache rst rs el); auto.
Qed.
Definition est_inv (fs : list filter) (core : bool) (st : elem_state) : Prop := st_inv fs core (snd (fst st)).
Lemma elem_yields show fs core fuel n : forall cache rst rs (el : option peer_table), yields (st_inv fs core) (record_next show) rst rs ->
  let all := cache ++ flat_map elems_of (annotate el rs) in
  (S (length all + length rs) < fuel)%nat -> length all = n ->
  yields (est_inv fs core) (elem_next show fuel) (cache, rst, el) (List.filter (fun e => match_filters show (VElem e) fs) all).
Proof.
  induction n as [n IH] using (well_founded_induction lt_wf). intros cache rst rs el Y all L Ln. subst all.
  pose proof (yields_q _ _ _ _ Y) as Q. destruct rst as [p rel].
  destruct (elem_loop_spec show fs core n cache (p, rel) rs el fuel Y L Ln) as (o & c & rst' & el' & A & B).
  assert (X : elem_next show fuel (cache, (p, rel), el) = Ok (o, (c, rst', el'))) by (unfold elem_next; rewrite (proj1 Q : pr_text p = None); exact A).
  destruct o as [e|]; [|cbv zeta in B; rewrite B; eapply y_end; eauto].
  destruct B as (rs' & Y' & Lr & Lt & ->). eapply y_some; [exact Q|exact X|]. eapply IH; [| exact Y' | |reflexivity]; cbv zeta in *; lia.
Qed.
Lemma elem_list_ok show p items : pr_text p = None -> reads (pr_stream p) items ->
  exists n, forall fuel, (n <= fuel)%nat -> elem_list show fuel p =
    Ok (List.filter (fun e => match_filters show (VElem e) (pr_filters p)) (flat_map elems_of (annotate None (usable (pr_core p) items)))).
Proof.
  intros T R. set (rs := kept show (pr_filters p) None (usable (pr_core p) items)).
  assert (Y : yields (st_inv (pr_filters p) (pr_core p)) (record_next show) (p, None) rs) by (apply rec_yields; [repeat split; auto|auto]).
  exists (S (S (length (flat_map elems_of (annotate None rs)) + length rs))). intros fuel L.
  rewrite <- kept_elems. unfold elem_list. fold rs.
  eapply (yields_collect (est_inv (pr_filters p) (pr_core p))).
  - apply (elem_yields show (pr_filters p) (pr_core p) fuel (length (flat_map elems_of (annotate None rs))) [] (p, None) rs None Y); [cbn [app]; lia|reflexivity].
  - assert (Fl : forall A (f : A -> bool) l, (length (List.filter f l) <= length l)%nat) by (intros A f l; induction l as [|x l IH]; cbn; [lia|destruct (f x); cbn; lia]).
    specialize (Fl _ (fun e => match_filters show (VElem e) (pr_filters p)) (flat_map elems_of (annotate None rs))). lia.
Qed.

(** ** Fallible iterators *)
Definition fkept (show : meta_community -> bytes) (fs : list filter) (el : option peer_table) (l : list (item mrt_record)) : list (item mrt_record) :=
  flat_map (map_item (fun x => [snd x])) (List.filter (keep_item (passes show fs)) (annotate_items el l)).
Lemma fkept_nil show el l : fkept show [] el l = l.
Proof. unfold fkept. revert el. induction l as [|[r|x] l IH]; intros el; [reflexivity| |]; cbn [annotate_items List.filter keep_item passes flat_map map_item map snd app]; rewrite IH; reflexivity. Qed.
Lemma fkept_cons show fs el r l : fkept show fs el (inl r :: l) = (if passes show fs (el, r) then [inl r] else []) ++ fkept show fs (table_after el r) l.
Proof. unfold fkept. cbn [annotate_items List.filter keep_item]. destruct (passes show fs (el, r)); reflexivity. Qed.
Lemma fkept_err show fs el x l : fkept show fs el (inr x :: l) = inr x :: fkept show fs el l.
Proof. reflexivity. Qed.
Lemma frec_loop_spec show fs core items s : reads s items -> forall fuel p (el : option peer_table), mrt_inv fs core p -> pr_stream p = s -> (ssize s < fuel)%nat ->
  exists o p' (el' : option peer_table), frec_loop show fuel (p, el) = Ok (o, (p', el')) /\ mrt_inv fs core p' /\
    match o with
    | None => fkept show fs el items = []
    | Some r => exists items', reads (pr_stream p') items' /\ (ssize (pr_stream p') < ssize s)%nat /\ fkept show fs el items = r :: fkept show fs el' items'
    end.
Proof.
  induction 1 as [s c s' E|s r z s' l E H IH|s e c s' l E N H IH]; intros fuel p el I <- L; (destruct fuel as [|f]; [lia|]); cbn [frec_loop];
    unfold next_record; rewrite (proj1 I), E; pose proof (record_size (pr_stream p)) as Sz; rewrite E in Sz; cbv iota.
  - exists None, (with_stream p s'), el. split; [reflexivity|]. split; [apply inv_stream; auto|]. reflexivity.
  - cbn [pr_filters with_stream]. replace (pr_filters p) with fs by (symmetry; apply I). rewrite fkept_cons. unfold passes. destruct fs as [|g gs].
    + exists (Some (inl r)), (with_stream p s'), el. split; [reflexivity|]. split; [apply inv_stream; auto|]. exists l. cbn [app pr_stream with_stream]. rewrite !fkept_nil. auto.
    + rewrite elems_rec. cbn [rbind snd]. destruct (is_peer_table r); cbn [orb].
      * exists (Some (inl r)), (with_stream p s'), (table_after el r). split; [reflexivity|]. split; [apply inv_stream; auto|]. exists l. auto.
      * destruct (existsb (fun e => match_filters show (VElem e) (g :: gs)) (elems_of (el, r))).
        -- exists (Some (inl r)), (with_stream p s'), (table_after el r). split; [reflexivity|]. split; [apply inv_stream; auto|]. exists l. auto.
        -- destruct (IH f (with_stream p s') (table_after el r)) as (o & p2 & el2 & A & B & C); [apply inv_stream; auto|reflexivity|lia|].
           exists o, p2, el2. split; [exact A|]. split; [exact B|]. cbn [app]. destruct o as [r'|]; [|exact C].
           destruct C as (it & C1 & C2 & C3). exists it. repeat split; auto. lia.
  - specialize (Sz N). exists (Some (inr (e, c))), (with_stream p s'), el. split; [destruct e; try reflexivity; congruence|]. split; [apply inv_stream; auto|].
    exists l. auto.
Qed.
Lemma frec_yields show fs core p el items : mrt_inv fs core p -> reads (pr_stream p) items ->
  yields (st_inv fs core) (frecord_next show) (p, el) (fkept show fs el items).
Proof.
  remember (ssize (pr_stream p)) as n. revert p el items Heqn. induction n as [n IH] using (well_founded_induction lt_wf). intros p el items -> I R.
  destruct (frec_loop_spec show fs core items _ R (S (ssize (pr_stream p))) p el I eq_refl ltac:(lia)) as (o & p' & el' & A & B & C).
  assert (X : frecord_next show (p, el) = Ok (o, (p', el'))) by (unfold frecord_next; cbn [fst]; rewrite (proj1 I); exact A).
  destruct o as [r|]; [|rewrite C; eapply y_end; eauto].
  destruct C as (it & C1 & C2 & ->). eapply y_some; eauto.
Qed.
Lemma fkept_length show fs el l : (length (fkept show fs el l) <= length l)%nat.
Proof.
  revert el. induction l as [|[r|x] l IH]; intros el; [cbn; lia| |].
  - rewrite fkept_cons, app_length. specialize (IH (table_after el r)). unfold item in *. destruct (passes show fs (el, r)); cbn [length]; lia.
  - rewrite fkept_err. cbn [length]. specialize (IH el). unfold item in *. lia.
Qed.
Lemma frecord_list_ok show p items : pr_text p = None -> reads (pr_stream p) items -> frecord_list show p = Ok (fkept show (pr_filters p) None items).
Proof.
  intros T R. unfold frecord_list. eapply (yields_collect (st_inv (pr_filters p) (pr_core p))); [apply frec_yields; [repeat split; auto|auto]|].
  pose proof (fkept_length show (pr_filters p) None items). pose proof (reads_size _ _ R). lia.
Qed.
Definition felems (el : option peer_table) (l : list (item mrt_record)) : list (item elem) := flat_map (map_item elems_of) (annotate_items el l).
Definition match_item show fs : item elem -> bool := keep_item (fun e => match_filters show (VElem e) fs).
Lemma felem_loop_spec show fs core n : forall cache rst rs (el : option peer_table) fuel, yields (st_inv fs core) (frecord_next show) rst rs ->
  let all := map inl cache ++ felems el rs in
  (length all + length rs < fuel)%nat -> (length all + length rs)%nat = n ->
  exists o cache' rst' el', felem_loop show fuel (cache, rst, el) = Ok (o, (cache', rst', el')) /\
    match o with
    | None => List.filter (match_item show fs) all = []
    | Some e => exists rs', yields (st_inv fs core) (frecord_next show) rst' rs' /\ (length rs' <= length rs)%nat /\
        let all' := map inl cache' ++ felems el' rs' in
        (length all' < length all)%nat /\ List.filter (match_item show fs) all = e :: List.filter (match_item show fs) all'
    end.
Proof.
  induction n as [n IH] using (well_founded_induction lt_wf). intros cache rst rs el fuel Y. cbv zeta. intros L Ln. destruct fuel as [|f]; [lia|].
  pose proof (yields_q _ _ _ _ Y) as (Qt & Qf & _). cbn [felem_loop]. destruct cache as [|e cache].
  - inversion Y as [st st' q E|st a st' l q E H]; subst; rewrite E; cbn [rbind map app].
    + exists None, [], st', el. split; reflexivity.
    + destruct a as [r|x].
      * rewrite elems_rec. cbn [rbind map app length] in *. 
        change (felems el (inl r :: l)) with (map (@inl elem (perr * option bytes)) (elems_of (el, r)) ++ felems (table_after el r) l) in *.
        edestruct (IH (length (map (@inl elem (perr * option bytes)) (elems_of (el, r)) ++ felems (table_after el r) l) + length l)%nat ltac:(lia) (elems_of (el, r)) st' l (table_after el r) f H) as (o & c2 & r2 & e2 & A & B); cbv zeta; [lia|reflexivity|].
        exists o, c2, r2, e2. split; [exact A|]. destruct o; [|exact B]. destruct B as (rs2 & B1 & B2 & B3 & B4). exists rs2. cbv zeta in *. repeat split; auto; lia.
      * exists (Some (inr x)), [], st', el. split; [reflexivity|]. exists l. cbv zeta. cbn [map app length].
        change (felems el (inr x :: l)) with (inr x :: felems el l). cbn [List.filter match_item keep_item length]. repeat split; auto.
  - rewrite Qf. cbn [map app length List.filter match_item keep_item] in *. destruct (match_filters show (VElem e) fs).
    + exists (Some (inl e)), cache, rst, el. split; [reflexivity|]. exists rs. cbv zeta. repeat split; auto.
    + destruct (IH (length (map (@inl elem (perr * option bytes)) cache ++ felems el rs) + length rs)%nat ltac:(lia) cache rst rs el f Y) as (o & c2 & r2 & e2 & A & B); cbv zeta; [lia|reflexivity|].
      exists o, c2, r2, e2. split; [exact A|]. destruct o; [|exact B]. destruct B as (rs2 & B1 & B2 & B3 & B4). exists rs2. cbv zeta in *. repeat split; auto; lia.
Qed.
Lemma felem_yields show fs core fuel n : forall cache rst rs (el : option peer_table), yields (st_inv fs core) (frecord_next show) rst rs ->
  let all := map inl cache ++ felems el rs in
  (length all + length rs < fuel)%nat -> length all = n ->
  yields (est_inv fs core) (felem_next show fuel) (cache, rst, el) (List.filter (match_item show fs) all).
Proof.
  induction n as [n IH] using (well_founded_induction lt_wf). intros cache rst rs el Y all L Ln. subst all.
  pose proof (yields_q _ _ _ _ Y) as Q. destruct rst as [p rel].
  destruct (felem_loop_spec show fs core _ cache (p, rel) rs el fuel Y L eq_refl) as (o & c & rst' & el' & A & B).
  assert (X : felem_next show fuel (cache, (p, rel), el) = Ok (o, (c, rst', el'))) by (unfold felem_next; rewrite (proj1 Q : pr_text p = None); exact A).
  destruct o as [e|]; [|cbv zeta in B; rewrite B; eapply y_end; eauto].
  destruct B as (rs' & Y' & Lr & Lt & ->). eapply y_some; [exact Q|exact X|]. eapply IH; [| exact Y' | |reflexivity]; cbv zeta in *; lia.
Qed.
Lemma fkept_tables show fs el l : annotate_items el (fkept show fs el l) = List.filter (keep_item (passes show fs)) (annotate_items el l).
Proof.
  revert el. induction l as [|[r|x] l IH]; intros el; [reflexivity| |].
  - rewrite fkept_cons. cbn [annotate_items List.filter keep_item]. destruct (passes show fs (el, r)) eqn:P; cbn [app annotate_items].
    + rewrite IH. reflexivity.
    + rewrite <- IH. f_equal. unfold passes in P. destruct fs; [discriminate|]. apply orb_false_iff in P as (P & _). cbn [snd] in P.
      unfold table_after. unfold is_peer_table in P. destruct (mr_msg r) as [| |[]| |]; auto; discriminate.
  - rewrite fkept_err. cbn [annotate_items List.filter keep_item]. rewrite IH. reflexivity.
Qed.
Lemma filter_map_inl show fs l : List.filter (match_item show fs) (map inl l) = map inl (List.filter (fun e => match_filters show (VElem e) fs) l).
Proof. induction l as [|e l IH]; [reflexivity|]. cbn [map List.filter match_item keep_item]. destruct (match_filters show (VElem e) fs); cbn [map]; rewrite <- IH; reflexivity. Qed.
Lemma fkept_elems show fs el l : List.filter (match_item show fs) (felems el (fkept show fs el l)) = List.filter (match_item show fs) (felems el l).
Proof.
  unfold felems. rewrite fkept_tables. generalize (annotate_items el l). intros xs. induction xs as [|x xs IH]; [reflexivity|]. cbn [List.filter flat_map].
  destruct x as [x|x]; cbn [keep_item].
  - destruct (passes show fs x) eqn:P; cbn [flat_map]; rewrite !filter_app_.
    + rewrite IH. reflexivity.
    + rewrite IH. cbn [map_item]. rewrite filter_map_inl, (filter_none _ (elems_of x)); [reflexivity|]. unfold passes in P. destruct fs; [discriminate|]. apply orb_false_iff in P as (_ & P). exact P.
  - cbn [flat_map]. rewrite !filter_app_, IH. reflexivity.
Qed.
Lemma felem_list_ok show p items : pr_text p = None -> reads (pr_stream p) items ->
  exists n, forall fuel, (n <= fuel)%nat -> felem_list show fuel p = Ok (List.filter (match_item show (pr_filters p)) (felems None items)).
Proof.
  intros T R. set (rs := fkept show (pr_filters p) None items).
  assert (Y : yields (st_inv (pr_filters p) (pr_core p)) (frecord_next show) (p, None) rs) by (apply frec_yields; [repeat split; auto|auto]).
  exists (S (length (felems None rs) + length rs)). intros fuel L.
  rewrite <- fkept_elems. unfold felem_list. fold rs.
  eapply (yields_collect (est_inv (pr_filters p) (pr_core p))).
  - apply (felem_yields show (pr_filters p) (pr_core p) fuel (length (felems None rs)) [] (p, None) rs None Y); [cbn [app map]; unfold item in *; lia|reflexivity].
  - assert (Fl : forall A (f : A -> bool) l, (length (List.filter f l) <= length l)%nat) by (intros A f l; induction l as [|x l IH]; cbn; [lia|destruct (f x); cbn; lia]).
    specialize (Fl _ (match_item show (pr_filters p)) (felems None rs)). unfold item in *. lia.
Qed.
(** Default and fallible. *)
Lemma usable_kept show fs core el l : usable core (fkept show fs el l) = kept show fs el (usable core l).
Proof.
  revert el. induction l as [|[r|[e c]] l IH]; intros el; [reflexivity| |].
  - rewrite fkept_cons. cbn [usable]. rewrite kept_cons. destruct (passes show fs (el, r)); cbn [app usable]; rewrite IH; reflexivity.
  - rewrite fkept_err. cbn [usable]. destruct (stops core e); [reflexivity|]. apply IH.
Qed.
Lemma usable_inl {A} core (a : list A) l : usable core (map inl a ++ l) = a ++ usable core l.
Proof. induction a as [|x a IH]; [reflexivity|]. cbn [map app usable]. rewrite IH. reflexivity. Qed.
Lemma usable_felems show fs core el l :
  usable core (List.filter (match_item show fs) (felems el l)) = List.filter (fun e => match_filters show (VElem e) fs) (flat_map elems_of (annotate el (usable core l))).
Proof.
  unfold felems. revert el. induction l as [|[r|[e c]] l IH]; intros el; [reflexivity| |].
  - cbn [annotate_items flat_map map_item usable annotate]. rewrite !filter_app_, filter_map_inl. etransitivity; [apply (usable_inl core)|]. f_equal. apply IH.
  - cbn [annotate_items flat_map map_item usable annotate app List.filter match_item keep_item]. destruct (stops core e); [reflexivity|]. apply IH.
Qed.

(** ** Text dumps *)
Lemma text_next_spec show fs l : match text_next show fs l with
  | (None, l') => List.filter (fun e => match_filters show (VElem e) fs) l = []
  | (Some e, l') => List.filter (fun e => match_filters show (VElem e) fs) l = e :: List.filter (fun e => match_filters show (VElem e) fs) l' /\ (length l' < length l)%nat
  end.
Proof.
  induction l as [|e l IH]; [reflexivity|]. cbn [text_next List.filter]. destruct (match_filters show (VElem e) fs); [cbn; split; auto|].
  destruct (text_next show fs l) as [[x|] l']; [|exact IH]. cbn [length]. destruct IH; split; auto.
Qed.
Lemma text_elems show fuel n : forall p l c rel el, pr_text p = Some l -> length l = n ->
  yields (fun _ => True) (elem_next show fuel) (c, (p, rel), el) (List.filter (fun e => match_filters show (VElem e) (pr_filters p)) l) /\
  yields (fun _ => True) (felem_next show fuel) (c, (p, rel), el) (map inl (List.filter (fun e => match_filters show (VElem e) (pr_filters p)) l)).
Proof.
  induction n as [n IH] using (well_founded_induction lt_wf). intros p l c rel el T Ln. pose proof (text_next_spec show (pr_filters p) l) as X.
  destruct (text_next show (pr_filters p) l) as [[e|] l'] eqn:E.
  - destruct X as (-> & X). destruct (IH (length l') ltac:(lia) (with_text p l') l' c rel el eq_refl eq_refl) as (A & B).
    cbn [map]. split; (eapply y_some; [exact I| |eassumption]); [unfold elem_next|unfold felem_next]; rewrite T, E; reflexivity.
  - rewrite X. cbn [map]. split; (eapply y_end; [exact I|]); [unfold elem_next|unfold felem_next]; rewrite T, E; reflexivity.
Qed.

(** ** Raw records *)
Lemma raw_loop_spec fs core items s : chunks s items -> forall fuel p, mrt_inv fs core p -> pr_stream p = s -> (ssize s < fuel)%nat ->
  exists o p', raw_loop fuel p = Ok (o, p') /\ mrt_inv fs core p' /\
    match o with
    | None => usable core items = []
    | Some r => exists items', chunks (pr_stream p') items' /\ (ssize (pr_stream p') < ssize s)%nat /\ usable core items = r :: usable core items'
    end.
Proof.
  induction 1 as [s h c s' E|s r s' l E H IH|s e h c s' l E N H IH]; intros fuel p I <- L; (destruct fuel as [|f]; [lia|]); cbn [raw_loop];
    rewrite E; pose proof (chunk_size (pr_stream p)) as Sz; rewrite E in Sz; cbv iota.
  - cbn [raw_policy]. exists None, (with_stream p s'). split; [reflexivity|]. split; [apply inv_stream; auto|]. reflexivity.
  - exists (Some r), (with_stream p s'). split; [reflexivity|]. split; [apply inv_stream; auto|]. exists l. auto.
  - rewrite policy_same. destruct (handle_spec fs core (with_stream p s') e c (inv_stream _ _ _ _ I)) as (p1 & -> & I1 & S1). cbn [usable]. destruct (stops core e); cbn [negb].
    + exists None, p1. split; [reflexivity|]. split; [auto|reflexivity].
    + specialize (Sz N). destruct (IH f p1) as (o & p2 & A & B & C); [auto|rewrite S1; reflexivity|lia|].
      exists o, p2. split; [exact A|]. split; [exact B|]. destruct o as [r'|]; [|exact C].
      destruct C as (it & C1 & C2 & C3). exists it. repeat split; auto. lia.
Qed.
Lemma chunks_total s : exists l, chunks s l.
Proof.
  remember (ssize s) as n. revert s Heqn. induction n as [n IH] using (well_founded_induction lt_wf). intros s ->.
  pose proof (chunk_size s) as R. destruct (chunk_mrt_record_s s) as [r s'|e h c s'] eqn:E.
  - destruct (IH _ R s' eq_refl) as (l & H). exists (inl r :: l). econstructor; eauto.
  - assert (D : e = EEofExpected \/ e <> EEofExpected) by (destruct e; ((left; reflexivity) || (right; discriminate))).
    destruct D as [->|D]; [exists []; econstructor; eauto|].
    destruct (IH _ (R D) s' eq_refl) as (l & H). exists (inr (e, c) :: l). econstructor; eauto.
Qed.
Lemma chunks_size s l : chunks s l -> (length l <= ssize s)%nat.
Proof.
  induction 1 as [s h c s' E|s r s' l E H IH|s e h c s' l E N H IH]; cbn [length]; [lia| |]; pose proof (chunk_size s) as R; rewrite E in R; [lia|]. specialize (R N). lia.
Qed.
Lemma raw_next_spec fs core p items : mrt_inv fs core p -> chunks (pr_stream p) items ->
  exists o p', raw_next p = Ok (o, p') /\ mrt_inv fs core p' /\
    match o with
    | None => usable core items = []
    | Some r => exists items', chunks (pr_stream p') items' /\ (ssize (pr_stream p') < ssize (pr_stream p))%nat /\ usable core items = r :: usable core items'
    end.
Proof.
  intros I C. unfold raw_next. rewrite (proj1 I). apply (raw_loop_spec fs core items _ C); auto.
Qed.
Lemma raw_yields fs core p items : mrt_inv fs core p -> chunks (pr_stream p) items -> yields (mrt_inv fs core) raw_next p (usable core items).
Proof.
  remember (ssize (pr_stream p)) as n. revert p items Heqn. induction n as [n IH] using (well_founded_induction lt_wf). intros p items -> I R.
  destruct (raw_next_spec fs core p items I R) as (o & p' & A & B & C).
  destruct o as [r|]; [|rewrite C; eapply y_end; eauto].
  destruct C as (it & C1 & C2 & ->). eapply y_some; eauto.
Qed.
Lemma raw_list_ok p items : pr_text p = None -> chunks (pr_stream p) items -> raw_list p = Ok (usable (pr_core p) items).
Proof.
  intros T R. unfold raw_list. eapply (yields_collect (mrt_inv (pr_filters p) (pr_core p))); [apply raw_yields; [repeat split; auto|auto]|].
  pose proof (usable_length (pr_core p) items). pose proof (chunks_size _ _ R). lia.
Qed.

(** ** Filtered raw records *)
Fixpoint pairs (core : bool) (l : list (item raw)) : list (raw * mrt_record) :=
  match l with
  | [] => []
  | inl w :: l' =>
      match parse_raw w with
      | Ok r => (w, r) :: pairs core l'
      | Err e => if stops core e then [] else pairs core l'
      | Panic => []
      end
  | inr (e, _) :: l' => if stops core e then [] else pairs core l'
  end.
Lemma pairs_reads core s cs : chunks s cs -> forall items, reads s items -> map snd (pairs core cs) = usable core items.
Proof.
  induction 1 as [s h c s' E|s w s' l E H IH|s e h c s' l E N H IH]; intros items R.
  - assert (X : parse_mrt_record_s s = RErr EEofExpected c s') by (unfold parse_mrt_record_s; rewrite E; reflexivity).
    inversion R; subst; try congruence. reflexivity.
  - cbn [pairs]. destruct (parse_raw w) as [r|e|] eqn:P.
    + assert (X : parse_mrt_record_s s = RRec r (raw_uses_zebra w) s') by (unfold parse_mrt_record_s; rewrite E, P; reflexivity).
      inversion R as [? ? ? Y|? ? ? ? ? Y Z|? ? ? ? ? Y Z]; subst; rewrite X in Y; try discriminate. injection Y as <- <- <-. cbn [map snd usable]. rewrite (IH _ Z). reflexivity.
    + assert (X : parse_mrt_record_s s = RErr e (Some (raw_bytes w)) s') by (unfold parse_mrt_record_s; rewrite E, P; reflexivity).
      inversion R as [? ? ? Y|? ? ? ? ? Y Z|? ? ? ? ? Y Nq Z]; subst; rewrite X in Y; try discriminate.
      * injection Y as Ye _ _. subst e. reflexivity.
      * injection Y as <- <- <-. cbn [usable]. destruct (stops core e); [reflexivity|]. apply (IH _ Z).
    + exfalso. pose proof (record_np s) as NP. apply NP. unfold parse_mrt_record_s. rewrite E, P. reflexivity.
  - assert (X : parse_mrt_record_s s = RErr e c s') by (unfold parse_mrt_record_s; rewrite E; reflexivity).
    inversion R as [? ? ? Y|? ? ? ? ? Y Z|? ? ? ? ? Y Nq Z]; subst; rewrite X in Y; try discriminate; [congruence|].
    injection Y as <- <- <-. cbn [pairs usable]. destruct (stops core e); [reflexivity|]. apply (IH _ Z).
Qed.
Lemma pairs_parse core cs : Forall (fun x => parse_raw (fst x) = Ok (snd x)) (pairs core cs).
Proof.
  induction cs as [|[w|[e c]] cs IH]; cbn [pairs]; [constructor| |].
  - destruct (parse_raw w) eqn:P; [constructor; auto| |constructor]. destruct (stops core e); [constructor|auto].
  - destruct (stops core e); [constructor|auto].
Qed.
Lemma subseq_nil {A} (l : list A) : subseq [] l. Proof. induction l; constructor; auto. Qed.
Lemma pairs_sub core cs : subseq (map fst (pairs core cs)) (usable core cs).
Proof.
  induction cs as [|[w|[e c]] cs IH]; cbn [pairs usable]; [constructor| |].
  - destruct (parse_raw w) eqn:P; cbn [map fst]; [apply ss_take; auto| |apply subseq_nil]. destruct (stops core e); [apply subseq_nil|apply ss_skip; auto].
  - destruct (stops core e); [apply subseq_nil|auto].
Qed.
Fixpoint pkept (show : meta_community -> bytes) (fs : list filter) (el : option peer_table) (l : list (raw * mrt_record)) : list (raw * mrt_record) :=
  match l with [] => [] | x :: l' => (if passes show fs (el, snd x) then [x] else []) ++ pkept show fs (table_after el (snd x)) l' end.
Lemma pkept_nil show el l : pkept show [] el l = l.
Proof. revert el. induction l as [|x l IH]; intros el; [reflexivity|]. cbn [pkept passes app]. rewrite IH. reflexivity. Qed.
Lemma pkept_snd show fs el l : map snd (pkept show fs el l) = kept show fs el (map snd l).
Proof. revert el. induction l as [|x l IH]; intros el; [reflexivity|]. cbn [pkept map]. rewrite kept_cons, map_app, IH. destruct (passes show fs (el, snd x)); reflexivity. Qed.
Lemma subseq_trans {A} (a b c : list A) : subseq a b -> subseq b c -> subseq a c.
Proof.
  intros H1 H2. revert a H1. induction H2 as [|x b c H IH|x b c H IH]; intros a H1; [auto|constructor; auto|]. inversion H1; subst; [apply ss_skip|apply ss_take]; auto.
Qed.
Lemma pkept_sub show fs el l : subseq (pkept show fs el l) l.
Proof. revert el. induction l as [|x l IH]; intros el; [constructor|]. cbn [pkept]. destruct (passes show fs (el, snd x)); cbn [app]; [apply ss_take|apply ss_skip]; auto. Qed.
Lemma subseq_map {A B} (f : A -> B) a b : subseq a b -> subseq (map f a) (map f b).
Proof. induction 1; cbn [map]; [apply ss_nil|apply ss_skip|apply ss_take]; auto. Qed.
Lemma subseq_Forall {A} (P : A -> Prop) a b : subseq a b -> Forall P b -> Forall P a.
Proof. induction 1 as [|x a b H IH|x a b H IH]; intros F; auto; inversion F; subst; auto. Qed.
Lemma fraw_loop_spec show fs core n : forall fuel p (el : option peer_table) cs, ssize (pr_stream p) = n -> mrt_inv fs core p -> chunks (pr_stream p) cs -> (n < fuel)%nat ->
  exists o p' (el' : option peer_table), fraw_loop show fuel (p, el, fs) = Ok (o, (p', el', fs)) /\ mrt_inv fs core p' /\
    match o with
    | None => pkept show fs el (pairs core cs) = []
    | Some x => exists cs', chunks (pr_stream p') cs' /\ (ssize (pr_stream p') < n)%nat /\
        pkept show fs el (pairs core cs) = x :: pkept show fs el' (pairs core cs')
    end.
Proof.
  induction n as [n IH] using (well_founded_induction lt_wf). intros fuel p el cs Hn I C L. destruct fuel as [|f]; [lia|]. cbn [fraw_loop].
  assert (Rn : exists o p', raw_next p = Ok (o, p') /\ mrt_inv fs core p' /\
    match o with
    | None => pairs core cs = []
    | Some w => exists cs', chunks (pr_stream p') cs' /\ (ssize (pr_stream p') < ssize (pr_stream p))%nat /\ pairs core cs = pairs core (inl w :: cs')
    end).
  { unfold raw_next. rewrite (proj1 I). clear Hn IH L n. remember (pr_stream p) as s. 
    assert (G : forall fuel p, mrt_inv fs core p -> pr_stream p = s -> (ssize s < fuel)%nat -> exists o p', raw_loop fuel p = Ok (o, p') /\ mrt_inv fs core p' /\
    match o with
    | None => pairs core cs = []
    | Some w => exists cs', chunks (pr_stream p') cs' /\ (ssize (pr_stream p') < ssize s)%nat /\ pairs core cs = pairs core (inl w :: cs')
    end); [|apply G; auto].
    clear p I Heqs. induction C as [s h c s' E|s r s' l E H IH|s e h c s' l E N H IH]; intros fuel p I <- L; (destruct fuel as [|f1]; [lia|]); cbn [raw_loop];
    rewrite E; pose proof (chunk_size (pr_stream p)) as Sz; rewrite E in Sz; cbv iota.
    - cbn [raw_policy]. exists None, (with_stream p s'). split; [reflexivity|]. split; [apply inv_stream; auto|]. reflexivity.
    - exists (Some r), (with_stream p s'). split; [reflexivity|]. split; [apply inv_stream; auto|]. exists l. auto.
    - rewrite policy_same. destruct (handle_spec fs core (with_stream p s') e c (inv_stream _ _ _ _ I)) as (p1 & -> & I1 & S1). cbn [pairs]. destruct (stops core e); cbn [negb].
      + exists None, p1. split; [reflexivity|]. split; [auto|reflexivity].
      + specialize (Sz N). destruct (IH f1 p1) as (o & p2 & A & B & D); [auto|rewrite S1; reflexivity|lia|].
        exists o, p2. split; [exact A|]. split; [exact B|]. destruct o as [r'|]; [|exact D].
        destruct D as (it & C1 & C2 & C3). exists it. repeat split; auto. lia. }
  destruct Rn as (o & p1 & -> & I1 & R). cbn [rbind]. destruct o as [w|].
  2:{ exists None, p1, el. split; [reflexivity|]. split; [auto|]. rewrite R. reflexivity. }
  destruct R as (cs1 & C1 & S1 & ->). cbn [pairs]. destruct (parse_raw w) as [r|e|] eqn:P.
  - cbn [pkept snd]. destruct fs as [|g gs].
    + exists (Some (w, r)), p1, el. split; [reflexivity|]. split; [auto|]. exists cs1. rewrite !pkept_nil. cbn [passes app]. repeat split; auto. lia.
    + destruct (matches_rec show r (g :: gs) el) as (el' & -> & [(D & _)| ->]); [discriminate|]. cbn [rbind].
      destruct (passes show (g :: gs) (el, r)).
      * exists (Some (w, r)), p1, (table_after el r). split; [reflexivity|]. split; [auto|]. exists cs1. cbn [app]. repeat split; auto. lia.
      * destruct (IH (ssize (pr_stream p1)) ltac:(lia) f p1 (table_after el r) cs1 eq_refl I1 C1 ltac:(lia)) as (o & p2 & el2 & A & B & C2).
        exists o, p2, el2. split; [exact A|]. split; [exact B|]. cbn [app]. destruct o as [x|]; [|exact C2].
        destruct C2 as (cs2 & X1 & X2 & X3). exists cs2. repeat split; auto. lia.
  - destruct (handle_spec fs core p1 e (Some (raw_bytes w)) I1) as (p2 & -> & I2 & S2). destruct (stops core e); cbn [negb].
    + exists None, p2, el. split; [reflexivity|]. split; [auto|reflexivity].
    + destruct (IH (ssize (pr_stream p2)) ltac:(rewrite S2; lia) f p2 el cs1 eq_refl I2 ltac:(rewrite S2; auto) ltac:(rewrite S2; lia)) as (o & p3 & el3 & A & B & C2).
      exists o, p3, el3. split; [exact A|]. split; [exact B|]. destruct o as [x|]; [|exact C2].
      destruct C2 as (cs2 & X1 & X2 & X3). exists cs2. repeat split; auto. rewrite S2 in X2. lia.
  - exfalso. revert P. pose proof (raw_np w) as NP. exact NP.
Qed.
Lemma fraw_yields show fs core p el cs : mrt_inv fs core p -> chunks (pr_stream p) cs ->
  yields (fun st => mrt_inv fs core (fst (fst st))) (fraw_next show) (p, el, fs) (pkept show fs el (pairs core cs)).
Proof.
  remember (ssize (pr_stream p)) as n. revert p el cs Heqn. induction n as [n IH] using (well_founded_induction lt_wf). intros p el cs Hn I C.
  destruct (fraw_loop_spec show fs core n (S n) p el cs (eq_sym Hn) I C ltac:(lia)) as (o & p' & el' & A & B & D).
  assert (X : fraw_next show (p, el, fs) = Ok (o, (p', el', fs))) by (unfold fraw_next; cbn [fst]; rewrite <- Hn; exact A).
  destruct o as [x|]; [|rewrite D; eapply y_end; eauto].
  destruct D as (cs' & D1 & D2 & ->). eapply y_some; eauto.
Qed.
Lemma subseq_length {A} (a b : list A) : subseq a b -> (length a <= length b)%nat.
Proof. induction 1; cbn [length]; lia. Qed.
Lemma fraw_list_ok show p cs : pr_text p = None -> chunks (pr_stream p) cs ->
  fraw_list show p = Ok (pkept show (pr_filters p) None (pairs (pr_core p) cs)).
Proof.
  intros T C. unfold fraw_list. eapply yields_collect; [apply (fraw_yields show (pr_filters p) (pr_core p)); [repeat split; auto|auto]|].
  pose proof (subseq_length _ _ (pkept_sub show (pr_filters p) None (pairs (pr_core p) cs))). pose proof (subseq_length _ _ (pairs_sub (pr_core p) cs)) as Q. rewrite map_length in Q.
  pose proof (usable_length (pr_core p) cs). pose proof (chunks_size _ _ C). unfold item in *. lia.
Qed.

(** ** The core dump *)
Lemma rec_loop_dump show items s : reads s items -> forall fuel p (el : option peer_table), pr_text p = None -> pr_core p = true -> pr_stream p = s -> (ssize s < fuel)%nat ->
  exists o p' (el' : option peer_table), rec_loop show fuel (p, el) = Ok (o, (p', el')) /\ pr_text p' = None /\ pr_core p' = true /\
    match o with
    | None => pr_dump p' = core_dump (pr_dump p) items
    | Some r => exists items', reads (pr_stream p') items' /\ (ssize (pr_stream p') < ssize s)%nat /\ core_dump (pr_dump p) items = core_dump (pr_dump p') items'
    end.
Proof.
  induction 1 as [s c s' E|s r z s' l E H IH|s e c s' l E N H IH]; intros fuel p el T K <- L; (destruct fuel as [|f]; [lia|]); cbn [rec_loop];
    unfold next_record; rewrite T, E; pose proof (record_size (pr_stream p)) as Sz; rewrite E in Sz; cbv iota.
  - cbn [handle_error]. exists None, (with_stream p s'), el. repeat split; auto.
  - cbn [pr_filters with_stream core_dump]. destruct (matches_rec show r (pr_filters p) el) as (el' & -> & _). cbn [rbind].
    destruct (passes show (pr_filters p) (el, r)).
    + exists (Some r), (with_stream p s'), el'. repeat split; auto. exists l. auto.
    + destruct (IH f (with_stream p s') el') as (o & p2 & el2 & A & B & C & D); [exact T|exact K|reflexivity|lia|].
      exists o, p2, el2. split; [exact A|]. repeat split; auto. destruct o as [r'|]; [|exact D].
      destruct D as (it & C1 & C2 & C3). exists it. repeat split; auto. lia.
  - set (p1 := if dumped_kind e then write_dump (with_stream p s') c else with_stream p s').
    assert (Hd : handle_error (with_stream p s') e c = (negb (stops true e), p1)) by (unfold p1; destruct e; cbn [handle_error stops dumped_kind negb]; cbn [pr_core with_stream]; rewrite ?K; reflexivity).
    assert (P1 : pr_text p1 = None /\ pr_core p1 = true /\ pr_stream p1 = s' /\ pr_dump p1 = if dumped_kind e then match c with Some b => Some b | None => pr_dump p end else pr_dump p).
    { unfold p1, write_dump. cbn [pr_core with_stream]. destruct (dumped_kind e), c; rewrite ?K; cbn; auto. }
    destruct P1 as (Q1 & Q2 & Q3 & Q4). rewrite Hd. cbn [core_dump]. rewrite <- Q4. clearbody p1. destruct (stops true e); cbn [negb].
    + exists None, p1, el. repeat split; auto.
    + specialize (Sz N). destruct (IH f p1 el) as (o & p2 & el2 & A & B & C & D); [auto|auto|auto|lia|].
      exists o, p2, el2. split; [exact A|]. repeat split; auto. destruct o as [r'|]; [|exact D].
      destruct D as (it & C1 & C2 & C3). exists it. repeat split; auto. lia.
Qed.
Lemma dump_ok show p el items : pr_text p = None -> pr_core p = true -> reads (pr_stream p) items ->
  exists p' el', ends_in (record_next show) (p, el) (p', el') /\ pr_dump p' = core_dump (pr_dump p) items.
Proof.
  remember (ssize (pr_stream p)) as n. revert p el items Heqn. induction n as [n IH] using (well_founded_induction lt_wf). intros p el items -> T K R.
  destruct (rec_loop_dump show items _ R (S (ssize (pr_stream p))) p el T K eq_refl ltac:(lia)) as (o & p' & el' & A & B & C & D).
  assert (X : record_next show (p, el) = Ok (o, (p', el'))) by (unfold record_next; cbn [fst]; rewrite T; exact A).
  destruct o as [r|]; [|exists p', el'; split; [apply ends_now; auto|auto]].
  destruct D as (it & C1 & C2 & ->). destruct (IH _ C2 p' el' it eq_refl B C C1) as (p2 & el2 & E1 & E2). exists p2, el2. split; [eapply ends_later; eauto|auto].
Qed.
(** Without core dumps nothing is written. *)
Lemma handle_nodump p e c : pr_core p = false -> pr_dump (snd (handle_error p e c)) = pr_dump p /\ pr_core (snd (handle_error p e c)) = false /\ pr_text (snd (handle_error p e c)) = pr_text p.
Proof. intros K. destruct e; cbn [handle_error snd]; unfold write_dump; rewrite ?K; auto. Qed.
Lemma rec_nodump show fuel p (el : option peer_table) o st' : pr_core p = false -> rec_loop show fuel (p, el) = Ok (o, st') -> pr_dump (fst st') = pr_dump p /\ pr_core (fst st') = false.
Proof.
  revert p el. induction fuel as [|f IH]; intros p el K H; [discriminate|]. cbn [rec_loop] in H. unfold next_record in H.
  assert (Er : forall e c p1, pr_core p1 = false -> pr_dump p1 = pr_dump p -> (let '(go, p'') := handle_error p1 e c in if go then rec_loop show f (p'', el) else Ok (None, (p'', el))) = Ok (o, st') ->
     pr_dump (fst st') = pr_dump p /\ pr_core (fst st') = false).
  { intros e c p1 K1 D1 G. destruct (handle_nodump p1 e c K1) as (A & B & _). destruct (handle_error p1 e c) as [[] p2]; cbn [snd] in A, B.
    - apply IH in G; [|exact B]. rewrite A, D1 in G. exact G.
    - apply ok_inj in G. inversion G; subst. cbn [fst]. rewrite A. auto. }
  destruct (pr_text p); [apply (Er _ _ p) in H; auto|]. destruct (parse_mrt_record_s (pr_stream p)) as [r z s'|e c s'|]; [|apply (Er _ _ (with_stream p s')) in H; auto|discriminate].
  cbn [pr_filters with_stream] in H. destruct (matches_rec show r (pr_filters p) el) as (el' & M & _). rewrite M in H. cbn [rbind] in H.
  destruct (passes show (pr_filters p) (el, r)).
  - apply ok_inj in H. inversion H; subst. auto.
  - apply IH in H; auto.
Qed.
(** ** Elementor and records *)
Lemma split_records show p items : pr_text p = None -> reads (pr_stream p) items ->
  exists el l, elementor_and_records show p = Ok (el, l) /\
    let rs := kept show (pr_filters p) None (usable (pr_core p) items) in
    (match rs with r :: rs' => match mr_msg r with MrtV2 (V2Peers t) => el = Some t /\ l = rs' | _ => el = None /\ l = rs end | [] => el = None /\ l = [] end).
Proof.
  intros T R. unfold elementor_and_records.
  assert (I : mrt_inv (pr_filters p) (pr_core p) p) by (repeat split; auto).
  destruct (rec_loop_spec show _ _ items _ R (S (ssize (pr_stream p))) p None I eq_refl ltac:(lia)) as (o & p' & el' & A & B & C).
  assert (X : record_next show (p, None) = Ok (o, (p', el'))) by (unfold record_next; cbn [fst]; rewrite T; exact A).
  rewrite X. cbn [rbind]. destruct o as [r|].
  - destruct C as (it & C1 & C2 & ->). pose proof (rec_yields show _ _ p' el' it B C1) as Y.
    erewrite yields_collect; [|exact Y|].
    2:{ cbn [fst]. pose proof (kept_length show (pr_filters p) el' (usable (pr_core p) it)). pose proof (usable_length (pr_core p) it). pose proof (reads_size _ _ C1). unfold item in *. lia. }
    cbn [rbind]. destruct (mr_msg r) as [| |[]| |]; eexists _, _; split; try reflexivity; cbv zeta; auto.
  - rewrite C. exists None, []. split; [reflexivity|]. cbv zeta. auto.
Qed.
Lemma split_raws p cs : pr_text p = None -> chunks (pr_stream p) cs ->
  exists el l, elementor_and_raws p = Ok (el, l) /\
    (el = None /\ usable (pr_core p) cs = l \/ exists w h t, usable (pr_core p) cs = w :: l /\ el = Some t /\ parse_raw w = Ok (MrtRecord h (MrtV2 (V2Peers t)))).
Proof.
  intros T R. unfold elementor_and_raws. assert (I : mrt_inv (pr_filters p) (pr_core p) p) by (repeat split; auto).
  destruct (raw_next_spec _ _ p cs I R) as (o & p' & A & B & C). rewrite A. cbn [rbind]. destruct o as [w|].
  - destruct C as (it & C1 & C2 & ->). pose proof (raw_yields _ _ p' it B C1) as Y. erewrite yields_collect; [|exact Y|].
    2:{ pose proof (usable_length (pr_core p) it). pose proof (chunks_size _ _ C1). unfold item in *. lia. }
    cbn [rbind]. pose proof (raw_np w) as NP. destruct (parse_raw w) as [[h [| |[]| |]]|e|] eqn:P; [..|congruence]; eexists _, _; (split; [reflexivity|]); try (left; auto; fail). right. eauto 6.
  - rewrite C. exists None, []. split; [reflexivity|]. auto.
Qed.

(** ** The theorems *)
Lemma filter_true {A} (l : list A) : List.filter (fun _ => true) l = l.
Proof. induction l as [|a l IH]; [reflexivity|]. cbn. rewrite IH. reflexivity. Qed.
Lemma filtered_length {A} (f : A -> bool) l : (length (List.filter f l) <= length l)%nat.
Proof. induction l as [|x l IH]; cbn; [lia|destruct (f x); cbn; lia]. Qed.
Lemma text_lists show p l : pr_text p = Some l ->
  record_list show p = Ok [] /\ frecord_list show p = Ok [] /\ raw_list p = Ok [] /\
  forall fuel, (length l < fuel)%nat ->
    elem_list show fuel p = Ok (List.filter (fun e => match_filters show (VElem e) (pr_filters p)) l) /\
    felem_list show fuel p = Ok (map inl (List.filter (fun e => match_filters show (VElem e) (pr_filters p)) l)).
Proof.
  intros T. split; [unfold record_list, record_next; cbn [collect]; cbn [fst]; rewrite T; reflexivity|].
  split; [unfold frecord_list, frecord_next; cbn [collect]; cbn [fst]; rewrite T; reflexivity|].
  split; [unfold raw_list, raw_next; cbn [collect]; rewrite T; reflexivity|].
  intros fuel L. destruct (text_elems show fuel (length l) p l [] None None T eq_refl) as (A & B).
  pose proof (filtered_length (fun e => match_filters show (VElem e) (pr_filters p)) l).
  split; (eapply yields_collect; [eassumption|]); rewrite ?map_length; lia.
Qed.
Lemma filtered_elems show p : exists n l, forall fuel, (n <= fuel)%nat ->
  elem_list show fuel (unfiltered p) = Ok l /\
  elem_list show fuel p = Ok (List.filter (fun e => match_filters show (VElem e) (pr_filters p)) l).
Proof.
  destruct (pr_text p) as [l|] eqn:T.
  - exists (S (length l)), l. intros fuel L. split; [|apply (text_lists show p l T); lia].
    destruct (text_lists show (unfiltered p) l T) as (_ & _ & _ & H). destruct (H fuel ltac:(lia)) as (-> & _). cbn [pr_filters unfiltered match_filters forallb]. rewrite filter_true. reflexivity.
  - destruct (reads_total (pr_stream p)) as (items & R). destruct (elem_list_ok show p items T R) as (n1 & H1).
    destruct (elem_list_ok show (unfiltered p) items T R) as (n2 & H2). exists (Nat.max n1 n2). eexists. intros fuel L.
    rewrite H1, H2 by lia. cbn [pr_filters pr_core unfiltered match_filters forallb]. rewrite filter_true. split; reflexivity.
Qed.
Lemma filtered_records show p : pr_text p = None -> exists l,
  record_list show (unfiltered p) = Ok l /\ record_list show p = Ok (map snd (List.filter (passes show (pr_filters p)) (annotate None l))).
Proof.
  intros T. destruct (reads_total (pr_stream p)) as (items & R). exists (usable (pr_core p) items).
  rewrite (record_list_ok show p items T R), (record_list_ok show (unfiltered p) items T R). cbn [pr_filters pr_core unfiltered]. rewrite kept_nil. split; reflexivity.
Qed.
Lemma fil_ext {A} (f g : A -> bool) l : (forall x, f x = g x) -> List.filter f l = List.filter g l.
Proof. intros E. induction l as [|x l IH]; [reflexivity|]. cbn. rewrite E, IH. reflexivity. Qed.
Lemma filtered_fallible show p : exists n l, forall fuel, (n <= fuel)%nat ->
  felem_list show fuel (unfiltered p) = Ok l /\
  felem_list show fuel p = Ok (List.filter (keep_item (fun e => match_filters show (VElem e) (pr_filters p))) l).
Proof.
  destruct (pr_text p) as [l|] eqn:T.
  - exists (S (length l)), (map inl l). intros fuel L. split.
    + destruct (text_lists show (unfiltered p) l T) as (_ & _ & _ & H). destruct (H fuel ltac:(lia)) as (_ & ->). cbn [pr_filters unfiltered match_filters forallb]. rewrite filter_true. reflexivity.
    + destruct (text_lists show p l T) as (_ & _ & _ & H). destruct (H fuel ltac:(lia)) as (_ & ->). rewrite <- filter_map_inl. reflexivity.
  - destruct (reads_total (pr_stream p)) as (items & R). destruct (felem_list_ok show p items T R) as (n1 & H1).
    destruct (felem_list_ok show (unfiltered p) items T R) as (n2 & H2). exists (Nat.max n1 n2), (felems None items). intros fuel L.
    rewrite H1, H2 by lia. split; [|reflexivity]. f_equal. rewrite <- (filter_true (felems None items)) at 2. apply fil_ext. intros [x|x]; reflexivity.
Qed.
Lemma elems_of_records show p : pr_text p = None -> exists n l, record_list show (unfiltered p) = Ok l /\
  forall fuel, (n <= fuel)%nat -> elem_list show fuel (unfiltered p) = Ok (flat_map elems_of (annotate None l)).
Proof.
  intros T. destruct (reads_total (pr_stream p)) as (items & R). destruct (elem_list_ok show (unfiltered p) items T R) as (n & H).
  exists n, (usable (pr_core p) items). rewrite (record_list_ok show (unfiltered p) items T R). cbn [pr_filters pr_core unfiltered]. rewrite kept_nil. split; [reflexivity|].
  intros fuel L. rewrite H by lia. cbn [pr_filters pr_core unfiltered match_filters forallb]. rewrite filter_true. reflexivity.
Qed.
Lemma default_records show p : exists items, frecord_list show p = Ok items /\ record_list show p = Ok (usable (pr_core p) items).
Proof.
  destruct (pr_text p) as [l|] eqn:T; [destruct (text_lists show p l T) as (A & B & _); exists []; auto|].
  destruct (reads_total (pr_stream p)) as (items & R). exists (fkept show (pr_filters p) None items).
  rewrite (record_list_ok show p items T R), (frecord_list_ok show p items T R), usable_kept. auto.
Qed.
Lemma default_elems show p : exists n items, forall fuel, (n <= fuel)%nat ->
  felem_list show fuel p = Ok items /\ elem_list show fuel p = Ok (usable (pr_core p) items).
Proof.
  destruct (pr_text p) as [l|] eqn:T.
  - exists (S (length l)). eexists. intros fuel L. destruct (text_lists show p l T) as (_ & _ & _ & H). destruct (H fuel ltac:(lia)) as (-> & ->). split; [reflexivity|].
    f_equal. symmetry. etransitivity; [|apply app_nil_r]. rewrite <- (app_nil_r (map inl _)). apply (usable_inl (pr_core p) _ []).
  - destruct (reads_total (pr_stream p)) as (items & R). destruct (elem_list_ok show p items T R) as (n1 & H1). destruct (felem_list_ok show p items T R) as (n2 & H2).
    exists (Nat.max n1 n2). eexists. intros fuel L. rewrite H1, H2 by lia. split; [reflexivity|]. rewrite usable_felems. reflexivity.
Qed.
Lemma filtered_raw show p : exists l, fraw_list show p = Ok l /\ record_list show p = Ok (map snd l) /\
  Forall (fun x => parse_raw (fst x) = Ok (snd x)) l /\ exists ws, raw_list p = Ok ws /\ subseq (map fst l) ws.
Proof.
  destruct (pr_text p) as [l|] eqn:T.
  - exists []. destruct (text_lists show p l T) as (-> & _ & -> & _).
    split; [unfold fraw_list, fraw_next; cbn [collect]; unfold fraw_loop, raw_next; rewrite T; reflexivity|]. repeat split; auto. exists []. split; constructor.
  - destruct (chunks_total (pr_stream p)) as (cs & C). destruct (reads_total (pr_stream p)) as (items & R).
    exists (pkept show (pr_filters p) None (pairs (pr_core p) cs)). rewrite (fraw_list_ok show p cs T C), (record_list_ok show p items T R), (raw_list_ok p cs T C).
    split; [reflexivity|]. split; [rewrite pkept_snd, (pairs_reads (pr_core p) _ _ C _ R); reflexivity|].
    pose proof (pkept_sub show (pr_filters p) None (pairs (pr_core p) cs)) as Sb.
    split; [eapply subseq_Forall; [exact Sb|apply pairs_parse]|]. eexists. split; [reflexivity|]. eapply subseq_trans; [apply subseq_map, Sb|apply pairs_sub].
Qed.
Lemma elementor_records show p : exists el l rs, elementor_and_records show p = Ok (el, l) /\ record_list show p = Ok rs /\
  flat_map elems_of (annotate el l) = flat_map elems_of (annotate None rs) /\ (rs = l \/ exists r, rs = r :: l /\ is_peer_table r = true).
Proof.
  destruct (pr_text p) as [l|] eqn:T.
  - destruct (text_lists show p l T) as (E & _). exists None, [], []. unfold elementor_and_records, record_next. cbn [fst]. rewrite T. repeat split; auto.
  - destruct (reads_total (pr_stream p)) as (items & R). destruct (split_records show p items T R) as (el & l & A & B). rewrite A, (record_list_ok show p items T R).
    exists el, l, (kept show (pr_filters p) None (usable (pr_core p) items)). split; [reflexivity|]. split; [reflexivity|]. cbv zeta in B.
    destruct (kept show (pr_filters p) None (usable (pr_core p) items)) as [|r rs]; [destruct B as (-> & ->); auto|].
    destruct (mr_msg r) as [| |[]| |] eqn:M; destruct B as (-> & ->); auto.
    assert (Pt : is_peer_table r = true) by (unfold is_peer_table; rewrite M; reflexivity).
    split; [|right; eauto]. cbn [annotate flat_map]. rewrite (table_elems None r Pt). unfold table_after. rewrite M. reflexivity.
Qed.
Lemma elementor_raws p : exists el l ws, elementor_and_raws p = Ok (el, l) /\ raw_list p = Ok ws /\
  (el = None /\ ws = l \/ exists w h t, ws = w :: l /\ el = Some t /\ parse_raw w = Ok (MrtRecord h (MrtV2 (V2Peers t)))).
Proof.
  destruct (pr_text p) as [l|] eqn:T.
  - exists None, [], []. destruct (text_lists (fun _ => []) p l T) as (_ & _ & -> & _). unfold elementor_and_raws, raw_next. rewrite T. auto.
  - destruct (chunks_total (pr_stream p)) as (cs & C). destruct (split_raws p cs T C) as (el & l & -> & B). rewrite (raw_list_ok p cs T C). eexists _, _, _. split; [reflexivity|]. split; [reflexivity|]. exact B.
Qed.
Lemma no_dump show p el st' : pr_core p = false -> ends_in (record_next show) (p, el) st' -> pr_dump (fst st') = pr_dump p.
Proof.
  intros K H. assert (G : forall st o st1, pr_core (fst st) = false -> record_next show st = Ok (o, st1) -> pr_dump (fst st1) = pr_dump (fst st) /\ pr_core (fst st1) = false).
  { intros [q e] o st1 Kq. unfold record_next. cbn [fst] in *. destruct (pr_text q); [intros X; apply ok_inj in X; inversion X; subst; auto|]. apply (rec_nodump show); auto. }
  remember (p, el) as st. assert (Ks : pr_core (fst st) = false) by (subst; auto). assert (D : pr_dump p = pr_dump (fst st)) by (subst; auto). rewrite D. clear - H G Ks.
  induction H as [st st' H|st a st1 st' H H1 IH]; [apply (G _ _ _ Ks) in H; apply H|]. apply (G _ _ _ Ks) in H as (A & B). rewrite IH by auto. exact A.
Qed.
