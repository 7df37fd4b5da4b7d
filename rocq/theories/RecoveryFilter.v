(** Proofs about recovery with filters: what is found does not depend on them. *)
From Coq Require Import Lia.
From Verif Require Import Base BaseFacts TableDump Community Stream Framing FramingFacts MrtRecord Elem ElemSpec Filter Iter IterSpec IterFacts Recovery RecoverySpec RecoveryFacts.

Definition refit (fs : list filter) (el : option peer_table) (st : recovering) : recovering :=
  Recovering (rs_stream st) (rs_offset st) (rs_config st) fs el (rs_core st) (rs_unsupported st) (rs_finished st) (rs_dump st).
Lemma recover_refit fs el st a b e c :
  recover (refit fs el st) a b e c = match recover st a b e c with Ok (o, st') => Ok (o, refit fs el st') | Err x => Err x | Panic => Panic end.
Proof.
  unfold recover, search_gap. destruct st as [s o cf fs0 el0 co un fi du]. unfold refit, rs_write_dump, rs_at, rs_finish, resume. cbn [rs_stream rs_offset rs_config rs_filters rs_el rs_core rs_unsupported rs_finished rs_dump].
  repeat match goal with
  | |- Ok _ = Ok _ => reflexivity
  | |- context [if ?b then _ else _] => destruct b
  | |- context [match ?x with _ => _ end] => match type of x with io _ => destruct x | option N => destruct x | scan_outcome => destruct x | _ => fail end
  end; reflexivity.
Qed.
Lemma rloop_mono show fuel : forall fuel' st r, rnext_loop show fuel st = Ok r -> (fuel <= fuel')%nat -> rnext_loop show fuel' st = Ok r.
Proof.
  induction fuel as [|fuel IH]; intros fuel' st r E L; [discriminate E|]. destruct fuel' as [|fuel']; [lia|]. cbn [rnext_loop] in *.
  destruct (chunk_mrt_record_s (rs_stream st)) as [w s|e h c s]; [|exact E]. destruct (parse_raw w) as [x|e|]; [|exact E|exact E].
  destruct (record_matches_filters show x (rs_filters (rs_read st s)) (rs_el (rs_read st s))) as [[m el]|e|]; cbn [rbind] in *; [|exact E|exact E]. destruct m; [exact E|]. apply IH; [exact E|lia].
Qed.
Lemma yields_same {S A} (next : S -> res (option A * S)) a b l : next a = next b -> yields (fun _ => True) next a l -> yields (fun _ => True) next b l.
Proof. intros E Y. destruct Y as [st st' _ H|st x st' l _ H Y]; econstructor; try exact I; try (rewrite <- E; exact H). exact Y. Qed.

(** The events with the records that do not pass left out. *)
Fixpoint sieve (show : meta_community -> bytes) (fs : list filter) (t : option peer_table) (l : list (event mrt_record + rerror)) : list (event mrt_record + rerror) :=
  match l with
  | [] => []
  | inl (Item x) :: l' => (if passes show fs (t, x) then [inl (Item x)] else []) ++ sieve show fs (table_after t x) l'
  | a :: l' => a :: sieve show fs t l'
  end.
Lemma sieve_nil show t l : sieve show [] t l = l.
Proof. revert t. induction l as [|[[x|g]|x] l IH]; intros t; cbn; f_equal; auto. Qed.
Lemma sieve_shown show fs segs out : forall t, sieve show fs t (map inl (shown show [] t segs) ++ map inr out) = map inl (shown show fs t segs) ++ map inr out.
Proof.
  induction segs as [|[r x|b g] segs IH]; intros t; cbn [shown map app passes].
  - induction out as [|x out IH]; cbn; [reflexivity|f_equal; exact IH].
  - cbn [sieve]. rewrite IH, map_app, <- app_assoc. f_equal. destruct (passes show fs (t, x)); reflexivity.
  - cbn [sieve]. f_equal. apply IH.
Qed.
Lemma recover_gap st a b e c o st' : recover st a b e c = Ok (o, st') -> match o with Some (inl (Item _)) => False | _ => True end.
Proof.
  unfold recover, search_gap. repeat match goal with
  | |- Ok _ = Ok _ -> _ => let H := fresh in intros H; injection H as <- _; exact I
  | |- context [if ?b then _ else _] => destruct b
  | |- context [match ?x with _ => _ end = _] => destruct x
  end; intros H; try discriminate H; injection H as <- _; exact I.
Qed.
Lemma refit_same st : refit (rs_filters st) (rs_el st) st = st. Proof. destruct st. reflexivity. Qed.
Lemma recover_filters st a b e c o st' : recover st a b e c = Ok (o, st') -> rs_filters st' = rs_filters st.
Proof. intros E. pose proof (recover_refit (rs_filters st) (rs_el st) st a b e c) as R. rewrite refit_same, E in R. injection R as ->. reflexivity. Qed.
Lemma rnext_refit show st o st1 : rnext show st = Ok (o, st1) -> rs_filters st = [] -> rs_filters st1 = [] /\ forall fs el,
  match o with
  | Some (inl (Item x)) => exists el', (fs = [] \/ el' = table_after el x) /\
      (if passes show fs (el, x) then rnext show (refit fs el st) = Ok (o, refit fs el' st1) else rnext show (refit fs el st) = rnext show (refit fs el' st1))
  | _ => rnext show (refit fs el st) = Ok (o, refit fs el st1)
  end.
Proof.
  intros E F. unfold rnext in E. destruct (rs_finished st) eqn:FI.
  { injection E as <- <-. split; [exact F|]. intros fs el. unfold rnext. cbn [refit rs_finished]. rewrite FI. reflexivity. }
  destruct (rs_unsupported st) eqn:UN.
  { injection E as <- <-. split; [exact F|]. intros fs el. unfold rnext. cbn [refit rs_finished rs_unsupported]. rewrite FI, UN. reflexivity. }
  assert (REC : forall fr e c s, recover (rs_read st s) (rs_offset st) fr e c = Ok (o, st1) ->
    rs_filters st1 = [] /\ match o with Some (inl (Item _)) => False | _ => True end /\ forall fs el, recover (rs_read (refit fs el st) s) (rs_offset st) fr e c = Ok (o, refit fs el st1)).
  { intros fr e c s R. split; [rewrite (recover_filters _ _ _ _ _ _ _ R); exact F|]. split; [exact (recover_gap _ _ _ _ _ _ _ R)|]. intros fs el.
    change (rs_read (refit fs el st) s) with (refit fs el (rs_read st s)). rewrite recover_refit, R. reflexivity. }
  cbn [rnext_loop] in E. pose proof (chunk_bytes (rs_stream st)) as CB. destruct (chunk_mrt_record_s (rs_stream st)) as [w s|e h c s] eqn:CH.
  - destruct (parse_raw w) as [x|e|] eqn:PR; [| |discriminate E].
    + change (rs_filters (rs_read st s)) with (rs_filters st) in E. rewrite F in E. cbn [record_matches_filters rbind] in E. cbv iota in E.
      injection E as <- <-. split; [exact F|]. intros fs el. destruct (matches_rec show x fs el) as (el' & M & EL). exists el'. split; [destruct EL as [[-> _]|EL]; auto|].
      unfold rnext at 1 2. cbn [refit rs_finished rs_unsupported]. rewrite FI, UN. cbn [rnext_loop refit rs_stream]. rewrite CH, PR.
      change (rs_filters (rs_read (refit fs el st) s)) with fs. change (rs_el (rs_read (refit fs el st) s)) with el.
      rewrite M. cbn [rbind]. destruct (passes show fs (el, x)) eqn:PA; [reflexivity|].
      set (st2 := rs_with_el _ el'). set (st3 := refit fs el' _). assert (st2 = st3) as -> by reflexivity.
      unfold rnext. change (rs_finished st3) with (rs_finished st). change (rs_unsupported st3) with (rs_unsupported st). rewrite FI, UN. change (rs_stream st3) with s.
      assert (FI3 : rs_finished st3 = false) by exact FI. assert (UN3 : rs_unsupported st3 = false) by exact UN. assert (ST3 : rs_stream st3 = s) by reflexivity.
      destruct (rloop_ok show (S (length (sbytes s))) st3 ltac:(rewrite ST3; lia) FI3 UN3) as (o & st' & R & _). rewrite R. apply (rloop_mono _ _ _ _ _ R). destruct CB as (CB & L12). rewrite CB, app_length. lia.
    + destruct (REC _ _ _ _ E) as (R1 & R2 & R3). split; [exact R1|]. intros fs el.
      assert (G : rnext show (refit fs el st) = Ok (o, refit fs el st1)).
      { unfold rnext. cbn [refit rs_finished rs_unsupported]. rewrite FI, UN. cbn [rnext_loop refit rs_stream]. rewrite CH, PR. apply R3. }
      destruct o as [[[x|g]|x]|]; auto. destruct R2.
  - assert (Z : rs_filters st1 = [] /\ match o with Some (inl (Item _)) => False | _ => True end /\ forall fs el, rnext show (refit fs el st) = Ok (o, refit fs el st1)).
    { destruct (io_failure e (rs_stream st) s) eqn:IO.
      - assert (K : rs_filters st1 = [] /\ match o with Some (inl (Item _)) => False | _ => True end /\ forall fs el, st1 = rs_finish (rs_read st s) /\ refit fs el st1 = rs_finish (rs_read (refit fs el st) s)).
        { destruct e; injection E as <- <-; (split; [exact F|split; [exact I|split; reflexivity]]). }
        destruct K as (K1 & K2 & K3). split; [exact K1|]. split; [exact K2|]. intros fs el. destruct (K3 fs el) as [_ K]. rewrite K.
        unfold rnext. cbn [refit rs_finished rs_unsupported]. rewrite FI, UN. cbn [rnext_loop refit rs_stream]. rewrite CH, IO. destruct e; injection E as <- _; reflexivity.
      - assert (D : e = EEofExpected /\ o = None /\ st1 = rs_finish (rs_read st s) \/ e <> EEofExpected /\ recover (rs_read st s) (rs_offset st) None e c = Ok (o, st1)).
        { destruct e; try (right; split; [discriminate|exact E]). left. injection E as <- <-. auto. }
        destruct D as [(-> & -> & ->)|[NE R]].
        + split; [exact F|]. split; [exact I|]. intros fs el. unfold rnext. cbn [refit rs_finished rs_unsupported]. rewrite FI, UN. cbn [rnext_loop refit rs_stream]. rewrite CH. reflexivity.
        + destruct (REC _ _ _ _ R) as (R1 & R2 & R3). split; [exact R1|]. split; [exact R2|]. intros fs el.
          unfold rnext. cbn [refit rs_finished rs_unsupported]. rewrite FI, UN. cbn [rnext_loop refit rs_stream]. rewrite CH, IO. specialize (R3 fs el). destruct e; try congruence; exact R3. }
    destruct Z as (Z1 & Z2 & Z3). split; [exact Z1|]. intros fs el. destruct o as [[[x|g]|x]|]; try apply Z3. destruct Z2.
Qed.
Lemma yields_sieve show st l : yields (fun _ => True) (rnext show) st l -> rs_filters st = [] -> forall fs el, yields (fun _ => True) (rnext show) (refit fs el st) (sieve show fs el l).
Proof.
  induction 1 as [st st' _ E|st a st' l _ E Y IH]; intros F fs el; destruct (rnext_refit _ _ _ _ E F) as [F' K]; specialize (K fs el).
  - cbn [sieve]. econstructor; [exact I|exact K].
  - destruct a as [[x|g]|x]; cbn [sieve].
    + destruct K as (el' & EL & K). assert (S : sieve show fs (table_after el x) l = sieve show fs el' l) by (destruct EL as [->| ->]; [rewrite !sieve_nil|]; reflexivity). rewrite S.
      destruct (passes show fs (el, x)); cbn [app].
      * econstructor; [exact I|exact K|]. apply IH, F'.
      * eapply yields_same; [symmetry; exact K|]. apply IH, F'.
    + econstructor; [exact I|exact K|]. apply IH, F'.
    + econstructor; [exact I|exact K|]. apply IH, F'.
Qed.
Lemma recovered_filtered show p c : pr_text p = None -> exists segs out tail,
  recovered show (unfiltered p) c = Ok (map inl (shown show [] None segs) ++ map inr out) /\
  recovered show p c = Ok (map inl (shown show (pr_filters p) None segs) ++ map inr out) /\
  sbytes (pr_stream p) = seg_all segs ++ tail /\ tiled c 0 segs tail /\
  (out = [] /\ tail = [] \/ exists x, out = [x] /\ re_offset x = nlen (seg_all segs) /\ (quiet (pr_stream p) -> gives_up c tail x)).
Proof.
  intros T. destruct (recovered_spec show (unfiltered p) c T) as (segs & out & tail & C & Y & E & TI & X). exists segs, out, tail.
  split; [apply C; lia|]. split; [|split; [exact E|split; [exact TI|exact X]]].
  pose proof (yields_sieve _ _ _ Y eq_refl (pr_filters p) None) as Z. cbn [unfiltered pr_filters] in Z. rewrite sieve_shown in Z.
  change (refit (pr_filters p) None (into_recovering (unfiltered p) c)) with (into_recovering p c) in Z.
  eapply yields_collect; [exact Z|]. cbn [unfiltered pr_stream] in E. rewrite E. pose proof (shown_small show (pr_filters p) segs None). pose proof (tiled_small _ _ _ _ TI).
  rewrite !app_length, !map_length. assert ((length out <= 1)%nat) by (destruct X as [(-> & _)|(x & -> & _)]; cbn; lia). lia.
Qed.
