(** Proofs about joined and damaged sources. *)
From Coq Require Import Lia.
From Verif Require Import Base BaseFacts Reader ReaderFacts Net TableDump TableDumpFacts Stream Framing FramingFacts Bgp4mp MrtRecord MrtRecordFacts Elem ElemSpec Filter Iter IterSpec IterFacts BodyErrSpec BodyErrFacts PropMrtRecord LocalSpec.

(** Sources of the same octets are framed alike. *)
Lemma chunks_same s1 l : chunks s1 l -> forall s2, no_fail s1 -> no_fail s2 -> sbytes s1 = sbytes s2 -> chunks s2 l.
Proof.
  induction 1 as [s h c s' E|s r s' l E H IH|s e h c s' l E D H IH]; intros s2 N1 N2 B; pose proof (chunk_agree s s2 N1 N2 B) as A; rewrite E in A;
    destruct (chunk_mrt_record_s s2) as [r2 t|e2 h2 c2 t] eqn:E2; try contradiction A; cbn in A.
  - destruct A as (<- & <- & <- & _). eapply chunks_end. exact E2.
  - destruct A as (<- & A1 & A2 & A3). eapply chunks_rec; [exact E2|]. apply IH; auto.
  - destruct A as (<- & <- & <- & A1 & A2 & A3). eapply chunks_err; [exact E2|exact D|]. apply IH; auto.
Qed.
Lemma whole_step w rest s : whole w -> no_fail s -> sbytes s = raw_bytes w ++ rest -> exists s', chunk_mrt_record_s s = CRec w s' /\ no_fail s' /\ sbytes s' = rest.
Proof.
  intros W N B. pose proof (chunk_local _ _ _ W rest) as C. rewrite <- B, <- (chunk_stream_flat s N) in C.
  pose proof (chunk_agree s [Data (sbytes s)] N (no_fail_data _) (eq_sym (sbytes_data _))) as A.
  destruct (chunk_mrt_record_s s) as [r t|]; [|discriminate C]. cbn [to_frame] in C. injection C as -> C. exists t. split; [reflexivity|].
  destruct (chunk_mrt_record_s [Data (sbytes s)]) as [r2 t2|]; [|contradiction A]. cbn in A. split; [tauto|exact C].
Qed.
Lemma chunks_front ws : forall rest s, Forall whole ws -> no_fail s -> sbytes s = concat (map raw_bytes ws) ++ rest ->
  exists s', no_fail s' /\ sbytes s' = rest /\ forall l, chunks s' l -> chunks s (map inl ws ++ l).
Proof.
  induction ws as [|w ws IH]; intros rest s F N B; cbn [map concat app] in *.
  - exists s. auto.
  - inversion F as [|? ? W F']; subst. rewrite <- app_assoc in B. destruct (whole_step w _ s W N B) as (t & E & Nt & Bt).
    destruct (IH rest t F' Nt Bt) as (s' & N' & B' & K). exists s'. split; [exact N'|]. split; [exact B'|]. intros l C. eapply chunks_rec; [exact E|]. apply K. exact C.
Qed.
Lemma chunks_wholes s items : chunks s items -> forall ws, items = map inl ws -> no_fail s -> Forall whole ws /\ sbytes s = concat (map raw_bytes ws).
Proof.
  induction 1 as [s h c s' E|s r s' l E H IH|s e h c s' l E D H IH]; intros ws Q N; destruct ws as [|w ws]; try discriminate Q.
  - split; [constructor|]. pose proof (chunk_bytes s) as B. rewrite E in B. cbn. destruct c; [destruct B as (B1 & B2); congruence|]. exact (proj1 (proj2 B)).
  - cbn [map] in Q. assert (r = w) by congruence. assert (Ql : l = map inl ws) by congruence. clear Q. subst r.
    pose proof (chunk_stream_flat s N) as F. rewrite E in F. cbn [to_frame] in F. symmetry in F. pose proof (chunk_local _ _ _ F []) as W. rewrite app_nil_r in W.
    pose proof (chunk_agree s [Data (sbytes s)] N (no_fail_data _) (eq_sym (sbytes_data _))) as A. rewrite E in A.
    destruct (chunk_mrt_record_s [Data (sbytes s)]) as [r2 t2|]; [|contradiction A]. cbn in A. destruct (IH ws Ql (proj1 (proj2 A))) as (F1 & F2).
    split; [constructor; [exact W|exact F1]|]. pose proof (chunk_bytes s) as B. rewrite E in B. cbn [map concat]. rewrite <- F2. exact (proj1 B).
Qed.
(** Other octets in the body do not change the framing, unless they call for a correction. *)
Lemma whole_body w b : whole w -> in_place w b -> length b = length (r_body w) -> whole (with_body w b).
Proof.
  unfold whole, in_place. intros W T L. rewrite chunk_flat in *. unfold flat_chunk in *. destruct (flat_header (raw_bytes w)) as [[[h hb] s]|[[e c] r]] eqn:FH.
  2: { destruct e, c; discriminate W. }
  destruct (MAX_MRT_MESSAGE_LEN <? h_len h) eqn:M; [discriminate W|]. destruct (splitn (N.to_nat (h_len h)) s) as [[body s2]|] eqn:SP; [|discriminate W].
  assert (Lb : length body = N.to_nat (h_len h)) by (apply splitn_some in SP as (_ & SP); exact SP).
  assert (HD : r_hdr w = h). { destruct (_ && _); [destruct (splitn 4 s2) as [[? ?]|]; [|discriminate W]|]; injection W as <- _; reflexivity. }
  rewrite HD in T.
  assert (NC : (h_type h =? ET_TABLE_DUMP) && needs_legacy_length_correction (h_sub h) body = false).
  { destruct (_ && _) eqn:C; [|reflexivity]. apply andb_prop in C as (C & _). apply N.eqb_eq in C. destruct (T C) as (T1 & _).
    destruct (splitn 4 s2) as [[c r]|] eqn:S4; [|discriminate W]. apply splitn_some in S4 as (_ & S4). assert (Q : w = Raw h hb (body ++ c)) by congruence.
    rewrite Q in T1. cbn [r_body] in T1. unfold nlen in T1. rewrite app_length in T1. lia. }
  assert (NB : (h_type h =? ET_TABLE_DUMP) && needs_legacy_length_correction (h_sub h) b = false).
  { clear W NC. destruct (_ && _) eqn:C; [|reflexivity]. apply andb_prop in C as (C & D). apply N.eqb_eq in C. apply four_short_iff in D. destruct (T C) as (_ & T2). contradiction. }
  rewrite NC in W. assert (Q : w = Raw h hb body) by congruence. assert (s2 = []) by congruence. subst s2.
  rewrite Q in *. clear Q. unfold with_body, raw_bytes in *. cbn [r_hdr r_hbytes r_body] in *. rewrite (flat_header_local _ _ _ _ FH b), M.
  assert (Sp : splitn (N.to_nat (h_len h)) b = Some (b, [])).
  { pose proof (splitn_app (N.to_nat (h_len h)) b [] (eq_trans L Lb)) as X. rewrite app_nil_r in X. exact X. }
  rewrite Sp, NB. reflexivity.
Qed.

(** Outcomes are determined. *)
Lemma outcome_fun i a b : outcome i a -> outcome i b -> a = b.
Proof. intros A B. inversion A; subst; inversion B; subst; congruence. Qed.
Lemma outcomes_fun l a b : Forall2 outcome l a -> Forall2 outcome l b -> a = b.
Proof. intros A. revert b. induction A as [|i o l a H A IH]; intros b B; inversion B; subst; [reflexivity|]. f_equal; [eapply outcome_fun; eauto|auto]. Qed.
Lemma outcome_ex w : exists x, outcome (inl w) x.
Proof.
  destruct (parse_raw w) as [r|e|] eqn:E; [eexists; constructor; exact E|eexists; constructor; [exact E|exact (raw_kind _ _ E)]|].
  destruct C04_no_panic as (_ & H & _). destruct (H _ E).
Qed.
Lemma reads_of s items outs : chunks s items -> Forall2 outcome items outs -> reads s outs.
Proof. intros C F. destruct (reads_chunks _ _ C) as (o & R & F'). rewrite (outcomes_fun _ _ _ F F'). exact R. Qed.
Lemma frecords_of show p items outs : pr_text p = None -> chunks (pr_stream p) items -> Forall2 outcome items outs -> frecord_list show (unfiltered p) = Ok outs.
Proof.
  intros T C F. rewrite (frecord_list_ok show (unfiltered p) outs T (reads_of _ _ _ C F)). cbn [pr_filters unfiltered]. rewrite fkept_nil. reflexivity.
Qed.

(** Elements. *)
Lemma annotate_app a : forall t b, annotate_items t (a ++ b) = annotate_items t a ++ annotate_items (table_since t a) b.
Proof. induction a as [|[r|e] a IH]; intros t b; cbn [app annotate_items table_since]; [reflexivity| |]; rewrite IH; reflexivity. Qed.
Lemma felems_app t a b : felems t (a ++ b) = felems t a ++ felems (table_since t a) b.
Proof. unfold felems. rewrite annotate_app. apply flat_map_app. Qed.
Lemma felems_one t x l : felems t (x :: l) = elements_under t x ++ felems (table_since t [x]) l.
Proof. destruct x as [r|e]; reflexivity. Qed.
Lemma no_table_after t r : is_peer_table r = false -> table_after t r = t.
Proof. unfold is_peer_table, table_after. destruct (mr_msg r) as [| |[]| |]; intros H; first [reflexivity|discriminate H]. Qed.
Lemma no_table_since a : forall t, Forall no_table a -> table_since t a = t.
Proof. induction a as [|[r|e] a IH]; intros t F; cbn [table_since]; [reflexivity| |]; inversion F as [|? ? H F']; subst; [rewrite (no_table_after t r H)|]; auto. Qed.
Lemma outcome_table w x : outcome (inl w) x -> ~ peer_index w -> no_table x.
Proof.
  intros O N. inversion O as [? r E|? e E K|]; subst; cbn [no_table]; [|exact I]. unfold is_peer_table. unfold parse_raw in E. apply rbind_inv in E as (m & B & E). apply ok_inj in E. subst r. cbn [mr_msg].
  destruct m as [d|l|v|y|g]; try reflexivity. destruct v as [t|r0| |g]; try reflexivity. destruct N. pose proof (C55_kind _ _ _ _ B) as (K1 & K2). split; [exact K1|]. exact (eq_sym K2).
Qed.
Lemma elems_of_outs show p items outs : pr_text p = None -> chunks (pr_stream p) items -> Forall2 outcome items outs ->
  exists n, forall fuel, (n <= fuel)%nat -> felem_list show fuel p = Ok (List.filter (match_item show (pr_filters p)) (felems None outs)).
Proof. intros T C F. exact (felem_list_ok show p outs T (reads_of _ _ _ C F)). Qed.
Lemma outcomes_ex ws : exists a, Forall2 outcome (map inl ws) a.
Proof. induction ws as [|w ws (a & IH)]; [exists []; constructor|]. destruct (outcome_ex w) as (x & X). exists (x :: a). constructor; auto. Qed.
Lemma outcomes_tables ws a : Forall2 outcome (map inl ws) a -> Forall (fun w => ~ peer_index w) ws -> Forall no_table a.
Proof. revert a. induction ws as [|w ws IH]; intros a F N; inversion F; subst; constructor; inversion N; subst; [eapply outcome_table; eauto|auto]. Qed.
Lemma chunks_join s t u ws l : no_fail s -> no_fail t -> no_fail u -> sbytes u = sbytes s ++ sbytes t -> chunks s (map inl ws) -> chunks t l -> chunks u (map inl ws ++ l).
Proof.
  intros Ns Nt Nu B Cs Ct. destruct (chunks_wholes _ _ Cs ws eq_refl Ns) as (F & Bs). rewrite Bs in B.
  destruct (chunks_front ws _ u F Nu B) as (u' & N' & B' & K). apply K. eapply chunks_same; [exact Ct|exact Nt|exact N'|]. symmetry. exact B'.
Qed.
Lemma usable_raws ws l : usable false (map inl ws ++ l) = ws ++ usable (A := raw) false l.
Proof. apply usable_inl. Qed.
Lemma usable_outs ws a l : Forall2 outcome (map inl ws) a -> Forall (fun w => parse_raw w <> Err EIo) ws -> usable false (a ++ l) = usable false a ++ usable false l.
Proof.
  revert a. induction ws as [|w ws IH]; intros a F N; inversion F as [|? x ? a' O F']; subst; [reflexivity|]. inversion N as [|? ? E N']; subst.
  inversion O as [? r X|? e X K|]; subst; cbn [app usable]; rewrite (IH _ F' N'); [reflexivity|]. destruct e; try discriminate K; cbn [stops]; try reflexivity. congruence.
Qed.
Lemma annotate_rapp a : forall t b, annotate t (a ++ b) = annotate t a ++ annotate (fold_left table_after a t) b.
Proof. induction a as [|r a IH]; intros t b; cbn [app annotate fold_left]; [reflexivity|]. rewrite IH. reflexivity. Qed.
Lemma usable_tables a : Forall no_table a -> forall t, fold_left table_after (usable false a) t = t.
Proof.
  induction 1 as [|x a H F IH]; intros t; [reflexivity|]. destruct x as [r|[e c]]; cbn [usable]; [cbn [fold_left]; rewrite (no_table_after t r H); apply IH|].
  destruct (stops false e); [reflexivity|apply IH].
Qed.
