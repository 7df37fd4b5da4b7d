(** Proofs about diagnostic iteration. *)
From Coq Require Import Lia ZifyBool ZifyNat ZifyN.
From Verif Require BodyErrFacts.
From Verif Require Import Base BaseFacts Reader ReaderFacts Net Attr BgpMsg Bgp4mp TableDump Stream Framing FramingFacts MrtRecord MrtRecordFacts
  TableDumpFacts Iter IterSpec IterFacts Dissect DissectSpec DissectFacts DissectWhole Diagnostic DiagnosticSpec.

(** ** Framing of sources that may fail *)
Lemma read_upto_short n s st g s' : read_upto n s = (st, g, s') -> st <> Full -> (length g < n)%nat.
Proof.
  revert n st g s'. induction s as [|e s IH]; intros n st g s' H D; destruct n; cbn [read_upto] in H; try (injection H as <- <- <-; congruence); try (injection H as <- <- <-; cbn; lia).
  remember (S n) as m. destruct e as [l| |].
  - destruct (Nat.leb m (length l)) eqn:E; [injection H as <- <- <-; congruence|].
    destruct (read_upto (m - length l) s) as [[st' g'] s''] eqn:E2. injection H as <- <- <-. apply IH in E2; [|exact D]. rewrite app_length. lia.
  - eauto.
  - injection H as <- <- <-. cbn. lia.
Qed.
Lemma splitn_exact n (l : bytes) : length l = n -> splitn n l = Some (l, []).
Proof. intros H. rewrite <- (app_nil_r l) at 1. apply splitn_app. exact H. Qed.
Lemma splitn_none n (l : bytes) : (length l < n)%nat -> splitn n l = None.
Proof. intros H. destruct (splitn n l) as [[g r]|] eqn:E; [|reflexivity]. apply splitn_some in E as [-> <-]. rewrite app_length in H. lia. Qed.
Lemma header_read s : match parse_common_header_s s with
  | HOk h hb _ => flat_header hb = inl (h, hb, []) /\ (length hb <= 16)%nat
  | HErr e c _ => (exists x, flat_header c = inr x) /\ (length c <= 16)%nat
  end.
Proof.
  unfold parse_common_header_s. destruct (read_upto 12 s) as [[st g] s'] eqn:E. destruct st.
  2,3: apply read_upto_short in E; [|discriminate]; split; [|lia]; unfold flat_header; rewrite splitn_none by exact E; eauto.
  apply read_upto_full in E. destruct (split_header g) as [[[ts ty] sub] len] eqn:Sh.
  assert (B : forall x, splitn 12 (g ++ x) = Some (g, x)) by (intros x; apply splitn_app; exact E).
  assert (B0 : splitn 12 g = Some (g, [])) by (apply splitn_exact; exact E).
  destruct (negb (etype_known ty)) eqn:K. { split; [|lia]. unfold flat_header. rewrite B0, Sh, K. eauto. }
  destruct (ty =? ET_BGP4MP_ET) eqn:T.
  - destruct (len <? 4) eqn:L. { split; [|lia]. unfold flat_header. rewrite B0, Sh, K, T, L. eauto. }
    destruct (read_upto 4 s') as [[st u] s''] eqn:E2. destruct st.
    2,3: apply read_upto_short in E2; [|discriminate]; split; [|rewrite app_length; lia]; unfold flat_header; rewrite B, Sh, K, T, L, splitn_none by exact E2; eauto.
    apply read_upto_full in E2. split; [|rewrite app_length; lia]. unfold flat_header. rewrite B, Sh, K, T, L, splitn_exact by exact E2. reflexivity.
  - split; [|lia]. unfold flat_header. rewrite B0, Sh, K, T. reflexivity.
Qed.
Lemma header_in_flat b : header_in b = match flat_header b with inl (h, _, _) => Some h | inr _ => None end.
Proof.
  unfold header_in. pose proof (flat_header_eq [Data b] (no_fail_data b)) as H. rewrite sbytes_data in H.
  destruct (flat_header b) as [[[h hb] r]|[[e c] r]]; destruct H as (s' & _ & _ & ->); reflexivity.
Qed.
Lemma header_in_app hb x h r : flat_header hb = inl (h, hb, r) -> header_in (hb ++ x) = Some h.
Proof. intros H. rewrite header_in_flat. erewrite flat_header_local; [reflexivity|exact H]. Qed.
Lemma chunk_read s : match chunk_mrt_record_s s with
  | CRec r _ => header_in (raw_bytes r) = Some (r_hdr r) /\ flat_header (r_hbytes r) = inl (r_hdr r, r_hbytes r, []) /\ nlen (raw_bytes r) < 4294967296
  | CErr e h c _ => e <> EEofExpected -> exists b, c = Some b /\ h = header_in b /\ nlen b < 4294967296
  end.
Proof.
  unfold chunk_mrt_record_s. pose proof (header_read s) as H. destruct (parse_common_header_s s) as [h hb s'|e c s'].
  - destruct H as (Hf & Hl). destruct (MAX_MRT_MESSAGE_LEN <? h_len h) eqn:M.
    { intros _. exists hb. split; [reflexivity|]. split; [|unfold nlen; lia]. rewrite <- (app_nil_r hb). symmetry. eapply header_in_app. exact Hf. }
    unfold MAX_MRT_MESSAGE_LEN in M. destruct (read_upto (N.to_nat (h_len h)) s') as [[st body] s2] eqn:E. destruct st.
    2,3: intros _; eexists; split; [reflexivity|]; split; [symmetry; eapply header_in_app; exact Hf|]; apply read_upto_short in E; [|discriminate]; unfold nlen; rewrite app_length; lia.
    apply read_upto_full in E. destruct ((h_type h =? ET_TABLE_DUMP) && needs_legacy_length_correction (h_sub h) body).
    + destruct (read_upto 4 s2) as [[st corr] s3] eqn:E2. destruct st.
      2,3: intros _; eexists; split; [reflexivity|]; split; [symmetry; eapply header_in_app; exact Hf|]; apply read_upto_short in E2; [|discriminate]; unfold nlen; rewrite !app_length; lia.
      apply read_upto_full in E2. unfold raw_bytes. cbn [r_hdr r_hbytes r_body]. split; [eapply header_in_app; exact Hf|]. split; [exact Hf|]. unfold nlen; rewrite !app_length; lia.
    + unfold raw_bytes. cbn [r_hdr r_hbytes r_body]. split; [eapply header_in_app; exact Hf|]. split; [exact Hf|]. unfold nlen; rewrite !app_length; lia.
  - destruct H as ((x & Hf) & Hl). assert (Q : header_in c = None) by (rewrite header_in_flat, Hf; destruct x as [[? ?] ?]; reflexivity).
    destruct e; try (intros _; exists c; split; [reflexivity|]; split; [auto|unfold nlen; lia]).
    destruct c; intros D; [congruence|]. eexists. split; [reflexivity|]. split; [auto|unfold nlen in *; lia].
Qed.
Lemma tree_ok b : nlen b < 4294967296 -> exists t, tree_over b t.
Proof.
  intros Sm. destruct (mrt_node b Sm) as (t & E & Ef & Eo & Ee & K). exists t. unfold nd_end in Ee. rewrite Eo in Ee. repeat split; auto.
Qed.

(** ** The events *)
Lemma findings_eq m : record_warnings m = findings (mr_msg m).
Proof.
  unfold record_warnings, findings, message_warnings. destruct (mr_msg m) as [x|l|x|x|x]; cbn [blocks refreshes message_of flat_map]; rewrite ?app_nil_r; auto.
  - rewrite flat_map_concat_map, <- (map_map td_attrs), <- flat_map_concat_map. reflexivity.
  - destruct x as [| b | |]; cbn [blocks message_of flat_map]; rewrite ?app_nil_r; auto. rewrite flat_map_concat_map, <- (map_map re_attrs), <- flat_map_concat_map. reflexivity.
  - unfold refreshes. cbn [message_of]. destruct x as [|x]; cbn [flat_map app]; auto. destruct (mm_bgp x); cbn [flat_map]; rewrite ?app_nil_r; auto.
  - unfold refreshes. cbn [message_of]. destruct x as [x|]; cbn [flat_map app]; auto. destruct (lg_bgp x); cbn [flat_map]; rewrite ?app_nil_r; auto.
Qed.
Lemma diag_step p : pr_text p = None ->
  match chunk_mrt_record_s (pr_stream p) with
  | CErr EEofExpected _ _ s => diag_next (p, false) = Ok (None, (with_stream p s, true))
  | CErr e h c s => exists ev, diag_next (p, false) = Ok (Some ev, (with_stream p s, true)) /\ event_of (inr (e, c)) ev
  | CRec r s => exists ev, diag_next (p, false) = Ok (Some ev, (with_stream p s, false)) /\ event_of (inl r) ev
  end.
Proof.
  intros T. unfold diag_next. rewrite T. pose proof (chunk_read (pr_stream p)) as R. destruct (chunk_mrt_record_s (pr_stream p)) as [r s|e h c s].
  - destruct R as (Rh & _ & Rl). pose proof (raw_np r) as Np. destruct (parse_raw r) as [m|e|] eqn:Pr; [| |elim (Np eq_refl)].
    + eexists. split; [reflexivity|]. rewrite findings_eq. constructor. exact Pr.
    + destruct (tree_ok _ Rl) as (t & Tt). cbn [partial_tree]. rewrite (proj1 Tt). cbn [rbind]. eexists. split; [reflexivity|]. constructor; auto.
  - assert (G : e <> EEofExpected -> exists ev, (x <~ partial_tree c ;; Ok (Some (DError e h c x), (with_stream p s, true))) = Ok (Some ev, (with_stream p s, true)) /\ event_of (inr (e, c)) ev).
    { intros D. destruct (R D) as (b & -> & -> & Lb). destruct (tree_ok _ Lb) as (t & Tt). cbn [partial_tree]. rewrite (proj1 Tt). cbn [rbind]. eexists. split; [reflexivity|]. constructor; auto. }
    destruct e; try (apply G; discriminate). reflexivity.
Qed.
Lemma diag_yields s items : chunks s items -> forall p, pr_text p = None -> pr_stream p = s ->
  exists l, yields (fun _ => True) diag_next (p, false) l /\ Forall2 event_of (through_error items) l /\ (length l <= length items)%nat.
Proof.
  induction 1 as [s h c s' E|s r s' l E H IH|s e h c s' l E D H IH]; intros p T S; pose proof (diag_step p T) as X; rewrite S, E in X.
  - exists []. split; [eapply y_end; [exact I|exact X]|]. split; [constructor|auto].
  - destruct X as (ev & X & Y). destruct (IH (with_stream p s') T eq_refl) as (l' & A & B & C). exists (ev :: l'). split; [eapply y_some; [exact I|exact X|exact A]|].
    split; [constructor; auto|cbn [length]; lia].
  - assert (X' : exists ev, diag_next (p, false) = Ok (Some ev, (with_stream p s', true)) /\ event_of (inr (e, c)) ev) by (destruct e; auto; congruence).
    destruct X' as (ev & X' & Y). exists [ev]. split; [eapply y_some; [exact I|exact X'|]|split; [constructor; auto|cbn [length]; lia]].
    eapply y_end; [exact I|reflexivity].
Qed.
Lemma diag_events p items : pr_text p = None -> chunks (pr_stream p) items -> exists l, diag_list p = Ok l /\ Forall2 event_of (through_error items) l.
Proof.
  intros T C. destruct (diag_yields _ _ C p T eq_refl) as (l & A & B & D). exists l. split; [|exact B]. unfold diag_list.
  eapply yields_collect; [exact A|]. pose proof (chunks_size _ _ C). unfold item in *. lia.
Qed.
Lemma chunks_bytes s items : chunks s items -> forall l, Forall2 event_of (through_error items) l ->
  exists rest, sbytes s = concat (map event_octets l) ++ rest /\ (Forall framed items -> rest = []).
Proof.
  induction 1 as [s h c s' E|s r s' l E H IH|s e h c s' l E D H IH]; intros evs F; cbn [through_error] in F; pose proof (chunk_bytes s) as B; rewrite E in B.
  - inversion F; subst. exists []. split; [|auto]. destruct c; destruct B as (B1 & B2); [congruence|]. cbn. tauto.
  - inversion F as [|? ev ? evs' F1 F2]; subst. destruct (IH _ F2) as (rest & R1 & R2). exists rest. cbn [map concat]. rewrite <- app_assoc, <- R1.
    split; [|intros K; apply R2; exact (Forall_inv_tail K)]. rewrite (proj1 B). f_equal. inversion F1; subst; reflexivity.
  - inversion F as [|? ev ? evs' F1 F2]; subst. inversion F2; subst. cbn [map concat]. inversion F1; subst. cbn [event_octets]. rewrite app_nil_r. exists (sbytes s').
    split; [tauto|]. intros K. elim (Forall_inv K).
Qed.
(** The item is not an error that stands for the end of the source. *)
Definition no_end {A} (x : item A) : Prop := match x with inl _ => True | inr (e, _) => e <> EEofExpected end.
Lemma events_no_end s items : chunks s items -> forall l, Forall2 event_of (through_error items) l -> Forall (fun e => no_end (as_item e)) l.
Proof.
  induction 1 as [s h c s' E|s r s' l E H IH|s e h c s' l E D H IH]; intros evs F; cbn [through_error] in F.
  - inversion F; subst. constructor.
  - inversion F as [|? ev ? evs' F1 F2]; subst. constructor; [|apply IH; exact F2]. inversion F1 as [? m P|? e t P|]; subst; cbn [as_item no_end]; [exact I|].
    apply BodyErrFacts.raw_kind in P. intros ->. discriminate.
  - inversion F as [|? ev ? evs' F1 F2]; subst. inversion F2; subst. constructor; [|constructor]. inversion F1; subst. exact D.
Qed.
Lemma chunks_items s items : chunks s items -> forall l, Forall2 event_of (through_error items) l -> forall rs, reads s rs ->
  Forall (fun e => no_end (as_item e)) l ->
  exists rest, rs = map as_item l ++ rest /\ (Forall framed items -> rest = []).
Proof.
  induction 1 as [s h c s' E|s r s' l E H IH|s e h c s' l E D H IH]; intros evs F rs R Ne; cbn [through_error] in F.
  - inversion F; subst. assert (X : parse_mrt_record_s s = RErr EEofExpected c s') by (unfold parse_mrt_record_s; rewrite E; reflexivity).
    inversion R; subst; try congruence. exists []. auto.
  - inversion F as [|? ev ? evs' F1 F2]; subst. inversion F1 as [? m P|? e t P|]; subst.
    + assert (X : parse_mrt_record_s s = RRec m (raw_uses_zebra r) s') by (unfold parse_mrt_record_s; rewrite E, P; reflexivity).
      inversion R as [? ? ? Y|? ? ? ? ? Y Z|? ? ? ? ? Y D Z]; subst; rewrite X in Y; try discriminate. injection Y as <- <- <-. destruct (IH _ F2 _ Z (Forall_inv_tail Ne)) as (rest & -> & Q).
      exists rest. split; [reflexivity|]. intros K. apply Q. exact (Forall_inv_tail K).
    + assert (X : parse_mrt_record_s s = RErr e (Some (raw_bytes r)) s') by (unfold parse_mrt_record_s; rewrite E, P; reflexivity).
      inversion R as [? ? ? Y|? ? ? ? ? Y Z|? ? ? ? ? Y D Z]; subst; rewrite X in Y; try discriminate.
      * injection Y as -> <- <-. elim (Forall_inv Ne eq_refl).
      * injection Y as <- <- <-. destruct (IH _ F2 _ Z (Forall_inv_tail Ne)) as (rest & -> & Q). exists rest. split; [reflexivity|]. intros K. apply Q. exact (Forall_inv_tail K).
  - assert (X : parse_mrt_record_s s = RErr e c s') by (unfold parse_mrt_record_s; rewrite E; reflexivity).
    inversion F as [|? ev ? evs' F1 F2]; subst. inversion F2; subst. inversion F1; subst.
    inversion R as [? ? ? Y|? ? ? ? ? Y Z|? ? ? ? ? Y D' Z]; subst; rewrite X in Y; try discriminate; injection Y; intros; subst; [congruence|].
    eexists. split; [reflexivity|]. intros K. elim (Forall_inv K).
Qed.
