(** Proofs about [Framing]. *)
From Coq Require Import ZifyBool ZifyNat ZifyN Lia.
From Verif Require Import Base BaseFacts Reader ReaderFacts Net Stream Framing.
Ltac Zify.zify_post_hook ::= Z.div_mod_to_equations.

(** * Streams *)
Lemma read_upto_bytes n s st g s' :
  read_upto n s = (st, g, s') -> sbytes s = g ++ sbytes s'.
Proof.
  revert n st g s'. induction s as [|e s IH]; intros n st g s' H; destruct n; cbn [read_upto] in H.
  - inv H; auto.
  - inv H; auto.
  - inv H; auto.
  - remember (S n) as m. destruct e.
    + destruct (Nat.leb m (length l)) eqn:E.
      * inv H. cbn [sbytes]. rewrite app_assoc, firstn_skipn. auto.
      * destruct (read_upto (m - length l) s) as [[st' g'] s''] eqn:E2. inv H.
        apply IH in E2. cbn [sbytes]. rewrite E2, app_assoc. auto.
    + apply IH in H. auto.
    + inv H. auto.
Qed.

Lemma read_upto_full n s g s' : read_upto n s = (Full, g, s') -> length g = n.
Proof.
  revert n g s'. induction s as [|e s IH]; intros n g s' H; destruct n; cbn [read_upto] in H;
    try (inv H; auto; fail).
  remember (S n) as m. destruct e.
  - destruct (Nat.leb m (length l)) eqn:E.
    + inv H. rewrite firstn_length. lia.
    + destruct (read_upto (m - length l) s) as [[st' g'] s''] eqn:E2. inv H.
      apply IH in E2. rewrite app_length. lia.
  - apply IH in H. auto.
  - inv H.
Qed.

Lemma read_upto_eof n s g s' : read_upto n s = (AtEof, g, s') -> sbytes s' = [] /\ (length g < n)%nat.
Proof.
  revert n g s'. induction s as [|e s IH]; intros n g s' H; destruct n; cbn [read_upto] in H;
    try (inv H; simpl; split; auto; lia).
  remember (S n) as m. destruct e.
  - destruct (Nat.leb m (length l)) eqn:E; [inv H|].
    destruct (read_upto (m - length l) s) as [[st' g'] s''] eqn:E2. inv H.
    apply IH in E2. rewrite app_length. destruct E2; split; auto. lia.
  - apply IH in H. auto.
  - inv H.
Qed.

Lemma no_fail_cons e s : no_fail (e :: s) <-> e <> Fail /\ no_fail s.
Proof. unfold no_fail. simpl. split; intros; [split; intros ?; apply H; auto | intros [?|?]; intuition congruence]. Qed.

Lemma read_upto_no_fail n s st g s' : no_fail s -> read_upto n s = (st, g, s') -> st <> Failed /\ no_fail s'.
Proof.
  revert n st g s'. induction s as [|e s IH]; intros n st g s' Hn H; destruct n; cbn [read_upto] in H;
    try (inv H; split; auto; discriminate).
  apply no_fail_cons in Hn as [He Hn]. remember (S n) as m. destruct e.
  - destruct (Nat.leb m (length l)) eqn:E.
    + inv H. split; [discriminate|]. apply no_fail_cons; split; auto. discriminate.
    + destruct (read_upto (m - length l) s) as [[st' g'] s''] eqn:E2. inv H. eauto.
  - eauto.
  - congruence.
Qed.

(** On a source that never fails, how the bytes are cut up does not matter. *)
Lemma read_upto_flat n s : no_fail s ->
  exists s', no_fail s' /\ sbytes s' = skipn n (sbytes s) /\
    read_upto n s = (if Nat.leb n (length (sbytes s)) then Full else AtEof, firstn n (sbytes s), s').
Proof.
  intros Hn. destruct (read_upto n s) as [[st g] s'] eqn:E.
  pose proof (read_upto_bytes _ _ _ _ _ E) as Hb.
  destruct (read_upto_no_fail _ _ _ _ _ Hn E) as [Hst Hn'].
  exists s'. split; auto. rewrite Hb. destruct st; try congruence.
  - apply read_upto_full in E. subst n. rewrite skipn_app_len, firstn_app_len. split; auto.
    rewrite app_length. destruct (Nat.leb_spec (length g) (length g + length (sbytes s'))); auto. lia.
  - apply read_upto_eof in E as [E Hl]. rewrite E, app_nil_r. split.
    + rewrite skipn_all2; auto. lia.
    + rewrite firstn_all2 by lia. destruct (Nat.leb_spec n (length g)); auto. lia.
Qed.

(** * Headers *)
Lemma parse_header_bytes s o :
  parse_common_header_s s = o ->
  match o with
  | HOk h raw rest => sbytes s = raw ++ sbytes rest /\ (12 <= length raw)%nat
  | HErr e c rest => sbytes s = c ++ sbytes rest
  end.
Proof.
  intros <-. unfold parse_common_header_s.
  destruct (read_upto 12 s) as [[st g] s'] eqn:E.
  pose proof (read_upto_bytes _ _ _ _ _ E) as Hb.
  destruct st; auto. destruct (split_header g) as [[[ts ty] sub] len].
  destruct (negb (etype_known ty)); auto.
  apply read_upto_full in E.
  destruct (ty =? ET_BGP4MP_ET); [|split; auto; lia].
  destruct (len <? 4); auto.
  destruct (read_upto 4 s') as [[st2 g2] s2] eqn:E2.
  pose proof (read_upto_bytes _ _ _ _ _ E2) as Hb2.
  rewrite Hb2, app_assoc in Hb.
  destruct st2; auto. split; auto. rewrite app_length; lia.
Qed.

Lemma chunk_bytes s :
  match chunk_mrt_record_s s with
  | CRec r rest => sbytes s = raw_bytes r ++ sbytes rest /\ (12 <= length (raw_bytes r))%nat
  | CErr e h (Some c) rest => sbytes s = c ++ sbytes rest /\ e <> EEofExpected
  | CErr e h None rest => e = EEofExpected /\ sbytes s = [] /\ h = None /\ sbytes rest = []
  end.
Proof.
  unfold chunk_mrt_record_s.
  destruct (parse_common_header_s s) as [h hb s1|e c s1] eqn:E;
    pose proof (parse_header_bytes s _ E) as Hb; cbn beta iota in Hb.
  - destruct Hb as [Hb Hl].
    destruct (MAX_MRT_MESSAGE_LEN <? h_len h); [split; auto; discriminate|].
    destruct (read_upto (N.to_nat (h_len h)) s1) as [[st body] s2] eqn:E2.
    pose proof (read_upto_bytes _ _ _ _ _ E2) as Hb2.
    rewrite Hb2, app_assoc in Hb. destruct st.
    + destruct (_ && _).
      * destruct (read_upto 4 s2) as [[st3 corr] s3] eqn:E3.
        pose proof (read_upto_bytes _ _ _ _ _ E3) as Hb3.
        rewrite Hb3 in Hb.
        destruct st3; unfold raw_bytes; cbn [r_hbytes r_body];
          rewrite !app_assoc in *; split; auto; try discriminate.
        rewrite !app_length; lia.
      * unfold raw_bytes; cbn [r_hbytes r_body]. split; auto. rewrite app_length; lia.
    + split; auto; discriminate.
    + split; auto; discriminate.
  - assert (Hgen : e <> EEofExpected).
    { unfold parse_common_header_s in E.
      destruct (read_upto 12 s) as [[[] ?] ?]; try (inv E; discriminate).
      destruct (split_header b) as [[[ts ty] sub] len].
      destruct (negb (etype_known ty)); try (inv E; discriminate).
      destruct (ty =? ET_BGP4MP_ET); try discriminate.
      destruct (len <? 4); try (inv E; discriminate).
      destruct (read_upto 4 s0) as [[[] ?] ?]; inv E; discriminate. }
    destruct e; try (split; auto; fail). destruct c as [|b c]; [|split; auto].
    split; auto. rewrite Hb. simpl.
    unfold parse_common_header_s in E.
    destruct (read_upto 12 s) as [[st g] s'] eqn:E2. destruct st.
    + destruct (split_header g) as [[[ts ty] sub] len].
      destruct (negb (etype_known ty)); try discriminate.
      destruct (ty =? ET_BGP4MP_ET); try discriminate.
      destruct (len <? 4); try discriminate.
      apply read_upto_full in E2.
      destruct (read_upto 4 s') as [[[] g2] ?]; inv E;
      match goal with H : _ ++ _ = [] |- _ => apply app_eq_nil in H as [H _]; rewrite H in E2; simpl in E2; lia end.
    + inv E. apply read_upto_eof in E2 as [E2 _]. auto.
    + inv E.
Qed.

(** * Refinement: only the concatenation of the chunks matters *)
Definition hflat (o : hdr_out) : hdr_out :=
  match o with
  | HOk h b s => HOk h b [Data (sbytes s)]
  | HErr e c s => HErr e c [Data (sbytes s)]
  end.

Lemma no_fail_data l : no_fail [Data l].
Proof. intros [H|[]]; discriminate. Qed.
Lemma sbytes_data l : sbytes [Data l] = l.
Proof. simpl. apply app_nil_r. Qed.

Lemma read_upto_agree n s1 s2 : no_fail s1 -> no_fail s2 -> sbytes s1 = sbytes s2 ->
  exists st g s1' s2', read_upto n s1 = (st, g, s1') /\ read_upto n s2 = (st, g, s2') /\
     no_fail s1' /\ no_fail s2' /\ sbytes s1' = sbytes s2' /\ st <> Failed.
Proof.
  intros H1 H2 Hb. destruct (read_upto_flat n s1 H1) as (s1' & N1 & B1 & E1).
  destruct (read_upto_flat n s2 H2) as (s2' & N2 & B2 & E2).
  rewrite Hb in E1. do 4 eexists. rewrite E1, E2.
  split; [reflexivity|split; [reflexivity|]].
  split; [auto|split; [auto|]]. split; [congruence|]. destruct (Nat.leb _ _); discriminate.
Qed.

Definition hdr_rel (a b : hdr_out) : Prop :=
  match a, b with
  | HOk h r s, HOk h' r' s' => h = h' /\ r = r' /\ no_fail s /\ no_fail s' /\ sbytes s = sbytes s'
  | HErr e r s, HErr e' r' s' => e = e' /\ r = r' /\ no_fail s /\ no_fail s' /\ sbytes s = sbytes s'
  | _, _ => False
  end.

Lemma parse_header_agree s1 s2 : no_fail s1 -> no_fail s2 -> sbytes s1 = sbytes s2 ->
  hdr_rel (parse_common_header_s s1) (parse_common_header_s s2).
Proof.
  intros H1 H2 Hb. unfold parse_common_header_s.
  destruct (read_upto_agree 12 s1 s2 H1 H2 Hb) as (st & g & a & b & -> & -> & Ha & Hb' & Hab & Hst).
  destruct st; try congruence.
  2:{ simpl; auto. }
  destruct (split_header g) as [[[ts ty] sub] len].
  destruct (negb (etype_known ty)); [simpl; auto|].
  destruct (ty =? ET_BGP4MP_ET); [|simpl; auto 6].
  destruct (len <? 4); [simpl; auto|].
  destruct (read_upto_agree 4 a b Ha Hb' Hab) as (st & g2 & a2 & b2 & -> & -> & Ha2 & Hb2 & Hab2 & Hst2).
  destruct st; try congruence; simpl; auto 6.
Qed.

Definition chunk_rel (a b : chunk_out) : Prop :=
  match a, b with
  | CRec r s, CRec r' s' => r = r' /\ no_fail s /\ no_fail s' /\ sbytes s = sbytes s'
  | CErr e h c s, CErr e' h' c' s' => e = e' /\ h = h' /\ c = c' /\ no_fail s /\ no_fail s' /\ sbytes s = sbytes s'
  | _, _ => False
  end.

Lemma chunk_agree s1 s2 : no_fail s1 -> no_fail s2 -> sbytes s1 = sbytes s2 ->
  chunk_rel (chunk_mrt_record_s s1) (chunk_mrt_record_s s2).
Proof.
  intros H1 H2 Hb. unfold chunk_mrt_record_s.
  pose proof (parse_header_agree s1 s2 H1 H2 Hb) as R.
  destruct (parse_common_header_s s1) as [h hb a|e c a], (parse_common_header_s s2) as [h2 hb2 b|e2 c2 b];
    simpl in R; try contradiction.
  - destruct R as (<- & <- & Ha & Hb' & Hab).
    destruct (MAX_MRT_MESSAGE_LEN <? h_len h); [simpl; auto 6|].
    destruct (read_upto_agree (N.to_nat (h_len h)) a b Ha Hb' Hab) as (st & g & a2 & b2 & -> & -> & Ha2 & Hb2 & Hab2 & Hst).
    destruct st; try congruence; [|simpl; auto 7].
    destruct (_ && _); [|simpl; auto 6].
    destruct (read_upto_agree 4 a2 b2 Ha2 Hb2 Hab2) as (st & g3 & a3 & b3 & -> & -> & Ha3 & Hb3 & Hab3 & Hst3).
    destruct st; try congruence; simpl; auto 7.
  - destruct R as (<- & <- & Ha & Hb' & Hab).
    destruct e; try (simpl; auto 7; fail). destruct c; simpl; auto 7.
Qed.

Lemma chunk_stream_flat s : no_fail s ->
  to_frame (chunk_mrt_record_s s) = chunk_mrt_record (sbytes s).
Proof.
  intros H. unfold chunk_mrt_record.
  pose proof (chunk_agree s [Data (sbytes s)] H (no_fail_data _) (eq_sym (sbytes_data _))) as R.
  destruct (chunk_mrt_record_s s), (chunk_mrt_record_s [Data (sbytes s)]); simpl in R; try contradiction; simpl.
  - destruct R as (<- & _ & _ & ->). auto.
  - destruct R as (<- & <- & <- & _ & _ & ->). auto.
Qed.

(** * Flat form, computed *)
Lemma read_upto_data n l : exists s', no_fail s' /\ sbytes s' = skipn n l /\
  read_upto n [Data l] = (if Nat.leb n (length l) then Full else AtEof, firstn n l, s').
Proof.
  destruct (read_upto_flat n [Data l] (no_fail_data l)) as (s' & H1 & H2 & H3).
  rewrite sbytes_data in *. eauto.
Qed.

(** The flat form by [splitn]. *)
Definition flat_header (s : bytes) : (header * bytes * bytes) + (perr * bytes * bytes) :=
  match splitn 12 s with
  | None => inr (EEof, s, [])
  | Some (base, s1) =>
    let '(ts, ty, sub, len) := split_header base in
    if negb (etype_known ty) then inr (EParse, base, s1) else
    if ty =? ET_BGP4MP_ET then
      if len <? 4 then inr (EParse, base, s1) else
      match splitn 4 s1 with
      | None => inr (EEof, s, [])
      | Some (us, s2) => inl (Hdr ts (Some (be_val us)) ty sub (len - 4), base ++ us, s2)
      end
    else inl (Hdr ts None ty sub len, base, s1)
  end.

Definition flat_chunk (s : bytes) : frame :=
  match flat_header s with
  | inr (e, c, r) => match e, c with
                     | EEof, [] => FErr EEofExpected None None r
                     | _, _ => FErr e None (Some c) r
                     end
  | inl (h, hb, s1) =>
    if MAX_MRT_MESSAGE_LEN <? h_len h then FErr EUnsup (Some h) (Some hb) s1 else
    match splitn (N.to_nat (h_len h)) s1 with
    | None => FErr EIo (Some h) (Some s) []
    | Some (body, s2) =>
      if (h_type h =? ET_TABLE_DUMP) && needs_legacy_length_correction (h_sub h) body then
        match splitn 4 s2 with
        | None => FErr EIo (Some h) (Some s) []
        | Some (corr, s3) => FRec (Raw h hb (body ++ corr)) s3
        end
      else FRec (Raw h hb body) s2
    end
  end.

Lemma read_upto_splitn n s : no_fail s ->
  match splitn n (sbytes s) with
  | Some (g, r) => exists s', no_fail s' /\ sbytes s' = r /\ read_upto n s = (Full, g, s')
  | None => exists s', no_fail s' /\ sbytes s' = [] /\ read_upto n s = (AtEof, sbytes s, s')
  end.
Proof.
  intros Hn. destruct (read_upto_flat n s Hn) as (s' & H1 & H2 & H3).
  destruct (Nat.leb_spec n (length (sbytes s))) as [Hl|Hl].
  - rewrite splitn_ge by auto. eauto.
  - destruct (splitn n (sbytes s)) as [[g r]|] eqn:E.
    + apply splitn_some in E as [E E2]. rewrite E, app_length in Hl. lia.
    + exists s'. rewrite firstn_all2 in H3 by lia. rewrite skipn_all2 in H2 by lia. auto.
Qed.

Lemma flat_header_eq s : no_fail s ->
  match flat_header (sbytes s) with
  | inl (h, hb, r) => exists s', no_fail s' /\ sbytes s' = r /\ parse_common_header_s s = HOk h hb s'
  | inr (e, c, r) => exists s', no_fail s' /\ sbytes s' = r /\ parse_common_header_s s = HErr e c s'
  end.
Proof.
  intros Hn. unfold flat_header, parse_common_header_s.
  pose proof (read_upto_splitn 12 s Hn) as R.
  destruct (splitn 12 (sbytes s)) as [[base s1]|] eqn:E12.
  2:{ destruct R as (s' & H1 & H2 & ->). eauto. }
  destruct R as (s' & H1 & <- & ->).
  destruct (split_header base) as [[[ts ty] sub] len].
  destruct (negb (etype_known ty)); [eauto|].
  destruct (ty =? ET_BGP4MP_ET); [|eauto].
  destruct (len <? 4); [eauto|].
  pose proof (read_upto_splitn 4 s' H1) as R.
  destruct (splitn 4 (sbytes s')) as [[us s2]|].
  - destruct R as (s2' & H3 & <- & ->). eauto.
  - destruct R as (s2' & H3 & H4 & ->).
    apply splitn_some in E12 as [E12 _]. rewrite E12. eauto.
Qed.

Lemma flat_header_bytes s :
  match flat_header s with
  | inl (h, hb, r) => s = hb ++ r /\ (12 <= length hb)%nat
  | inr (e, c, r) => s = c ++ r
  end.
Proof.
  unfold flat_header. destruct (splitn 12 s) as [[base s1]|] eqn:E12; [|rewrite app_nil_r; auto].
  apply splitn_some in E12 as [-> El].
  destruct (split_header base) as [[[ts ty] sub] len].
  destruct (negb (etype_known ty)); auto.
  destruct (ty =? ET_BGP4MP_ET); [|split; auto; lia].
  destruct (len <? 4); auto.
  destruct (splitn 4 s1) as [[us s2]|] eqn:E4; [|rewrite app_nil_r; auto].
  apply splitn_some in E4 as [-> E4]. rewrite app_assoc, app_length. split; auto; lia.
Qed.

Lemma chunk_flat s : chunk_mrt_record s = flat_chunk s.
Proof.
  unfold chunk_mrt_record, flat_chunk, chunk_mrt_record_s.
  pose proof (flat_header_eq [Data s] (no_fail_data s)) as R. rewrite sbytes_data in R.
  pose proof (flat_header_bytes s) as FB.
  destruct (flat_header s) as [[[h hb] r]|[[e c] r]].
  - destruct R as (s' & H1 & <- & ->).
    destruct (MAX_MRT_MESSAGE_LEN <? h_len h); [reflexivity|].
    pose proof (read_upto_splitn (N.to_nat (h_len h)) s' H1) as R.
    destruct (splitn (N.to_nat (h_len h)) (sbytes s')) as [[body s2]|] eqn:E.
    + destruct R as (s2' & H3 & <- & ->).
      destruct (_ && _); [|reflexivity].
      pose proof (read_upto_splitn 4 s2' H3) as R.
      destruct (splitn 4 (sbytes s2')) as [[corr s3]|] eqn:E4.
      * destruct R as (s3' & H5 & <- & ->). reflexivity.
      * destruct R as (s3' & H5 & H6 & ->). cbn [to_frame]. rewrite H6.
        apply splitn_some in E as [E _]. rewrite <- E. destruct FB as [-> _]. reflexivity.
    + destruct R as (s2' & H3 & H4 & ->). cbn [to_frame]. rewrite H4.
      destruct FB as [-> _]. reflexivity.
  - destruct R as (s' & H1 & <- & ->).
    destruct e; try reflexivity. destruct c; reflexivity.
Qed.

(** * Truncation *)
Lemma splitn_prefix k t u g r : splitn k (t ++ u) = Some (g, r) ->
  (exists r', splitn k t = Some (g, r') /\ r = r' ++ u) \/
  (splitn k t = None /\ exists w, g = t ++ w /\ u = w ++ r).
Proof.
  intros H. destruct (splitn k t) as [[g' r']|] eqn:E.
  - left. apply splitn_some in E as [-> E]. rewrite <- app_assoc in H.
    rewrite splitn_app in H by auto. inv H. eauto.
  - right. split; auto. apply splitn_none in E. apply splitn_some in H as [H <-].
    exists (skipn (length t) g). 
    assert (Ht : t = firstn (length t) g).
    { apply (f_equal (firstn (length t))) in H. rewrite firstn_app_len in H.
      rewrite firstn_app in H. replace (length t - length g)%nat with 0%nat in H by lia.
      cbn [firstn] in H. rewrite app_nil_r in H. auto. }
    split.
    + rewrite Ht at 1. symmetry. apply firstn_skipn.
    + apply (f_equal (skipn (length t))) in H. rewrite skipn_app_len in H.
      rewrite skipn_app in H. replace (length t - length g)%nat with 0%nat in H by lia. auto.
Qed.

Lemma flat_header_trunc t u h hb r : flat_header (t ++ u) = inl (h, hb, r) ->
  (exists r', flat_header t = inl (h, hb, r') /\ r = r' ++ u) \/
  (flat_header t = inr (EEof, t, []) /\ (length t < length hb)%nat).
Proof.
  unfold flat_header. destruct (splitn 12 (t ++ u)) as [[base s1]|] eqn:E; [|discriminate].
  pose proof (splitn_some _ _ _ _ E) as [_ Hbl].
  apply splitn_prefix in E as [(r' & E & ->)|(E & w & -> & ->)]; rewrite E.
  - destruct (split_header base) as [[[ts ty] sub] len].
    destruct (negb (etype_known ty)); [discriminate|].
    destruct (ty =? ET_BGP4MP_ET).
    + destruct (len <? 4); [discriminate|].
      destruct (splitn 4 (r' ++ u)) as [[us s2]|] eqn:E4; [|discriminate].
      intros H. 
      assert (Hh : h = Hdr ts (Some (be_val us)) ty sub (len - 4)) by congruence.
      assert (Hhb : hb = base ++ us) by congruence. assert (r = s2) by congruence. subst. clear H.
      pose proof (splitn_some _ _ _ _ E4) as [_ Hul].
      apply splitn_prefix in E4 as [(r2 & E4 & ->)|(E4 & w & -> & ->)]; rewrite E4.
      * left; eauto.
      * right. split; auto. apply splitn_some in E as [-> _]. rewrite !app_length in *.
        apply splitn_none in E4. lia.
    + intros H. inv H. left; eauto.
  - intros H. right. split; auto.
    destruct (split_header (t ++ w)) as [[[ts ty] sub] len].
    destruct (negb (etype_known ty)); [discriminate|].
    apply splitn_none in E.
    destruct (ty =? ET_BGP4MP_ET).
    + destruct (len <? 4); [discriminate|]. destruct (splitn 4 s1) as [[us s2]|]; inv H.
      rewrite !app_length in *. lia.
    + inv H. lia.
Qed.

Lemma chunk_trunc t u r rest :
  chunk_mrt_record (t ++ u ++ rest) = FRec r rest -> raw_bytes r = t ++ u -> u <> [] -> t <> [] ->
  exists e h, chunk_mrt_record t = FErr e h (Some t) [] /\ e <> EEofExpected.
Proof.
  rewrite !chunk_flat. intros H Hr Hu Ht. unfold flat_chunk in *.
  destruct (flat_header (t ++ u ++ rest)) as [[[h hb] s1]|[[e c] s1]] eqn:E.
  2:{ destruct e; try discriminate. destruct c; discriminate. }
  pose proof (flat_header_bytes (t ++ u ++ rest)) as FB. rewrite E in FB. destruct FB as [FB Hl].
  apply flat_header_trunc in E as [(r' & E & ->)|(E & Hl2)]; rewrite E.
  2:{ destruct t; [congruence|]. do 2 eexists; split; eauto; discriminate. }
  pose proof (flat_header_bytes t) as FB2. rewrite E in FB2. destruct FB2 as [-> _]. clear FB.
  destruct (MAX_MRT_MESSAGE_LEN <? h_len h); [discriminate|].
  destruct (splitn (N.to_nat (h_len h)) (r' ++ u ++ rest)) as [[body s2]|] eqn:E2; [|discriminate].
  apply splitn_prefix in E2 as [(r2 & E2 & ->)|(E2 & w & -> & E3)]; rewrite E2.
  2:{ do 2 eexists; split; eauto; discriminate. }
  destruct (_ && _).
  - destruct (splitn 4 (r2 ++ u ++ rest)) as [[corr s3]|] eqn:E4; [|discriminate].
    apply splitn_prefix in E4 as [(r3 & E4 & ->)|(E4 & w & -> & E5)]; rewrite E4.
    + assert (Hrest : r3 ++ u ++ rest = rest) by congruence.
      exfalso. apply (f_equal (@length N)) in Hrest. rewrite !app_length in Hrest.
      destruct u; [congruence|]. simpl in Hrest. lia.
    + do 2 eexists; split; eauto; discriminate.
  - assert (Hrest : r2 ++ u ++ rest = rest) by congruence.
    exfalso. apply (f_equal (@length N)) in Hrest. rewrite !app_length in Hrest.
    destruct u; [congruence|]. simpl in Hrest. lia.
Qed.

(** A record's bytes determine it, whatever follows. *)
Lemma splitn_weaken k a b g r : splitn k (a ++ b) = Some (g, r ++ b) ->
  forall b', splitn k (a ++ b') = Some (g, r ++ b').
Proof.
  intros H b'. apply splitn_some in H as [H <-]. rewrite app_assoc in H.
  apply app_inv_tail in H. subst. rewrite <- app_assoc. apply splitn_app; auto.
Qed.
Lemma splitn_suffix k s g r : splitn k s = Some (g, r) -> exists l, s = l ++ r.
Proof. intros H; apply splitn_some in H as [-> _]; eauto. Qed.

Lemma flat_header_local s h hb r : flat_header s = inl (h, hb, r) ->
  forall r', flat_header (hb ++ r') = inl (h, hb, r').
Proof.
  unfold flat_header. intros H r'.
  destruct (splitn 12 s) as [[base s1]|] eqn:E; [|discriminate].
  apply splitn_some in E as [-> Hl].
  destruct (split_header base) as [[[ts ty] sub] len] eqn:Es.
  destruct (negb (etype_known ty)) eqn:Ek; [discriminate|].
  destruct (ty =? ET_BGP4MP_ET) eqn:Et.
  - destruct (len <? 4) eqn:E4; [discriminate|].
    destruct (splitn 4 s1) as [[us s2]|] eqn:E5; [|discriminate].
    apply splitn_some in E5 as [-> Hu].
    assert (h = Hdr ts (Some (be_val us)) ty sub (len - 4)) by congruence.
    assert (hb = base ++ us) by congruence. subst.
    rewrite <- app_assoc, splitn_app by auto. rewrite Es, Ek, Et, E4, splitn_app by auto. reflexivity.
  - inv H. rewrite splitn_app by auto. rewrite Es, Ek, Et. reflexivity.
Qed.

Lemma chunk_local s r rest : chunk_mrt_record s = FRec r rest ->
  forall rest', chunk_mrt_record (raw_bytes r ++ rest') = FRec r rest'.
Proof.
  rewrite !chunk_flat. intros H rest'. rewrite chunk_flat. unfold flat_chunk in *.
  destruct (flat_header s) as [[[h hb] s1]|[[e c] s1]] eqn:E.
  2:{ destruct e; try discriminate. destruct c; discriminate. }
  pose proof (flat_header_local _ _ _ _ E) as L.
  destruct (MAX_MRT_MESSAGE_LEN <? h_len h) eqn:Em; [discriminate|].
  destruct (splitn (N.to_nat (h_len h)) s1) as [[body s2]|] eqn:E2; [|discriminate].
  apply splitn_some in E2 as [-> Hbl].
  destruct (_ && _) eqn:Ec.
  - destruct (splitn 4 s2) as [[corr s3]|] eqn:E4; [|discriminate].
    apply splitn_some in E4 as [-> Hcl]. inv H. unfold raw_bytes; cbn [r_hbytes r_body].
    rewrite <- !app_assoc, L, Em. rewrite splitn_app by auto. rewrite Ec, splitn_app by auto. reflexivity.
  - inv H. unfold raw_bytes; cbn [r_hbytes r_body].
    rewrite <- !app_assoc, L, Em. rewrite splitn_app by auto. rewrite Ec. reflexivity.
Qed.

(** * Header codec *)
Definition header_ok (h : header) : Prop :=
  h_ts h < 2 ^ 32 /\ etype_known (h_type h) = true /\ h_sub h < 2 ^ 16 /\
  match h_us h with
  | None => h_type h <> ET_BGP4MP_ET /\ h_len h < 2 ^ 32
  | Some us => h_type h = ET_BGP4MP_ET /\ us < 2 ^ 32 /\ h_len h + 4 < 2 ^ 32
  end.

Lemma etype_known_u16 n : etype_known n = true -> n < 65536.
Proof. unfold etype_known. simpl existsb. intros. lia. Qed.

Lemma split_header_be ts ty sub len :
  ts < 2 ^ 32 -> ty < 65536 -> sub < 2 ^ 16 -> len < 2 ^ 32 ->
  split_header (be 4 ts ++ be 2 ty ++ be 2 sub ++ be 4 len) = (ts, ty, sub, len).
Proof.
  intros. unfold split_header.
  assert (F : forall k n x, firstn k (be k n ++ x) = be k n).
  { intros. rewrite <- (be_length k n) at 1. apply firstn_app_len. }
  assert (S4 : forall n x k, skipn (4 + k) (be 4 n ++ x) = skipn k x).
  { intros. rewrite skipn_app, be_length. rewrite skipn_all2 by (rewrite be_length; lia).
    cbn [app]. f_equal. lia. }
  assert (S2 : forall n x k, skipn (2 + k) (be 2 n ++ x) = skipn k x).
  { intros. rewrite skipn_app, be_length. rewrite skipn_all2 by (rewrite be_length; lia).
    cbn [app]. f_equal. lia. }
  assert (E1 : skipn 4 (be 4 ts ++ be 2 ty ++ be 2 sub ++ be 4 len) = be 2 ty ++ be 2 sub ++ be 4 len) by apply (S4 _ _ 0%nat).
  assert (E2 : skipn 6 (be 4 ts ++ be 2 ty ++ be 2 sub ++ be 4 len) = be 2 sub ++ be 4 len).
  { rewrite (S4 _ _ 2%nat). apply (S2 _ _ 0%nat). }
  assert (E3 : skipn 8 (be 4 ts ++ be 2 ty ++ be 2 sub ++ be 4 len) = be 4 len).
  { rewrite (S4 _ _ 4%nat). rewrite (S2 _ _ 2%nat). apply (S2 _ _ 0%nat). }
  rewrite E1, E2, E3. clear E1 E2 E3.
  rewrite !F. rewrite (firstn_all2 (be 4 len)) by (rewrite be_length; lia).
  rewrite (be_val_be_small 4 ts), (be_val_be_small 2 ty), (be_val_be_small 2 sub), (be_val_be_small 4 len) by auto.
  reflexivity.
Qed.

Lemma header_base_len ts ty sub len : length (be 4 ts ++ be 2 ty ++ be 2 sub ++ be 4 len) = 12%nat.
Proof. rewrite !app_length, !be_length. reflexivity. Qed.

Lemma flat_header_encode h b rest : header_ok h -> encode_header h = Ok b ->
  flat_header (b ++ rest) = inl (h, b, rest).
Proof.
  intros (Hts & Hty & Hsub & Hus) He. unfold encode_header in He. unfold flat_header.
  pose proof (etype_known_u16 _ Hty) as Hty16.
  destruct h as [ts us ty sub len]; cbn [h_ts h_us h_type h_sub h_len] in *.
  destruct us as [us|].
  - destruct (4294967295 <? len + 4) eqn:E; [discriminate|].
    assert (Hb : b = (be 4 ts ++ be 2 ty ++ be 2 sub ++ be 4 (len + 4)) ++ be 4 us).
    { injection He as <-. rewrite <- !app_assoc. reflexivity. }
    clear He. subst b. destruct Hus as (-> & Hus & Hlen).
    rewrite <- app_assoc. rewrite splitn_app by apply header_base_len.
    rewrite split_header_be by auto. rewrite Hty. cbn [negb]. rewrite N.eqb_refl.
    destruct (len + 4 <? 4) eqn:E2; [lia|].
    rewrite splitn_app by apply be_length. rewrite be_val_be_small by auto.
    replace (len + 4 - 4) with len by lia. reflexivity.
  - destruct Hus as [Hne Hlen].
    assert (Hb : b = be 4 ts ++ be 2 ty ++ be 2 sub ++ be 4 len) by congruence. subst b.
    rewrite splitn_app by apply header_base_len.
    rewrite split_header_be by auto. rewrite Hty. cbn [negb].
    destruct (N.eqb_spec ty ET_BGP4MP_ET); [contradiction|]. reflexivity.
Qed.

Lemma split_header_inv b ts ty sub len : length b = 12%nat -> bytes_ok b ->
  split_header b = (ts, ty, sub, len) ->
  b = be 4 ts ++ be 2 ty ++ be 2 sub ++ be 4 len /\ ts < 2 ^ 32 /\ ty < 2 ^ 16 /\ sub < 2 ^ 16 /\ len < 2 ^ 32.
Proof.
  intros Hl Hok H. unfold split_header in H.
  assert (Hts : ts = be_val (firstn 4 b)) by congruence.
  assert (Hty : ty = be_val (firstn 2 (skipn 4 b))) by congruence.
  assert (Hsub : sub = be_val (firstn 2 (skipn 6 b))) by congruence.
  assert (Hlen : len = be_val (firstn 4 (skipn 8 b))) by congruence. clear H.
  assert (HF : forall i k, bytes_ok (firstn k (skipn i b))).
  { intros. apply bytes_ok_firstn, bytes_ok_skipn, Hok. }
  assert (HL : forall i k, (i + k <= 12)%nat -> length (firstn k (skipn i b)) = k).
  { intros. rewrite firstn_length, skipn_length. lia. }
  assert (HV : forall i k, (i + k <= 12)%nat -> be k (be_val (firstn k (skipn i b))) = firstn k (skipn i b)).
  { intros. rewrite <- (HL i k) at 1 by auto. apply be_be_val, HF. }
  assert (HB : forall i k, (i + k <= 12)%nat -> be_val (firstn k (skipn i b)) < 256 ^ N.of_nat k).
  { intros. rewrite <- (HL i k) at 2 by auto. apply be_val_bound, HF. }
  pose proof (HV 0%nat 4%nat ltac:(lia)) as V1. pose proof (HV 4%nat 2%nat ltac:(lia)) as V2.
  pose proof (HV 6%nat 2%nat ltac:(lia)) as V3. pose proof (HV 8%nat 4%nat ltac:(lia)) as V4.
  pose proof (HB 0%nat 4%nat ltac:(lia)) as B1. pose proof (HB 4%nat 2%nat ltac:(lia)) as B2.
  pose proof (HB 6%nat 2%nat ltac:(lia)) as B3. pose proof (HB 8%nat 4%nat ltac:(lia)) as B4.
  change (skipn 0 b) with b in *.
  subst. rewrite V1, V2, V3, V4. repeat split; auto.
  do 13 (destruct b as [|? b]; try discriminate). reflexivity.
Qed.

Lemma flat_header_inv s h hb r : flat_header s = inl (h, hb, r) -> bytes_ok s ->
  encode_header h = Ok hb /\ header_ok h.
Proof.
  unfold flat_header. intros H Hs.
  destruct (splitn 12 s) as [[base s1]|] eqn:E; [|discriminate].
  apply splitn_some in E as [-> Hl]. apply bytes_ok_app in Hs as [Hb Hs1].
  destruct (split_header base) as [[[ts ty] sub] len] eqn:Es.
  apply split_header_inv in Es as (Hbase & Hts & Hty & Hsub & Hlen); auto.
  destruct (etype_known ty) eqn:Ek; cbn [negb] in H; [|discriminate].
  destruct (N.eqb_spec ty ET_BGP4MP_ET) as [->|Hne].
  - destruct (len <? 4) eqn:E4; [discriminate|].
    destruct (splitn 4 s1) as [[us s2]|] eqn:E5; [|discriminate].
    apply splitn_some in E5 as [-> Hu]. apply bytes_ok_app in Hs1 as [Hus _].
    assert (h = Hdr ts (Some (be_val us)) ET_BGP4MP_ET sub (len - 4)) by congruence.
    assert (hb = base ++ us) by congruence. subst h hb.
    pose proof (be_val_bound us Hus) as Hb2. rewrite Hu in Hb2. change (256 ^ N.of_nat 4) with (2^32) in Hb2.
    unfold encode_header, header_ok. cbn [h_ts h_us h_type h_sub h_len].
    replace (len - 4 + 4) with len by lia.
    destruct (4294967295 <? len) eqn:E6; [lia|]. split.
    + rewrite Hbase. rewrite <- !app_assoc. rewrite <- Hu, be_be_val by auto. reflexivity.
    + auto 8.
  - assert (h = Hdr ts None ty sub len) by congruence. assert (hb = base) by congruence. subst h hb.
    unfold encode_header, header_ok. cbn [h_ts h_us h_type h_sub h_len].
    rewrite Hbase. auto 8.
Qed.

(** * Whole runs *)
Definition err_tail (o : chunk_out) : bytes :=
  match o with
  | CRec r s => raw_bytes r ++ sbytes s
  | CErr _ _ c s => (match c with Some c => c | None => [] end) ++ sbytes s
  end.

Lemma read_all_bytes fuel s l o : read_all_s fuel s = (l, Some o) ->
  sbytes s = concat (map raw_bytes l) ++ err_tail o /\
  (exists e h c s', o = CErr e h c s' /\ (e = EEofExpected -> c = None /\ sbytes s' = []) /\ (e <> EEofExpected -> c <> None)).
Proof.
  revert s l o. induction fuel; intros s l o H; cbn [read_all_s] in H; [discriminate|].
  pose proof (chunk_bytes s) as C.
  destruct (chunk_mrt_record_s s) as [r rest|e h c rest].
  - destruct (read_all_s fuel rest) as [l' o'] eqn:E. inv H.
    apply IHfuel in E as [E1 E2]. destruct C as [-> _]. split; auto.
    cbn [map concat]. rewrite E1, app_assoc. auto.
  - inv H. destruct c as [c|].
    + destruct C as [-> C]. split; auto. do 4 eexists; split; [reflexivity|]. split; [tauto|discriminate].
    + destruct C as (-> & -> & -> & C). split; [cbn; rewrite C; auto|].
      do 4 eexists; split; [reflexivity|]. split; auto.
Qed.

Lemma read_all_terminates fuel s : (length (sbytes s) < fuel)%nat ->
  exists l o, read_all_s fuel s = (l, Some o).
Proof.
  revert s. induction fuel; intros s H; [lia|]. cbn [read_all_s].
  pose proof (chunk_bytes s) as C.
  destruct (chunk_mrt_record_s s) as [r rest|e h c rest]; [|eauto].
  destruct C as [C Hl]. rewrite C, app_length in H.
  destruct (IHfuel rest) as (l & o & E); [lia|]. rewrite E. eauto.
Qed.

Lemma chunk_eof_iff s : no_fail s ->
  ((exists s', chunk_mrt_record_s s = CErr EEofExpected None None s') <-> sbytes s = []).
Proof.
  intros Hn. split.
  - intros [s' H]. pose proof (chunk_bytes s) as C. rewrite H in C. tauto.
  - intros H. pose proof (chunk_stream_flat s Hn) as F. rewrite H in F.
    change (chunk_mrt_record []) with (FErr EEofExpected None None []) in F.
    destruct (chunk_mrt_record_s s) as [|e h c s']; inv F. eauto.
Qed.
