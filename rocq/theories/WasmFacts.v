(** Proofs about the WebAssembly interface. *)
From Coq Require Import Lia.
From Verif Require Import Tac Base BaseFacts Reader ReaderFacts Net Attr BgpMsg TableDump Stream Framing FramingFacts MrtRecord MrtRecordSpec MrtRecordFacts Elem ElemSpec ElemFacts Filter Iter IterSpec IterFacts Dissect Bmp Wasm WasmSpec.
From Coq Require Import Floats.SpecFloat.
From Verif Require DissectSpec DissectFacts RisLiveSpec RisLiveFacts BmpFacts CommunityFacts.

Lemma elementor_ok (el : elementor) m : record_to_elems el m = Ok (elems_of (el, m), table_after el m).
Proof. apply elems_rec. Qed.

(** The size of a record. *)
Lemma flat_declared s r rest : flat_chunk s = FRec r rest ->
  (nlen (raw_bytes r) = declared s \/ nlen (raw_bytes r) = declared s + 4 /\ h_type (r_hdr r) = 12 /\ exists b c, raw_bytes r = firstn 12 s ++ b ++ c /\ length c = 4%nat /\ needs_legacy_length_correction (h_sub (r_hdr r)) b = true) /\
  nlen (raw_bytes r) < 2 ^ 32 /\ 12 <= nlen (raw_bytes r).
Proof.
  change (2 ^ 32) with 4294967296. unfold flat_chunk, flat_header. destruct (splitn 12 s) as [[base s1]|] eqn:E12; [|destruct s; intros X; discriminate X].
  apply splitn_some in E12 as [-> L].
  assert (D : declared (base ++ s1) = 12 + be_val (firstn 4 (skipn 8 base))).
  { unfold declared. rewrite skipn_app, firstn_app, skipn_length, L. change (4 - (12 - 8))%nat with 0%nat. rewrite firstn_O, app_nil_r. reflexivity. }
  rewrite D. clear D. unfold split_header.
  set (n := be_val (firstn 4 (skipn 8 base))). set (ty := be_val (firstn 2 (skipn 4 base))). destruct (negb (etype_known ty)); [intros X; discriminate X|].
  assert (K : forall h hb s2 k, length hb = k -> (if MAX_MRT_MESSAGE_LEN <? h_len h then FErr EUnsup (Some h) (Some hb) s2 else
    match splitn (N.to_nat (h_len h)) s2 with
    | None => FErr EIo (Some h) (Some (base ++ s1)) []
    | Some (body, s3) =>
      if (h_type h =? ET_TABLE_DUMP) && needs_legacy_length_correction (h_sub h) body then
        match splitn 4 s3 with None => FErr EIo (Some h) (Some (base ++ s1)) [] | Some (corr, s4) => FRec (Raw h hb (body ++ corr)) s4 end
      else FRec (Raw h hb body) s3 end) = FRec r rest ->
    (nlen (raw_bytes r) = N.of_nat k + h_len h \/ nlen (raw_bytes r) = N.of_nat k + h_len h + 4 /\ h_type h = 12 /\ h_type (r_hdr r) = 12 /\ exists b c, raw_bytes r = hb ++ b ++ c /\ length c = 4%nat /\ needs_legacy_length_correction (h_sub (r_hdr r)) b = true) /\ h_len h <= 16777216).
  { intros h hb s2 k Hk H. unfold MAX_MRT_MESSAGE_LEN in H. destruct (N.ltb_spec 16777216 (h_len h)) as [|B]; [discriminate|].
    destruct (splitn (N.to_nat (h_len h)) s2) as [[body s3]|] eqn:E; [|discriminate]. apply splitn_some in E as [-> Lb].
    split; [|exact B]. destruct ((h_type h =? ET_TABLE_DUMP) && needs_legacy_length_correction (h_sub h) body) eqn:C.
    - destruct (splitn 4 s3) as [[corr s4]|] eqn:E; [|discriminate]. apply splitn_some in E as [-> Lc]. injection H as <- <-.
      right. unfold nlen, raw_bytes. cbn [r_hbytes r_body r_hdr]. rewrite !app_length. apply andb_true_iff in C as [C C']. apply N.eqb_eq in C. split; [lia|]. split; [exact C|]. split; [exact C|]. exists body, corr. auto.
    - injection H as <- <-. left. unfold nlen, raw_bytes. cbn [r_hbytes r_body]. rewrite app_length. lia. }
  destruct (ty =? ET_BGP4MP_ET) eqn:Ty.
  - destruct (N.ltb_spec n 4); [intros X; discriminate X|]. destruct (splitn 4 s1) as [[us s2]|] eqn:E4; [|destruct (base ++ s1); intros X; discriminate X]. apply splitn_some in E4 as [-> L4].
    intros Z. apply (K _ _ _ 16%nat) in Z; [|rewrite app_length; lia]. cbn [h_len h_type] in Z. apply N.eqb_eq in Ty. unfold ET_BGP4MP_ET in Ty. lia.
  - intros H. apply (K _ _ _ 12%nat) in H; [|lia]. cbn [h_len h_type] in H. assert (Fb : firstn 12 (base ++ s1) = base) by (rewrite firstn_app, L, Nat.sub_diag, firstn_O, app_nil_r; apply firstn_all2; lia). rewrite Fb.
    destruct H as (H & B). split; [|lia]. destruct H as [H|(H & _ & T & X)]; [left; lia|right; split; [lia|auto]].
Qed.

(** The core in terms of the framing of a buffer. *)
Definition outcome_of (el : elementor) (f : frame) : res (option (list elem * N) * elementor) :=
  match f with
  | FRec r _ => match parse_raw r with Ok m => Ok (Some (elems_of (el, m), nlen (raw_bytes r)), table_after el m) | _ => Ok (None, el) end
  | FErr _ _ _ _ => Ok (None, el)
  end.
Lemma core_flat el d : parse_mrt_record_core el d = outcome_of el (chunk_mrt_record d).
Proof.
  destruct d as [|b d']; [reflexivity|]. set (d := b :: d'). change (parse_mrt_record_core el d) with
    (match parse_mrt_record_s [Data d] with RPanic => Panic | RErr _ _ _ => Ok (None, el)
     | RRec r _ s => let n := u32 (nlen d - nlen (sbytes s)) in '(l, el') <~ record_to_elems el r ;; Ok (Some (l, n), el') end).
  unfold parse_mrt_record_s, chunk_mrt_record. pose proof (chunk_bytes [Data d]) as B. pose proof (chunk_flat d) as F. unfold chunk_mrt_record in F.
  destruct (chunk_mrt_record_s [Data d]) as [r s|e h c s]; cbn [to_frame outcome_of] in *; [|reflexivity].
  destruct (parse_raw r) as [m|e|] eqn:P; [|reflexivity|exfalso; exact (raw_np r P)].
  cbv zeta. rewrite elementor_ok. cbn [rbind]. symmetry in F. apply flat_declared in F as (_ & F & _).
  rewrite sbytes_data in B. destruct B as [B _]. replace (nlen d - nlen (sbytes s)) with (nlen (raw_bytes r)) by (rewrite B; unfold nlen; rewrite app_length; lia).
  unfold u32. rewrite N.mod_small by exact F. reflexivity.
Qed.
Lemma chunk_app d u r rest : chunk_mrt_record d = FRec r rest -> chunk_mrt_record (d ++ u) = FRec r (rest ++ u).
Proof.
  intros H. pose proof (chunk_local _ _ _ H (rest ++ u)) as L. assert (B : d = raw_bytes r ++ rest).
  { pose proof (chunk_bytes [Data d]) as B. unfold chunk_mrt_record in H. destruct (chunk_mrt_record_s [Data d]) as [r' s|]; [|discriminate]. cbn in H. injection H as <- <-.
    rewrite sbytes_data in B. apply B. }
  rewrite B, <- app_assoc. exact L.
Qed.
Lemma core_chunk el d l n el' : parse_mrt_record_core el d = Ok (Some (l, n), el') <->
  exists r rest m, chunk_mrt_record d = FRec r rest /\ parse_raw r = Ok m /\ l = elems_of (el, m) /\ n = nlen (raw_bytes r) /\ el' = table_after el m.
Proof.
  rewrite core_flat. unfold outcome_of. split.
  - destruct (chunk_mrt_record d) as [r rest|]; [|discriminate]. destruct (parse_raw r) as [m| |] eqn:P; try discriminate. intros H. injection H as <- <- <-. eauto 10.
  - intros (r & rest & m & -> & -> & -> & -> & ->). reflexivity.
Qed.
(** A result does not depend on what follows, and without one nothing changes. *)
Definition settled (p : call) : Prop :=
  (forall el d l n el' u, p el d = Ok (Some (l, n), el') -> p el (d ++ u) = Ok (Some (l, n), el') /\ 0 < n <= nlen d) /\
  (forall el d, (exists l n el', p el d = Ok (Some (l, n), el')) \/ p el d = Ok (None, el)).
Lemma frame_bytes d r rest : chunk_mrt_record d = FRec r rest -> d = raw_bytes r ++ rest /\ 12 <= nlen (raw_bytes r) < 2 ^ 32.
Proof.
  intros H. split.
  - pose proof (chunk_bytes [Data d]) as B. unfold chunk_mrt_record in H. destruct (chunk_mrt_record_s [Data d]) as [r' s|]; [|discriminate]. cbn in H. injection H as <- <-.
    rewrite sbytes_data in B. apply B.
  - rewrite chunk_flat in H. apply flat_declared in H. lia.
Qed.
Lemma nlen_app {A} (a b : list A) : nlen (a ++ b) = nlen a + nlen b.
Proof. unfold nlen. rewrite app_length. lia. Qed.
Lemma core_settled : settled parse_mrt_record_core.
Proof.
  split.
  - intros el d l n el' u H. apply core_chunk in H as (r & rest & m & C & P & -> & -> & ->). destruct (frame_bytes _ _ _ C) as [B L]. split; [|rewrite B, nlen_app; lia].
    apply core_chunk. exists r, (rest ++ u), m. split; [apply chunk_app, C|auto].
  - intros el d. rewrite core_flat. unfold outcome_of. destruct (chunk_mrt_record d) as [r rest|]; [|right; reflexivity]. destruct (parse_raw r); [left; eauto|right; reflexivity|right; reflexivity].
Qed.
Lemma declared_app d u : (12 <= length d)%nat -> declared (d ++ u) = declared d.
Proof.
  intros L. unfold declared. rewrite skipn_app, firstn_app, skipn_length. replace (4 - (length d - 8))%nat with 0%nat by lia. rewrite firstn_O, app_nil_r. reflexivity.
Qed.
Lemma js_eq el d : js_parse_mrt_record el d =
  if (nlen d <? 12) || (nlen d <? declared d) then Ok (None, el) else
  '(o, el') <~ parse_mrt_record_core el (firstn (N.to_nat (declared d)) d) ;; Ok (match o with Some (l, _) => Some (l, declared d) | None => None end, el').
Proof. unfold js_parse_mrt_record, mrt_record_size, declared. destruct (nlen d <? 12); reflexivity. Qed.
Lemma js_core el d l n el' : js_parse_mrt_record el d = Ok (Some (l, n), el') <-> parse_mrt_record_core el d = Ok (Some (l, n), el') /\ n = declared d.
Proof.
  rewrite js_eq. destruct core_settled as [S1 S2].
  assert (L0 : forall k, 12 <= nlen d -> 12 <= k -> declared (firstn (N.to_nat k) d) = declared d).
  { intros k Hk Hd. rewrite <- (firstn_skipn (N.to_nat k) d) at 2. rewrite declared_app; [reflexivity|]. rewrite firstn_length. unfold nlen in Hk. lia. }
  split.
  - destruct (N.ltb_spec (nlen d) 12) as [|A]; [discriminate|]. destruct (N.ltb_spec (nlen d) (declared d)) as [|B]; [discriminate|]. cbn [orb].
    destruct (S2 el (firstn (N.to_nat (declared d)) d)) as [(l' & n' & e' & E)|E]; rewrite E; cbn [rbind]; [|discriminate]. intros H. injection H as -> <- ->. split; [|reflexivity].
    destruct (S1 _ _ _ _ _ (skipn (N.to_nat (declared d)) d) E) as [E' L]. rewrite firstn_skipn in E'. rewrite E'. do 3 f_equal.
    assert (n' = declared d); [|congruence]. apply core_chunk in E as (r & rest & m & C & _ & _ & -> & _). rewrite chunk_flat in C. apply flat_declared in C as (C & _).
    rewrite L0 in C; [|exact A|unfold declared; lia]. unfold nlen in *. rewrite firstn_length in L. lia.
  - intros [E D]. destruct (S1 _ _ _ _ _ [] E) as [_ L]. pose proof E as E0. apply core_chunk in E as (r & rest & m & C & P & -> & -> & ->). destruct (frame_bytes _ _ _ C) as [B L'].
    destruct (N.ltb_spec (nlen d) 12); [lia|]. destruct (N.ltb_spec (nlen d) (declared d)); [lia|]. cbn [orb].
    assert (F : firstn (N.to_nat (declared d)) d = raw_bytes r). { rewrite <- D. rewrite B at 1. unfold nlen. rewrite Nat2N.id, firstn_app, Nat.sub_diag, firstn_O, app_nil_r, firstn_all. reflexivity. }
    rewrite F. assert (E : parse_mrt_record_core el (raw_bytes r) = Ok (Some (elems_of (el, m), nlen (raw_bytes r)), table_after el m)).
    { apply core_chunk. exists r, [], m. split; [|auto]. rewrite <- (app_nil_r (raw_bytes r)). eapply chunk_local, C. }
    rewrite E. cbn [rbind]. rewrite D. reflexivity.
Qed.
Lemma js_settled : settled js_parse_mrt_record.
Proof.
  destruct core_settled as [S1 S2]. split.
  - intros el d l n el' u H. apply js_core in H as [E D]. destruct (S1 _ _ _ _ _ u E) as [E' L]. split; [|exact L]. apply js_core. split; [exact E'|].
    rewrite D. symmetry. apply declared_app. apply core_chunk in E as (r & rest & m & C & _). destruct (frame_bytes _ _ _ C) as [-> B]. rewrite app_length. unfold nlen in B. lia.
  - intros el d. rewrite js_eq. destruct (_ || _); [right; reflexivity|].
    destruct (S2 el (firstn (N.to_nat (declared d)) d)) as [(l & n & e & ->)| ->]; [left|right]; cbn [rbind]; eauto.
Qed.

(** Repeated calls. *)
Lemma calls_total p el d : settled p -> exists xs el' r, calls p el d xs el' r.
Proof.
  intros [S1 S2]. remember (length d) as k. revert el d Heqk. induction k as [k IH] using (well_founded_induction lt_wf). intros el d ->.
  destruct (S2 el d) as [(l & n & el1 & E)|E]; [|do 3 eexists; eapply calls_end, E].
  destruct (S1 _ _ _ _ _ [] E) as [_ L]. unfold nlen in L. destruct (IH (length (skipn (N.to_nat n) d))) with (el := el1) (d := skipn (N.to_nat n) d) as (xs & el2 & r & C); [rewrite skipn_length; lia|reflexivity|].
  do 3 eexists. eapply calls_more; eauto.
Qed.
Lemma calls_fun p el d xs el1 r1 : calls p el d xs el1 r1 -> forall ys el2 r2, calls p el d ys el2 r2 -> xs = ys /\ el1 = el2 /\ r1 = r2.
Proof.
  induction 1 as [el d el' E|el d l n el1 xs el2 r E C IH]; intros ys e2 r2 H; inversion H as [q1 q2 q3 X|q1 q2 l' n' e1 ys' q6 q7 X Y]; subst; try congruence; [split; [reflexivity|split; congruence]|].
  assert (Q : l' = l /\ n' = n /\ e1 = el1) by (split; [congruence|split; congruence]). destruct Q as (-> & -> & ->). apply IH in Y as (-> & -> & ->). auto.
Qed.
Lemma calls_app p el d xs el1 r u ys el2 r2 : settled p -> calls p el d xs el1 r -> calls p el1 (r ++ u) ys el2 r2 -> calls p el (d ++ u) (xs ++ ys) el2 r2.
Proof.
  intros [S1 S2] C. induction C as [el d el' E|el d l n el1 xs el' r E C IH]; intros D; cbn [app].
  - destruct (S2 el d) as [(l & n & el1 & X)|X]; [congruence|]. assert (el' = el) by congruence. subst. exact D.
  - destruct (S1 _ _ _ _ _ u E) as [E' L]. eapply calls_more; [exact E'|]. rewrite skipn_app. replace (N.to_nat n - length d)%nat with 0%nat by (unfold nlen in L; lia). cbn [skipn]. auto.
Qed.
Lemma calls_rest p el d xs el1 r : settled p -> calls p el d xs el1 r -> p el1 r = Ok (None, el1) /\ exists w, d = w ++ r.
Proof.
  intros [S1 S2]. induction 1 as [el d el' E|el d l n el1 xs el' r E C IH].
  - split; [|exists []; reflexivity]. destruct (S2 el d) as [(l & n & el1 & X)|X]; [congruence|]. assert (el' = el) by congruence. subst. exact E.
  - destruct IH as (A & w & W). split; [exact A|]. exists (firstn (N.to_nat n) d ++ w). rewrite <- app_assoc, <- W. symmetry. apply firstn_skipn.
Qed.
Lemma fed_calls p el d ws xs el' r : settled p -> p el d = Ok (None, el) -> fed p el d ws xs el' r -> calls p el (d ++ concat ws) xs el' r.
Proof.
  intros S N F. induction F as [el r|el d w ws xs el1 r ys el2 r2 C F IH]; cbn [concat].
  - rewrite app_nil_r. apply calls_end, N.
  - rewrite app_assoc. eapply calls_app; [exact S|exact C|]. apply IH. apply (calls_rest _ _ _ _ _ _ S C).
Qed.
Lemma fed_total p ws : settled p -> forall el d, exists xs el' r, fed p el d ws xs el' r.
Proof.
  intros S. induction ws as [|w ws IH]; intros el d; [do 3 eexists; apply fed_end|]. destruct (calls_total p el (d ++ w) S) as (xs & e1 & r & C). destruct (IH e1 r) as (ys & e2 & r2 & F).
  do 3 eexists. eapply fed_more; eauto.
Qed.
Lemma fed_iff p ws xs el el' r : settled p -> p el [] = Ok (None, el) -> (fed p el [] ws xs el' r <-> calls p el (concat ws) xs el' r).
Proof.
  intros S N. split; [intros F; apply (fed_calls p el [] ws xs el' r S N F)|]. intros C. destruct (fed_total p ws S el []) as (ys & e & r' & F).
  pose proof (fed_calls _ _ _ _ _ _ _ S N F) as C'. destruct (calls_fun _ _ _ _ _ _ C _ _ _ C') as (-> & -> & ->). exact F.
Qed.

(** The records of a file. *)
Lemma record_flat s : no_fail s ->
  match chunk_mrt_record (sbytes s) with
  | FRec r rest =>
      match parse_raw r with
      | Ok m => exists z s', parse_mrt_record_s s = RRec m z s' /\ sbytes s' = rest /\ no_fail s'
      | _ => forall m z s', parse_mrt_record_s s <> RRec m z s'
      end
  | FErr _ _ _ _ => forall m z s', parse_mrt_record_s s <> RRec m z s'
  end.
Proof.
  intros Nf. pose proof (chunk_agree s [Data (sbytes s)] Nf (no_fail_data _) (eq_sym (sbytes_data _))) as A. pose proof (chunk_stream_flat s Nf) as F.
  unfold parse_mrt_record_s. destruct (chunk_mrt_record_s s) as [r s'|e h c s']; cbn [to_frame] in F; rewrite <- F; [|discriminate].
  destruct (chunk_mrt_record_s [Data (sbytes s)]) as [r2 s2|]; [|contradiction]. cbn [chunk_rel] in A.
  destruct (parse_raw r) as [m|e|] eqn:P; [|discriminate|discriminate]. exists (raw_uses_zebra r), s'. split; [reflexivity|]. split; [reflexivity|]. tauto.
Qed.
Lemma whole_iff w m : whole w m <-> exists r, chunk_mrt_record w = FRec r [] /\ parse_raw r = Ok m /\ raw_bytes r = w.
Proof.
  unfold whole. pose proof (record_flat [Data w] (no_fail_data w)) as F. rewrite sbytes_data in F. split.
  - intros (z & s & E & B). destruct (chunk_mrt_record w) as [r rest|] eqn:C; [|exfalso; exact (F _ _ _ E)]. destruct (parse_raw r) as [m'| |] eqn:P; [|exfalso; exact (F _ _ _ E)|exfalso; exact (F _ _ _ E)].
    destruct F as (z' & s' & E' & B' & _). assert (Q : m' = m /\ s' = s) by (split; congruence). destruct Q as [-> ->]. assert (R : rest = []) by congruence. rewrite R in C. exists r. split; [rewrite R; reflexivity|]. split; [exact P|].
    destruct (frame_bytes _ _ _ C) as [Q _]. rewrite app_nil_r in Q. auto.
  - intros (r & C & P & B). rewrite C, P in F. destruct F as (z & s & E & B' & _). eauto.
Qed.
Lemma whole_front w m rest : whole w m -> exists r, chunk_mrt_record (w ++ rest) = FRec r rest /\ parse_raw r = Ok m /\ raw_bytes r = w.
Proof. intros H. apply whole_iff in H as (r & C & P & B). exists r. split; [|auto]. apply (chunk_app _ rest) in C. exact C. Qed.
Lemma front_whole d r rest m : chunk_mrt_record d = FRec r rest -> parse_raw r = Ok m -> whole (raw_bytes r) m.
Proof. intros C P. apply whole_iff. exists r. split; [|auto]. rewrite <- (app_nil_r (raw_bytes r)). eapply chunk_local, C. Qed.
Lemma core_none d el : parse_mrt_record_core el d = Ok (None, el) <-> forall m z s, parse_mrt_record_s [Data d] <> RRec m z s.
Proof.
  pose proof (record_flat [Data d] (no_fail_data d)) as F. rewrite sbytes_data in F. rewrite core_flat. unfold outcome_of. destruct (chunk_mrt_record d) as [r rest|]; [|tauto].
  destruct (parse_raw r) as [m| |]; [|tauto|tauto]. split; [discriminate|]. intros N. destruct F as (z & s & E & _). exfalso. exact (N _ _ _ E).
Qed.
Definition results (el : option peer_table) (ws : list bytes) (ms : list mrt_record) : list (list elem * N) :=
  combine (map elems_of (annotate el ms)) (map nlen ws).
Lemma results_cons el w ws m ms : results el (w :: ws) (m :: ms) = (elems_of (el, m), nlen w) :: results (table_after el m) ws ms.
Proof. reflexivity. Qed.
Lemma core_records ws ms rest el : Forall2 whole ws ms -> (forall m z s, parse_mrt_record_s [Data rest] <> RRec m z s) ->
  calls parse_mrt_record_core el (concat ws ++ rest) (results el ws ms) (fold_left table_after ms el) rest.
Proof.
  intros F N. revert el. induction F as [|w m ws ms H F IH]; intros el; [apply calls_end, core_none, N|].
  rewrite results_cons. cbn [concat fold_left]. rewrite <- app_assoc. destruct (whole_front w m (concat ws ++ rest) H) as (r & C & P & B).
  eapply calls_more; [apply core_chunk; exists r, (concat ws ++ rest), m; rewrite B; auto|].
  unfold nlen. rewrite Nat2N.id, skipn_app, Nat.sub_diag, skipn_all. apply IH.
Qed.
Lemma readable_total d : exists ws ms rest, readable d ws ms rest.
Proof.
  remember (length d) as k. revert d Heqk. induction k as [k IH] using (well_founded_induction lt_wf). intros d ->.
  destruct (chunk_mrt_record d) as [r rest|e h c rest] eqn:C; [destruct (parse_raw r) as [m| |] eqn:P|].
  - destruct (frame_bytes _ _ _ C) as [B L]. destruct (IH (length rest)) with (d := rest) as (ws & ms & r' & E & F & N); [rewrite B, app_length; unfold nlen in L; lia|reflexivity|].
    exists (raw_bytes r :: ws), (m :: ms), r'. split; [cbn [concat]; rewrite <- app_assoc, <- E; exact B|]. split; [|exact N]. constructor; [eapply front_whole; eauto|exact F].
  - exists [], [], d. split; [reflexivity|]. split; [constructor|]. pose proof (record_flat [Data d] (no_fail_data d)) as F. rewrite sbytes_data, C, P in F. exact F.
  - exists [], [], d. split; [reflexivity|]. split; [constructor|]. pose proof (record_flat [Data d] (no_fail_data d)) as F. rewrite sbytes_data, C, P in F. exact F.
  - exists [], [], d. split; [reflexivity|]. split; [constructor|]. pose proof (record_flat [Data d] (no_fail_data d)) as F. rewrite sbytes_data, C in F. exact F.
Qed.
Lemma results_fst el ws ms : length ws = length ms -> map fst (results el ws ms) = map elems_of (annotate el ms).
Proof.
  revert el ms. induction ws as [|w ws IH]; intros el [|m ms] L; try discriminate; [reflexivity|]. rewrite results_cons. cbn [map fst annotate]. rewrite IH by (injection L; auto). reflexivity.
Qed.
Lemma results_snd el ws ms : length ws = length ms -> map snd (results el ws ms) = map nlen ws.
Proof.
  revert el ms. induction ws as [|w ws IH]; intros el [|m ms] L; try discriminate; [reflexivity|]. rewrite results_cons. cbn [map snd]. rewrite IH by (injection L; auto). reflexivity.
Qed.
Lemma whole_lengths ws ms : Forall2 whole ws ms -> length ws = length ms.
Proof. induction 1; cbn [length]; congruence. Qed.

(** The native iterator. *)
Lemma annotate_app el a b : annotate el (a ++ b) = annotate el a ++ annotate (fold_left table_after a el) b.
Proof. revert el. induction a as [|r a IH]; intros el; [reflexivity|]. cbn [app annotate fold_left]. rewrite IH. reflexivity. Qed.
Lemma reads_prefix ws ms rest s : Forall2 whole ws ms -> no_fail s -> sbytes s = concat ws ++ rest ->
  exists s', no_fail s' /\ sbytes s' = rest /\ forall items, reads s' items -> reads s (map inl ms ++ items).
Proof.
  intros F. revert s. induction F as [|w m ws ms H F IH]; intros s N B; [exists s; auto|].
  cbn [concat] in B. rewrite <- app_assoc in B. destruct (whole_front w m (concat ws ++ rest) H) as (r & C & P & _). pose proof (record_flat s N) as R. rewrite B, C, P in R.
  destruct R as (z & s1 & E & B1 & N1). destruct (IH s1 N1 B1) as (s' & N' & B' & K). exists s'. split; [exact N'|]. split; [exact B'|]. intros items Hi. cbn [map app]. eapply reads_rec; eauto.
Qed.
Lemma filter_nil show l : List.filter (fun e => match_filters show (VElem e) []) l = l.
Proof. induction l as [|e l IH]; [reflexivity|]. cbn [List.filter match_filters forallb]. f_equal. exact IH. Qed.
Lemma native_elems show d ws ms rest s c dmp : readable d ws ms rest -> no_fail s -> sbytes s = d ->
  exists n more, (forall fuel, (n <= fuel)%nat -> elem_list show fuel (Parser s [] c None dmp) = Ok (concat (map elems_of (annotate None ms)) ++ more)) /\ (rest = [] -> more = []).
Proof.
  intros (-> & F & Nx) N B. destruct (reads_prefix ws ms rest s F N B) as (s' & N' & B' & K). destruct (reads_total s') as (items & R).
  destruct (elem_list_ok show (Parser s [] c None dmp) (map inl ms ++ items) eq_refl (K _ R)) as (n & E). cbn [pr_filters pr_core] in E.
  exists n, (flat_map elems_of (annotate (fold_left table_after ms None) (usable c items))). split.
  - intros fuel L. rewrite (E fuel L), filter_nil, usable_inl, annotate_app, flat_map_app, <- flat_map_concat_map. reflexivity.
  - intros ->. apply chunk_eof_iff in B' as (s2 & X); [|exact N']. assert (R0 : reads s' []). { eapply reads_end. unfold parse_mrt_record_s. rewrite X. reflexivity. }
    rewrite (reads_fun _ _ _ R R0). reflexivity.
Qed.

(** The JavaScript functions. *)
Lemma whole_long w m : whole w m -> (12 <= length w)%nat.
Proof. intros H. apply whole_iff in H as (r & C & _ & <-). destruct (frame_bytes _ _ _ C) as [_ L]. unfold nlen in L. lia. Qed.
Lemma js_none el d : (forall l n el', parse_mrt_record_core el d = Ok (Some (l, n), el') -> n <> declared d) -> js_parse_mrt_record el d = Ok (None, el).
Proof.
  intros H. destruct js_settled as [_ S2]. destruct (S2 el d) as [(l & n & e & E)|E]; [|exact E]. apply js_core in E as [E D]. exfalso. exact (H _ _ _ E D).
Qed.
Lemma js_records ws ms rest el : Forall2 whole ws ms -> (forall m z s, parse_mrt_record_s [Data rest] <> RRec m z s) ->
  let k := length (sized ws) in
  calls js_parse_mrt_record el (concat ws ++ rest) (firstn k (results el ws ms)) (fold_left table_after (firstn k ms) el) (concat (skipn k ws) ++ rest).
Proof.
  intros F N. cbv zeta. revert el. induction F as [|w m ws ms H F IH]; intros el; cbn [sized].
  - cbn [length firstn skipn concat app fold_left]. apply calls_end, js_none. intros l n e E. apply (core_none rest el) in N. congruence.
  - pose proof (whole_long _ _ H) as L. destruct (whole_front w m (concat ws ++ rest) H) as (r & C & P & B). cbn [concat]. rewrite <- app_assoc.
    assert (E : parse_mrt_record_core el (w ++ concat ws ++ rest) = Ok (Some (elems_of (el, m), nlen w), table_after el m)) by (apply core_chunk; exists r, (concat ws ++ rest), m; rewrite B; auto).
    destruct (N.eqb_spec (nlen w) (declared w)) as [D|D]; cbn [length firstn skipn concat fold_left].
    + rewrite results_cons. eapply calls_more; [apply js_core; split; [exact E|]; rewrite declared_app by exact L; exact D|].
      unfold nlen. rewrite Nat2N.id, skipn_app, Nat.sub_diag, skipn_all. apply IH.
    + rewrite <- app_assoc. apply calls_end, js_none. intros l n e E'. rewrite E in E'. injection E' as <- <- <-. rewrite declared_app by exact L. exact D.
Qed.
Lemma gen_calls el d xs el' r : calls js_parse_mrt_record el d xs el' r -> generated el (Gen true d) xs.
Proof.
  induction 1 as [el d el' E|el d l n el1 xs el' r E C IH].
  - destruct d as [|b d]; eapply gen_end; unfold gen_next; cbn [g_started g_rest]; [reflexivity|]. rewrite E. reflexivity.
  - destruct d as [|b d]; [discriminate|]. eapply gen_more; [|exact IH]. unfold gen_next. cbn [g_started g_rest]. rewrite E. reflexivity.
Qed.
Lemma gen_first el d xs : generated None (Gen true d) xs -> generated el (Gen false d) xs.
Proof. intros H. inversion H; subst; [eapply gen_end|eapply gen_more]; eauto. Qed.
Lemma generated_fun el g xs : generated el g xs -> forall ys, generated el g ys -> xs = ys.
Proof.
  induction 1 as [el g st E|el g x el' g' xs E G IH]; intros ys H; inversion H as [a1 a2 a3 X|a1 a2 a3 a4 a5 a6 X Y]; subst; try congruence. assert (Q : a3 = x /\ a4 = el' /\ a5 = g') by (split; [congruence|split; congruence]).
  destruct Q as (-> & -> & ->). f_equal. auto.
Qed.
Lemma sized_all ws : Forall (fun w => nlen w = declared w) ws -> sized ws = ws.
Proof. induction 1 as [|w ws H F IH]; [reflexivity|]. cbn [sized]. rewrite H, N.eqb_refl, IH. reflexivity. Qed.
Lemma whole_sizes w m : whole w m -> nlen w = declared w \/
  nlen w = declared w + 4 /\ h_type (mr_hdr m) = 12 /\ exists hb b c, w = hb ++ b ++ c /\ length hb = 12%nat /\ length c = 4%nat /\ four_short (h_sub (mr_hdr m)) b.
Proof.
  intros H. pose proof (whole_long _ _ H) as L. apply whole_iff in H as (r & C & P & B). rewrite chunk_flat in C. apply flat_declared in C as ([D|(D & T & b & c & E & Lc & S)] & _); rewrite B in *; [left; exact D|right].
  assert (Hm : mr_hdr m = r_hdr r) by (unfold parse_raw in P; apply rbind_inv in P as (x & _ & P); injection P as <-; reflexivity). rewrite Hm.
  split; [exact D|]. split; [exact T|]. exists (firstn 12 w), b, c. split; [exact E|]. split; [rewrite firstn_length; lia|]. split; [exact Lc|]. apply four_short_iff, S.
Qed.

(** ** BMP and BGP messages *)
Lemma bgp_list b t pi pa : exists l, bgp_to_elems b t pi pa = Ok l /\ bgp_elems b t pi pa l.
Proof.
  destruct b; try (exists []; split; reflexivity). destruct (update_elems_ok m t pi pa) as (l & E & H). exists l. split; [|exact H]. revert E. unfold bgp_update_to_elems, bgp_to_elems, bgp_to_elems_iter.
  destruct (bgp_update_to_elems_iter m t pi pa); cbn [rbind]; auto.
Qed.
Lemma make_shown p : peer_shown p (make_peer_header p).
Proof. unfold peer_shown, make_peer_header. destruct (pp_flags p); cbn; auto 10. Qed.
Lemma shown_fun p a b : peer_shown p a -> peer_shown p b -> a = b.
Proof.
  destruct a, b. unfold peer_shown. cbn. intros (-> & -> & -> & -> & -> & A) (-> & -> & -> & -> & -> & B). destruct (pp_flags p); destruct A as [-> ->], B as [-> ->]; reflexivity.
Qed.
Lemma build_ok h c m oh t : parse_bmp_body h c = Ok m -> exists w, build_bmp_result m oh t = Ok w /\ bmp_shown m oh t w.
Proof.
  unfold parse_bmp_body. cbv zeta. intros H.
  assert (K : (bm_peer m = None /\ ((exists l, bm_body m = BInitiation l) \/ exists l, bm_body m = BTermination l)) \/
              exists p, bm_peer m = Some p).
  { assert (W : forall k : per_peer -> bytes -> res bmp_body, ('(p, r) <~ parse_per_peer_header c ;; b <~ k p r ;; Ok (BmpMsg h (Some p) b)) = Ok m -> exists p, bm_peer m = Some p).
    { intros k E. apply rbind_inv in E as ((p & r) & _ & E). apply rbind_inv in E as (b & _ & E). injection E as <-. exists p. reflexivity. }
    assert (I : (l <~ parse_initiation c ;; Ok (BmpMsg h None (BInitiation l))) = Ok m -> bm_peer m = None /\ ((exists l, bm_body m = BInitiation l) \/ exists l, bm_body m = BTermination l)).
    { intros E. apply rbind_inv in E as (l & _ & E). injection E as <-. split; [reflexivity|left; eexists; reflexivity]. }
    assert (T : (l <~ parse_termination c ;; Ok (BmpMsg h None (BTermination l))) = Ok m -> bm_peer m = None /\ ((exists l, bm_body m = BInitiation l) \/ exists l, bm_body m = BTermination l)).
    { intros E. apply rbind_inv in E as (l & _ & E). injection E as <-. split; [reflexivity|right; eexists; reflexivity]. }
    destruct (bh_type h) as [|[[[]|[]|]|[[]|[]|]|]]; first [right; eapply W, H|left; apply I, H|left; apply T, H]. }
  clear H. unfold build_bmp_result, bmp_shown. cbv zeta.
  destruct K as [(P & [(l & B)|(l & B)])|(p & P)]; rewrite P.
  { rewrite B. eexists. split; [reflexivity|]. cbn. split; reflexivity. }
  { rewrite B. eexists. split; [reflexivity|]. cbn. split; reflexivity. }
  pose proof (make_shown p) as S. destruct (bm_body m) as [u|d|l|l|b|l|n l]; try (eexists; split; [reflexivity|]; cbn; eauto 8; fail).
  destruct (bgp_list b t (pp_ip p) (pp_asn p)) as (es & -> & E). cbn [rbind]. eexists. split; [reflexivity|]. cbn. eauto 8.
Qed.
Lemma shown_unique m oh t a b : bmp_shown m oh t a -> bmp_shown m oh t b -> a = b.
Proof.
  unfold bmp_shown. cbv zeta. destruct (bm_body m), a; try contradiction; destruct b; try contradiction.
  - intros (-> & -> & -> & -> & p1 & P & A) (-> & -> & -> & -> & q1 & Q & B). rewrite P in Q. injection Q as <-. rewrite (shown_fun _ _ _ A B). reflexivity.
  - intros (-> & -> & p1 & P & A) (-> & -> & q1 & Q & B). rewrite P in Q. injection Q as <-. rewrite (shown_fun _ _ _ A B). reflexivity.
  - intros (-> & ->) (-> & ->). reflexivity.
  - intros (-> & ->) (-> & ->). reflexivity.
  - intros (-> & p1 & P & A & X) (-> & q1 & Q & B & Y). rewrite P in Q. injection Q as <-. rewrite (shown_fun _ _ _ A B). f_equal. eapply RisLiveFacts.bgp_elems_fun; eauto.
  - intros (-> & p1 & P & A) (-> & q1 & Q & B). rewrite P in Q. injection Q as <-. rewrite (shown_fun _ _ _ A B). reflexivity.
  - intros (-> & p1 & P & A) (-> & q1 & Q & B). rewrite P in Q. injection Q as <-. rewrite (shown_fun _ _ _ A B). reflexivity.
Qed.
Lemma msg_build d m oh t : fst (parse_bmp_msg d) = Ok m -> exists w, build_bmp_result m oh t = Ok w /\ bmp_shown m oh t w.
Proof.
  unfold parse_bmp_msg, sbind. destruct (parse_bmp_common_header d) as [[h| |] r]; cbn [fst]; try discriminate. destruct (bh_len h <? 6); [discriminate|].
  destruct (prim _ r) as [[?| |] r']; cbn [fst]; try discriminate. destruct (prim _ r') as [[c| |] r2]; cbn [fst sret]; try discriminate. intros H. eapply build_ok, H.
Qed.
Lemma bmp_core d t :
  (forall w, parse_bmp_message_core d t = Ok w <-> exists m, fst (parse_bmp_msg d) = Ok m /\ bmp_shown m None t w) /\
  (forall e, parse_bmp_message_core d t = Err e <-> fst (parse_bmp_msg d) = Err e).
Proof.
  unfold parse_bmp_message_core. destruct (fst (parse_bmp_msg d)) as [m|e|] eqn:E; cbn [rbind].
  - destruct (msg_build d m None t E) as (w & -> & S). split; [|split; discriminate]. intros w'. split; [intros H; injection H as <-; eauto|]. intros (m' & M & S'). injection M as <-. f_equal. eapply shown_unique; eauto.
  - split; [|intros e'; split; intros X; injection X as ->; reflexivity]. intros w. split; [discriminate|intros (m & M & _); discriminate].
  - split; [|split; discriminate]. intros w. split; [discriminate|intros (m & M & _); discriminate].
Qed.
Lemma bmp_np d t : bytes_ok d -> parse_bmp_message_core d t <> Panic.
Proof.
  intros B H. unfold parse_bmp_message_core in H. destruct (fst (parse_bmp_msg d)) as [m|e|] eqn:E; cbn [rbind] in H; [|discriminate|exact (BmpFacts.msg_np d B E)].
  destruct (msg_build d m None t E) as (w & K & _). rewrite K in H. discriminate.
Qed.
Lemma bind_err_inv {A B} (p : P A) (k : A -> P B) s e : bind p k s = Err e -> p s = Err e \/ exists a r, p s = Ok (a, r) /\ k a r = Err e.
Proof. unfold bind. destruct (p s) as [[a r]|e'|]; [intros H; right; exists a, r; auto|intros H; left; injection H as ->; reflexivity|discriminate]. Qed.
Lemma be_quiet k s : read_be k s <> Err EBmpUnsup.
Proof.
  destruct (Nat.le_gt_cases k (length s)) as [L|L]; [|rewrite read_be_short by exact L; discriminate].
  destruct (CommunityFacts.read_be_total k s L) as (a & r & -> & _). discriminate.
Qed.
Lemma bytes_quiet k s : read_n_bytes k s <> Err EBmpUnsup.
Proof.
  destruct (N.le_gt_cases k (nlen s)) as [L|L]; [destruct (CommunityFacts.read_n_bytes_total k s L) as (a & r & -> & _); discriminate|].
  unfold read_n_bytes, bind, has_n. destruct (N.ltb_spec (nlen s) k) as [_|]; [discriminate|lia].
Qed.
Lemma split_quiet k s : split_to k s <> Err EBmpUnsup.
Proof. unfold split_to. intros H. destruct (splitn k s) as [[l r]|]; discriminate H. Qed.
Lemma skip_quiet k s : skip k s <> Err EBmpUnsup.
Proof.
  intros H. unfold skip in H. apply bind_err_inv in H as [H|(a & r & _ & H)]; [revert H; unfold has_n; destruct (_ <? _); intros H; discriminate H|].
  apply bind_err_inv in H as [H|(a' & r' & _ & H)]; [exact (split_quiet _ _ H)|discriminate H].
Qed.
Ltac nstep H a r E := apply bind_err_inv in H as [H|(a & r & E & H)]; [exfalso; first [exact (be_quiet _ _ H)|exact (bytes_quiet _ _ H)|exact (skip_quiet _ _ H)]|].
Ltac qstep H := let a := fresh in let r := fresh in let E := fresh in nstep H a r E.
Lemma header_unsup d : parse_openbmp_header d = Err EBmpUnsup <-> other_frame d.
Proof.
  split.
  - unfold parse_openbmp_header. intros H. nstep H m s1 E. apply read_n_bytes_inv in E as [-> Lm].
    destruct (bytes_eqb m [79; 66; 77; 80]) eqn:Em; [|discriminate]. apply bytes_eqb_eq in Em as ->. cbn [negb] in H.
    nstep H v s2 V. nstep H w s3 W. destruct ((v =? 1) && (w =? 7)) eqn:Ev; [|discriminate]. cbn [negb] in H. assert (v = 1 /\ w = 7) as [-> ->] by lia.
    nstep H hlv s4 Hl. nstep H mlv s5 Ml. nstep H f s6 Ff.
    apply read_be_inv in V as (b1 & -> & L1 & V). apply read_be_inv in W as (b2 & -> & L2 & W). apply read_be_inv in Hl as (hl & -> & L3 & _). apply read_be_inv in Ml as (ml & -> & L4 & _). apply read_be_inv in Ff as (b3 & -> & L5 & Ff).
    destruct b1 as [|y1 [|]]; try discriminate L1. destruct b2 as [|y2 [|]]; try discriminate L2. destruct b3 as [|y3 [|]]; try discriminate L5.
    cbn in V, W, Ff. assert (y1 = 1) by lia. assert (y2 = 7) by lia. assert (y3 = f) by lia. subst y1 y2 y3. exists hl, ml, f, s6. split; [reflexivity|]. split; [exact L3|]. split; [exact L4|].
    destruct (N.testbit f 7) eqn:F7; [|left; reflexivity]. right. cbn [negb] in H. nstep H o s7 E. apply read_be_inv in E as (b4 & -> & L6 & E). destruct b4 as [|y4 [|]]; try discriminate L6. cbn in E. assert (y4 = o) by lia. subst y4.
    exists o, s7. split; [reflexivity|]. intros ->. change (negb (12 =? 12)) with false in H. cbn iota in H. exfalso.
    qstep H. qstep H. qstep H. qstep H. qstep H. qstep H. apply bind_err_inv in H as [H|(? & ? & ? & H)].
    { destruct (N.testbit f 6); qstep H; [discriminate H|]. qstep H. discriminate H. }
    qstep H. apply bind_err_inv in H as [H|(? & ? & ? & H)].
    { destruct (_ =? 0) in H; [discriminate H|exact (bytes_quiet _ _ H)]. }
    qstep H. destruct (negb _) in H; discriminate H.
  - intros (hl & ml & f & r & -> & L1 & L2 & K). unfold parse_openbmp_header.
    change ([79; 66; 77; 80; 1; 7] ++ hl ++ ml ++ f :: r) with ([79; 66; 77; 80] ++ 1 :: 7 :: hl ++ ml ++ f :: r).
    rewrite (bind_ok _ _ _ _ _ (read_n_bytes_app 4 [79; 66; 77; 80] _ eq_refl)). cbn [bytes_eqb N.eqb Pos.eqb andb negb].
    rewrite (bind_ok _ _ _ _ _ (read_u8_cons _ _)), (bind_ok _ _ _ _ _ (read_u8_cons _ _)). cbn [N.eqb Pos.eqb andb negb].
    rewrite (bind_ok _ _ _ _ _ (read_be_bytes 2 hl _ L1)), (bind_ok _ _ _ _ _ (read_be_bytes 4 ml _ L2)), (bind_ok _ _ _ _ _ (read_u8_cons _ _)).
    destruct K as [->|(o & r' & -> & K)]; [reflexivity|]. destruct (N.testbit f 7); [|reflexivity]. cbn [negb]. rewrite (bind_ok _ _ _ _ _ (read_u8_cons _ _)). apply N.eqb_neq in K. rewrite K. reflexivity.
Qed.
Lemma openbmp_core d :
  (forall w, parse_openbmp_message_core d = Ok (Some w) <-> exists h r m, parse_openbmp_header d = Ok (h, r) /\ fst (parse_bmp_msg r) = Ok m /\
     bmp_shown m (Some (WasmOpenBmp (ob_router h) (Some (ob_group h)) (ob_admin h) (ob_time h))) (ob_time h) w) /\
  (parse_openbmp_message_core d = Ok None <-> other_frame d) /\
  (forall e, parse_openbmp_message_core d = Err e <-> ~ other_frame d /\ parse_openbmp_msg d = Err e).
Proof.
  pose proof (header_unsup d) as U. unfold parse_openbmp_message_core, parse_openbmp_msg. destruct (parse_openbmp_header d) as [[h r]|e|] eqn:E; cbn [rbind].
  - assert (N : ~ other_frame d) by (rewrite <- U; discriminate). destruct (fst (parse_bmp_msg r)) as [m|e|] eqn:M; cbn [rbind].
    + destruct (msg_build r m (Some (make_openbmp_header h)) (ob_time h) M) as (w & -> & S). cbn [rbind]. split; [|split; [split; [discriminate|tauto]|split; [discriminate|intros [_ X]; discriminate X]]].
      intros w'. split; [intros X; injection X as <-; exists h, r, m; auto|]. intros (h' & r' & m' & X & M' & S'). injection X as <- <-. rewrite M in M'. injection M' as <-. do 2 f_equal. eapply shown_unique; eauto.
    + split; [|split; [split; [discriminate|tauto]|intros e'; split; [intros X; injection X as ->; auto|intros [_ X]; injection X as ->; reflexivity]]]. intros w. split; [discriminate|]. intros (h' & r' & m' & X & M' & S'). injection X as <- <-. rewrite M in M'. discriminate M'.
    + split; [|split; [split; [discriminate|tauto]|split; [discriminate|intros [_ X]; discriminate X]]]. intros w. split; [discriminate|]. intros (h' & r' & m' & X & M' & S'). injection X as <- <-. rewrite M in M'. discriminate M'.
  - assert (De : e = EBmpUnsup \/ e <> EBmpUnsup) by (destruct e; first [left; reflexivity|right; discriminate]). destruct De as [->|Ne].
    + split; [intros w; split; [discriminate|intros (h & r & m & X & _); discriminate X]|]. split; [tauto|]. intros e. split; [discriminate|]. tauto.
    + assert (N : ~ other_frame d) by (rewrite <- U; congruence). assert (Q : match e with EBmpUnsup => Ok None | _ => Err e end = (Err e : res (option wasm_bmp))) by (destruct e; congruence). rewrite Q.
      split; [intros w; split; [discriminate|intros (h & r & m & X & _); discriminate X]|]. split; [split; [discriminate|tauto]|]. intros e'. split; [intros X; injection X as ->; auto|intros [_ X]; injection X as ->; reflexivity].
  - exfalso. exact (BmpFacts.npp_openbmp d E).
Qed.
Lemma openbmp_core_np d : bytes_ok d -> parse_openbmp_message_core d <> Panic.
Proof.
  intros B. unfold parse_openbmp_message_core. destruct (parse_openbmp_header d) as [[h r]|e|] eqn:E; [|destruct e; discriminate|exfalso; exact (BmpFacts.npp_openbmp d E)].
  apply BmpFacts.openbmp_reads in E as (w & -> & _); [|exact B]. apply bytes_ok_app in B as [_ B]. destruct (fst (parse_bmp_msg r)) as [m|e|] eqn:M; cbn [rbind]; [|discriminate|exfalso; exact (BmpFacts.msg_np r B M)].
  destruct (msg_build r m (Some (make_openbmp_header h)) (ob_time h) M) as (x & -> & _). discriminate.
Qed.
Lemma update_core d :
  (forall l, parse_bgp_update_core d = Ok l <-> exists m, run (parse_bgp_message false Bits32) d = Ok m /\ bgp_elems m (S754_zero false) (V4 0) 0 l) /\
  (forall e, parse_bgp_update_core d = Err e <-> run (parse_bgp_message false Bits32) d = Err e).
Proof.
  unfold parse_bgp_update_core. destruct (run (parse_bgp_message false Bits32) d) as [m|e|]; cbn [rbind].
  - destruct (bgp_list m (S754_zero false) (V4 0) 0) as (l & -> & H). split; [|split; discriminate]. intros l'. split; [intros X; injection X as <-; eauto|]. intros (m' & M & H'). injection M as <-. f_equal. eapply RisLiveFacts.bgp_elems_fun; eauto.
  - split; [|intros e'; split; intros X; injection X as ->; reflexivity]. intros l. split; [discriminate|intros (m & M & _); discriminate M].
  - split; [|split; discriminate]. intros l. split; [discriminate|intros (m & M & _); discriminate M].
Qed.
Lemma full_core d : parse_bgp_update_full_core d =
  match run (parse_bgp_message false Bits32) d with
  | Ok m => l <~ parse_bgp_update_core d ;; Ok (l, RisLiveSpec.attributes_of m)
  | Err e => Err e | Panic => Panic end.
Proof.
  unfold parse_bgp_update_full_core, parse_bgp_update_core. destruct (run (parse_bgp_message false Bits32) d) as [m|e|]; cbn [rbind]; reflexivity.
Qed.

(** ** Trees *)
Lemma tree_exists w : nlen w < 2 ^ 32 -> exists t, tree_of w t.
Proof.
  change (2 ^ 32) with 4294967296. intros Sm. destruct (DissectFacts.mrt_node w Sm) as (t & E & Ef & Eo & Ee & K). exists t. unfold DissectSpec.nd_end in Ee. rewrite Eo in Ee. repeat split; auto.
Qed.
Lemma dissect_flat d : dissect_mrt_record_core d =
  match chunk_mrt_record d with FRec r rest => t <~ dissect_mrt_record r ;; Ok (Some (t, nlen (raw_bytes r))) | FErr _ _ _ _ => Ok None end.
Proof.
  destruct d as [|b d']; [reflexivity|]. set (d := b :: d'). change (dissect_mrt_record_core d) with
    (match chunk_mrt_record_s [Data d] with CErr _ _ _ _ => Ok None
     | CRec r s => t <~ dissect_mrt_record r ;; Ok (Some (t, u32 (nlen d - nlen (sbytes s)))) end).
  clearbody d. pose proof (frame_bytes d) as B. unfold chunk_mrt_record in *. destruct (chunk_mrt_record_s [Data d]) as [r s|e h c s]; [|reflexivity]. cbn in B |- *.
  destruct (B _ _ eq_refl) as [Bd L]. apply (f_equal nlen) in Bd. rewrite nlen_app in Bd. unfold u32. replace (nlen d - nlen (sbytes s)) with (nlen (raw_bytes r)) by lia. rewrite N.mod_small by lia. reflexivity.
Qed.
Lemma dissect_chunk d t n : dissect_mrt_record_core d = Ok (Some (t, n)) <-> exists r rest, chunk_mrt_record d = FRec r rest /\ dissect_mrt_bytes (raw_bytes r) = Ok t /\ n = nlen (raw_bytes r).
Proof.
  rewrite dissect_flat. destruct (chunk_mrt_record d) as [r rest|]; [|split; [discriminate|intros (r0 & rest0 & X & _); discriminate X]]. unfold dissect_mrt_record. split.
  - intros H. apply rbind_inv in H as (t' & T & H). injection H as -> <-. exists r, rest. auto.
  - intros (r' & rest' & X & T & ->). injection X as <- <-. rewrite T. reflexivity.
Qed.
Lemma dissect_ok d : dissect_mrt_record_core d = Ok None \/ exists t n, dissect_mrt_record_core d = Ok (Some (t, n)).
Proof.
  rewrite dissect_flat. destruct (chunk_mrt_record d) as [r rest|] eqn:C; [right|left; reflexivity]. destruct (frame_bytes _ _ _ C) as [_ L]. destruct (tree_exists (raw_bytes r)) as (t & T & _); [lia|].
  unfold dissect_mrt_record. rewrite T. cbn. eauto.
Qed.
Lemma js_dissect d t n : js_dissect_mrt_record d = Ok (Some (t, n)) <-> dissect_mrt_record_core d = Ok (Some (t, n)) /\ n = declared d.
Proof.
  assert (Q : js_dissect_mrt_record d = if (nlen d <? 12) || (nlen d <? declared d) then Ok None else
    o <~ dissect_mrt_record_core (firstn (N.to_nat (declared d)) d) ;; Ok (match o with Some (t, _) => Some (t, declared d) | None => None end)).
  { unfold js_dissect_mrt_record, mrt_record_size, declared. destruct (nlen d <? 12); reflexivity. }
  rewrite Q. clear Q. split.
  - destruct (N.ltb_spec (nlen d) 12) as [|L1]; [discriminate|]. destruct (N.ltb_spec (nlen d) (declared d)) as [|L2]; [discriminate|]. cbn [orb]. intros H. apply rbind_inv in H as (o & E & H).
    destruct o as [(t' & n')|]; [|discriminate H]. injection H as -> <-. split; [|reflexivity]. apply dissect_chunk in E as (r & rest & C & T & _).
    destruct (frame_bytes _ _ _ C) as [B _]. pose proof (f_equal nlen B) as Bl. rewrite nlen_app in Bl. unfold nlen in Bl at 1. rewrite firstn_length in Bl. unfold nlen in L2.
    apply (chunk_app _ (skipn (N.to_nat (declared d)) d)) in C. rewrite firstn_skipn in C. pose proof C as C'. rewrite chunk_flat in C'. apply flat_declared in C' as (D & _).
    apply dissect_chunk. exists r, (rest ++ skipn (N.to_nat (declared d)) d). split; [exact C|]. split; [exact T|]. lia.
  - intros [H ->]. apply dissect_chunk in H as (r & rest & C & T & D). destruct (frame_bytes _ _ _ C) as [B L]. pose proof (f_equal nlen B) as Bl. rewrite nlen_app in Bl.
    destruct (N.ltb_spec (nlen d) 12) as [|L1]; [lia|]. destruct (N.ltb_spec (nlen d) (declared d)) as [|L2]; [lia|]. cbn [orb].
    assert (F : firstn (N.to_nat (declared d)) d = raw_bytes r). { rewrite D, B. unfold nlen. rewrite Nat2N.id, firstn_app, Nat.sub_diag, firstn_O, app_nil_r, firstn_all. reflexivity. }
    assert (C' : chunk_mrt_record (raw_bytes r) = FRec r []) by (rewrite <- (app_nil_r (raw_bytes r)); eapply chunk_local, C).
    assert (E : dissect_mrt_record_core (raw_bytes r) = Ok (Some (t, declared d))) by (apply dissect_chunk; exists r, []; auto). rewrite F, E. reflexivity.
Qed.
Lemma js_dissect_ok d : js_dissect_mrt_record d = Ok None \/ exists t n, js_dissect_mrt_record d = Ok (Some (t, n)).
Proof.
  unfold js_dissect_mrt_record. destruct (mrt_record_size d); [|auto]. destruct (nlen d <? _); [auto|]. destruct (dissect_ok (firstn (N.to_nat n) d)) as [->|(t & k & ->)]; cbn [rbind]; eauto.
Qed.
Lemma dissect_whole w m rest : whole w m -> exists t, tree_of w t /\ dissect_mrt_record_core (w ++ rest) = Ok (Some (t, nlen w)) /\
  js_dissect_mrt_record (w ++ rest) = Ok (if nlen w =? declared w then Some (t, nlen w) else None).
Proof.
  intros H. destruct (whole_front w m rest H) as (r & C & P & B). destruct (frame_bytes _ _ _ C) as [_ L]. rewrite B in L. destruct (tree_exists w) as (t & T); [lia|]. exists t. split; [exact T|].
  assert (E : dissect_mrt_record_core (w ++ rest) = Ok (Some (t, nlen w))) by (apply dissect_chunk; exists r, rest; rewrite B; split; [exact C|]; split; [apply T|reflexivity]).
  split; [exact E|]. assert (D : declared (w ++ rest) = declared w) by (apply declared_app; unfold nlen in L; lia). destruct (N.eqb_spec (nlen w) (declared w)) as [Q|Q].
  - apply js_dissect. split; [exact E|congruence].
  - destruct (js_dissect_ok (w ++ rest)) as [->|(t' & n' & X)]; [reflexivity|]. apply js_dissect in X as [X Y]. rewrite E in X. injection X as <- <-. congruence.
Qed.
Lemma gen_stays el g el1 g1 : gen_next el g = Ok (None, (el1, g1)) -> forall el2, gen_next el2 g1 = Ok (None, (el2, g1)).
Proof.
  intros H el2. assert (G : g1 = Gen true []).
  { unfold gen_next in H. destruct (g_rest g) as [|x d]; [congruence|]. destruct (js_parse_mrt_record _ _) as [[[[l n]|] e]| |]; cbn [rbind] in H; congruence. }
  rewrite G. reflexivity.
Qed.
