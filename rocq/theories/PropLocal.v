(** C102: joined sources, and damage to one record. *)
From Coq Require Import Lia.
From Verif Require Import Base BaseFacts Net AsPath Community Attr BgpMsg Bgp4mp TableDump TableDumpFacts Stream Framing FramingFacts MrtRecord MrtRecordSpec MrtRecordFacts Elem ElemSpec Filter FilterSpec FilterFacts Iter IterSpec IterFacts PropMrtRecord PropElem PropFilter PropIter BodyErrSpec BodyErrFacts PropBodyErr LocalSpec LocalFacts.

(** ** Joining files.  The first is framed to its end without an error. *)
Theorem C102_join show p q r ws : pr_text p = None -> pr_text q = None -> pr_text r = None ->
  no_fail (pr_stream p) -> no_fail (pr_stream q) -> no_fail (pr_stream r) -> sbytes (pr_stream r) = sbytes (pr_stream p) ++ sbytes (pr_stream q) ->
  chunks (pr_stream p) (map inl ws) ->
  exists a b, frecord_list show (unfiltered p) = Ok a /\ frecord_list show (unfiltered q) = Ok b /\ frecord_list show (unfiltered r) = Ok (a ++ b) /\
    Forall2 outcome (map inl ws) a.
Proof.
  intros Tp Tq Tr Np Nq Nr B C. destruct (chunks_total (pr_stream q)) as (l & Cq). destruct (outcomes_ex ws) as (a & Fa). destruct (reads_chunks _ _ Cq) as (b & _ & Fb).
  exists a, b. rewrite (frecords_of show p _ _ Tp C Fa), (frecords_of show q _ _ Tq Cq Fb), (frecords_of show r (map inl ws ++ l) (a ++ b) Tr); auto.
  - eapply chunks_join; [exact Np|exact Nq|exact Nr|exact B|exact C|exact Cq].
  - apply Forall2_app; assumption.
Qed.
Print Assumptions C102_join.
(** The elements, with the same filters throughout; the first file has no peer table, on which
    the elements of the second could depend. *)
Theorem C102_join_elems show p q r ws : pr_text p = None -> pr_text q = None -> pr_text r = None ->
  no_fail (pr_stream p) -> no_fail (pr_stream q) -> no_fail (pr_stream r) -> sbytes (pr_stream r) = sbytes (pr_stream p) ++ sbytes (pr_stream q) ->
  chunks (pr_stream p) (map inl ws) -> Forall (fun w => ~ peer_index w) ws -> pr_filters p = pr_filters r -> pr_filters q = pr_filters r ->
  exists n a b, forall fuel, (n <= fuel)%nat -> felem_list show fuel p = Ok a /\ felem_list show fuel q = Ok b /\ felem_list show fuel r = Ok (a ++ b).
Proof.
  intros Tp Tq Tr Np Nq Nr B C W Ep Eq. destruct (chunks_total (pr_stream q)) as (l & Cq). destruct (outcomes_ex ws) as (a & Fa). destruct (reads_chunks _ _ Cq) as (b & _ & Fb).
  assert (Cr : chunks (pr_stream r) (map inl ws ++ l)) by (eapply chunks_join; [exact Np|exact Nq|exact Nr|exact B|exact C|exact Cq]).
  destruct (elems_of_outs show p _ _ Tp C Fa) as (n1 & H1). destruct (elems_of_outs show q _ _ Tq Cq Fb) as (n2 & H2).
  destruct (elems_of_outs show r _ _ Tr Cr (Forall2_app Fa Fb)) as (n3 & H3). exists (n1 + n2 + n3)%nat. do 2 eexists. intros fuel L.
  rewrite H1, H2, H3 by lia. rewrite Ep, Eq, felems_app, (no_table_since a None (outcomes_tables _ _ Fa W)), filter_app. auto.
Qed.
Print Assumptions C102_join_elems.
(** Default iteration, when no body of the first file fails like the source itself. *)
Theorem C102_join_default show p q r ws : pr_text p = None -> pr_text q = None -> pr_text r = None ->
  no_fail (pr_stream p) -> no_fail (pr_stream q) -> no_fail (pr_stream r) -> sbytes (pr_stream r) = sbytes (pr_stream p) ++ sbytes (pr_stream q) ->
  chunks (pr_stream p) (map inl ws) -> Forall (fun w => ~ peer_index w /\ parse_raw w <> Err EIo) ws -> pr_filters p = pr_filters r -> pr_filters q = pr_filters r ->
  pr_core p = false -> pr_core q = false -> pr_core r = false ->
  exists n a b, forall fuel, (n <= fuel)%nat -> elem_list show fuel p = Ok a /\ elem_list show fuel q = Ok b /\ elem_list show fuel r = Ok (a ++ b).
Proof.
  intros Tp Tq Tr Np Nq Nr B C W Ep Eq Kp Kq Kr. destruct (chunks_total (pr_stream q)) as (l & Cq). destruct (outcomes_ex ws) as (a & Fa). destruct (reads_chunks _ _ Cq) as (b & Rb & Fb).
  assert (Cr : chunks (pr_stream r) (map inl ws ++ l)) by (eapply chunks_join; [exact Np|exact Nq|exact Nr|exact B|exact C|exact Cq]).
  assert (W1 : Forall (fun w => ~ peer_index w) ws) by (eapply Forall_impl; [|exact W]; cbn; tauto).
  assert (W2 : Forall (fun w => parse_raw w <> Err EIo) ws) by (eapply Forall_impl; [|exact W]; cbn; tauto).
  destruct (elem_list_ok show p a Tp (reads_of _ _ _ C Fa)) as (n1 & H1). destruct (elem_list_ok show q b Tq Rb) as (n2 & H2).
  destruct (elem_list_ok show r (a ++ b) Tr (reads_of _ _ _ Cr (Forall2_app Fa Fb))) as (n3 & H3). exists (n1 + n2 + n3)%nat. do 2 eexists. intros fuel L.
  rewrite H1, H2, H3 by lia. rewrite Kp, Kq, Kr, Ep, Eq, (usable_outs ws a b Fa W2), annotate_rapp, (usable_tables a (outcomes_tables _ _ Fa W1)), flat_map_app, filter_app. auto.
Qed.
Print Assumptions C102_join_default.

(** ** Damage.  Whatever octets the body of one record is replaced by, in the same number, all other
    items are the same.  In a TABLE_DUMP record, neither body may be one that gets four more octets. *)
Theorem C102_damage show p q pre w b post : pr_text p = None -> pr_text q = None -> no_fail (pr_stream p) -> no_fail (pr_stream q) ->
  Forall whole pre -> whole w -> in_place w b -> length b = length (r_body w) ->
  sbytes (pr_stream p) = concat (map raw_bytes pre) ++ r_hbytes w ++ r_body w ++ post ->
  sbytes (pr_stream q) = concat (map raw_bytes pre) ++ r_hbytes w ++ b ++ post ->
  exists xs x y ys, frecord_list show (unfiltered p) = Ok (xs ++ x :: ys) /\ frecord_list show (unfiltered q) = Ok (xs ++ y :: ys) /\
    Forall2 outcome (map inl pre) xs /\ outcome (inl w) x /\ outcome (inl (with_body w b)) y.
Proof.
  intros Tp Tq Np Nq Fp W T L Bp Bq. assert (W' := whole_body w b W T L).
  assert (Bp' : sbytes (pr_stream p) = concat (map raw_bytes (pre ++ [w])) ++ post) by (rewrite Bp, map_app, concat_app; cbn [map concat]; unfold raw_bytes at 3; rewrite app_nil_r, <- !app_assoc; reflexivity).
  assert (Bq' : sbytes (pr_stream q) = concat (map raw_bytes (pre ++ [with_body w b])) ++ post) by (rewrite Bq, map_app, concat_app; cbn [map concat]; unfold raw_bytes at 3; cbn [with_body r_hbytes r_body]; rewrite app_nil_r, <- !app_assoc; reflexivity).
  destruct (chunks_front (pre ++ [w]) post (pr_stream p)) as (s1 & N1 & B1 & K1); [apply Forall_app; split; auto|exact Np|exact Bp'|].
  destruct (chunks_front (pre ++ [with_body w b]) post (pr_stream q)) as (s2 & N2 & B2 & K2); [apply Forall_app; split; auto|exact Nq|exact Bq'|].
  destruct (chunks_total s1) as (l & C1). assert (C2 : chunks s2 l) by (eapply chunks_same; [exact C1|exact N1|exact N2|congruence]).
  destruct (outcomes_ex pre) as (xs & Fx). destruct (outcome_ex w) as (x & X). destruct (outcome_ex (with_body w b)) as (y & Y). destruct (reads_chunks _ _ C1) as (ys & _ & Fy).
  exists xs, x, y, ys. split; [|split; [|auto]].
  - apply (frecords_of show p _ _ Tp (K1 _ C1)). rewrite map_app, <- app_assoc. apply Forall2_app; [exact Fx|]. constructor; assumption.
  - apply (frecords_of show q _ _ Tq (K2 _ C2)). rewrite map_app, <- app_assoc. apply Forall2_app; [exact Fx|]. constructor; assumption.
Qed.
Print Assumptions C102_damage.
(** The elements of all other records are the same, when the record is no peer table. *)
Theorem C102_damage_elems show p q pre w b post : pr_text p = None -> pr_text q = None -> no_fail (pr_stream p) -> no_fail (pr_stream q) ->
  Forall whole pre -> whole w -> in_place w b -> ~ peer_index w -> length b = length (r_body w) -> pr_filters p = pr_filters q ->
  sbytes (pr_stream p) = concat (map raw_bytes pre) ++ r_hbytes w ++ r_body w ++ post ->
  sbytes (pr_stream q) = concat (map raw_bytes pre) ++ r_hbytes w ++ b ++ post ->
  exists n t x y before after, outcome (inl w) x /\ outcome (inl (with_body w b)) y /\
    let passing := List.filter (keep_item (fun e => match_filters show (VElem e) (pr_filters p))) in
    forall fuel, (n <= fuel)%nat ->
      felem_list show fuel p = Ok (before ++ passing (elements_under t x) ++ after) /\ felem_list show fuel q = Ok (before ++ passing (elements_under t y) ++ after).
Proof.
  intros Tp Tq Np Nq Fp W T NI L EF Bp Bq. destruct (C102_damage show p q pre w b post Tp Tq Np Nq Fp W T L Bp Bq) as (xs & x & y & ys & Hp & Hq & Fx & X & Y).
  destruct (C34_reads show p Tp) as (i1 & R1 & E1). destruct (C34_reads show q Tq) as (i2 & R2 & E2). assert (i1 = xs ++ x :: ys) by congruence. assert (i2 = xs ++ y :: ys) by congruence. subst i1 i2.
  destruct (felem_list_ok show p _ Tp R1) as (n1 & H1). destruct (felem_list_ok show q _ Tq R2) as (n2 & H2).
  exists (n1 + n2)%nat, (table_since None xs), x, y. do 2 eexists. split; [exact X|]. split; [exact Y|]. cbv zeta. intros fuel Lf. rewrite H1, H2 by lia. rewrite <- EF, !felems_app, !felems_one, !filter_app.
  assert (Nx : Forall no_table [x]) by (constructor; [eapply outcome_table; eauto|constructor]).
  assert (Ny : Forall no_table [y]) by (constructor; [eapply outcome_table; [exact Y|exact NI]|constructor]).
  rewrite !(no_table_since [x] _ Nx), !(no_table_since [y] _ Ny). split; reflexivity.
Qed.
Print Assumptions C102_damage_elems.

(** ** Examples *)
Definition src (b : bytes) : parser := Parser [Data (firstn 9 b); Intr; Data (skipn 9 b)] [] false None None.
(** A record between two others, its body overwritten. *)
Definition mid : raw := match chunk_mrt_record (enc ex_record) with FRec r _ => r | _ => Raw (Hdr 0 None 0 0 0) [] [] end.
Example C102_ex : let b := map (fun _ => 255) (r_body mid) in whole mid /\ in_place mid b /\ ~ peer_index mid /\ length b = length (r_body mid) /\
  kinds (frecord_list show_nothing (src (enc ex_record ++ r_hbytes mid ++ r_body mid ++ enc ex_record))) = Some [None; None; None] /\
  kinds (frecord_list show_nothing (src (enc ex_record ++ r_hbytes mid ++ b ++ enc ex_record))) = Some [None; Some EParse; None].
Proof.
  cbv zeta. split; [vm_compute; reflexivity|]. split; [intros H; vm_compute in H; discriminate H|]. split; [intros (H & _); vm_compute in H; discriminate H|].
  split; [rewrite map_length; reflexivity|]. split; vm_compute; reflexivity.
Qed.
Example C102_ex_join : exists ws, chunks (pr_stream (src (enc ex_record ++ frame 11 0 [7; 7]))) (map inl ws) /\ length ws = 2%nat /\
  Forall (fun w => ~ peer_index w /\ parse_raw w <> Err EIo) ws.
Proof.
  eexists [_; _]. split; [eapply chunks_rec; [vm_compute; reflexivity|]; eapply chunks_rec; [vm_compute; reflexivity|]; eapply chunks_end; vm_compute; reflexivity|].
  split; [reflexivity|]. repeat apply Forall_cons; try apply Forall_nil; split; try (intros (H & _); vm_compute in H; discriminate H); vm_compute; discriminate.
Qed.
(** A TABLE_DUMP record, with another address of its peer. *)
Definition dump_body : bytes := [0; 1; 0; 2; 10; 0; 0; 0; 8; 1; 0; 0; 0; 3; 0; 0; 0; 4; 0; 5].
Definition dump : raw := match chunk_mrt_record (frame 12 1 (dump_body ++ [0; 4; 64; 1; 1; 0])) with FRec r _ => r | _ => mid end.
Example C102_ex_dump : let b := firstn 14 dump_body ++ [192; 0; 2; 1; 0; 5; 0; 4; 64; 1; 1; 0] in
  whole dump /\ h_type (r_hdr dump) = 12 /\ in_place dump b /\ length b = length (r_body dump) /\ b <> r_body dump.
Proof.
  cbv zeta. split; [vm_compute; reflexivity|]. split; [vm_compute; reflexivity|]. split; [|split; [vm_compute; reflexivity|vm_compute; discriminate]].
  intros _. split; [vm_compute; reflexivity|]. intros H. apply four_short_iff in H. vm_compute in H. discriminate H.
Qed.

(** ** Findings *)
(** Damage to the body of a TABLE_DUMP record can destroy the next record: here the length of its
    attributes grows by four, and four octets of the next record are taken for its own. *)
Theorem C102_dump_refuted : exists a b, length a = length b /\
  kinds (frecord_list show_nothing (src (frame 12 1 a ++ enc ex_record))) = Some [None; None] /\
  kinds (frecord_list show_nothing (src (frame 12 1 b ++ enc ex_record))) = Some [None; Some EIo].
Proof. exists (dump_body ++ [0; 4; 64; 1; 1; 0]), (dump_body ++ [0; 8; 64; 1; 1; 0]). split; [reflexivity|]. split; vm_compute; reflexivity. Qed.
Print Assumptions C102_dump_refuted.
