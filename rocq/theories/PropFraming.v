(** C01 (MRT framing is lossless), C02 (clean end of file versus truncation) and
    C03 (common header codec). *)
From Verif Require Import Base Reader Stream Framing FramingFacts.

(** C01: a successful read takes exactly the record's raw bytes, and at least a
    header, from any source, however it delivers its data. *)
Theorem C01_read_takes_raw_bytes :
  forall s r rest, chunk_mrt_record_s s = CRec r rest ->
  sbytes s = raw_bytes r ++ sbytes rest /\ (12 <= length (raw_bytes r))%nat.
Proof.
  intros s r rest H. pose proof (chunk_bytes s) as C. rewrite H in C. exact C.
Qed.
Print Assumptions C01_read_takes_raw_bytes.

(** C01: reading until an error partitions the input into the raw bytes of the
    records, the bytes attached to the error, and the unread bytes; at a clean
    end of file the last two are empty, so the records' raw bytes are the whole
    input. *)
Theorem C01_records_partition_input :
  forall fuel s l e h c rest, read_all_s fuel s = (l, Some (CErr e h c rest)) ->
  sbytes s = concat (map raw_bytes l) ++ (match c with Some b => b | None => [] end) ++ sbytes rest
  /\ (e = EEofExpected -> sbytes s = concat (map raw_bytes l)).
Proof.
  intros fuel s l e h c rest H. destruct (read_all_bytes _ _ _ _ H) as [H1 (e' & h' & c' & s' & H2 & H3 & _)].
  split; [exact H1|]. intros ->. injection H2 as <- <- <- <-.
  destruct (H3 eq_refl) as [-> H4]. rewrite H1. cbn. rewrite H4. apply app_nil_r.
Qed.
Print Assumptions C01_records_partition_input.

(** C01: such a run always ends. *)
Theorem C01_reading_terminates :
  forall s, exists l o, read_all_s (S (length (sbytes s))) s = (l, Some o).
Proof. exact (fun s => read_all_terminates _ s (le_n _)). Qed.
Print Assumptions C01_reading_terminates.

(** C01: short reads and interruptions do not change what is read: for a source
    that does not fail, record, error, attached bytes and unread bytes depend
    only on the concatenated data. *)
Theorem C01_delivery_irrelevant :
  forall s1 s2, no_fail s1 -> no_fail s2 -> sbytes s1 = sbytes s2 ->
  to_frame (chunk_mrt_record_s s1) = to_frame (chunk_mrt_record_s s2).
Proof.
  intros s1 s2 H1 H2 H. rewrite (chunk_stream_flat s1 H1), (chunk_stream_flat s2 H2), H. reflexivity.
Qed.
Print Assumptions C01_delivery_irrelevant.

(** C01: the raw bytes determine the record: writing them out and reading them
    again, followed by anything, returns the same record. *)
Theorem C01_raw_bytes_replay :
  forall s r rest, chunk_mrt_record s = FRec r rest ->
  forall rest', chunk_mrt_record (raw_bytes r ++ rest') = FRec r rest'.
Proof. exact chunk_local. Qed.
Print Assumptions C01_raw_bytes_replay.

(** C02: for a source that does not fail, the clean end of file is reported
    exactly when nothing is left; with no attached bytes. *)
Theorem C02_clean_eof_iff_empty :
  forall s, no_fail s ->
  ((exists rest, chunk_mrt_record_s s = CErr EEofExpected None None rest) <-> sbytes s = []).
Proof. exact chunk_eof_iff. Qed.
Print Assumptions C02_clean_eof_iff_empty.

(** C02: every error other than the clean end of file carries exactly the bytes
    consumed, even when the source fails part way; and the clean end of file is
    never reported while bytes remain. *)
Theorem C02_error_bytes_are_consumed_bytes :
  forall s e h c rest, chunk_mrt_record_s s = CErr e h c rest ->
  match c with
  | Some b => e <> EEofExpected /\ sbytes s = b ++ sbytes rest
  | None => e = EEofExpected /\ sbytes s = [] /\ sbytes rest = []
  end.
Proof.
  intros s e h c rest H. pose proof (chunk_bytes s) as C. rewrite H in C.
  destruct c; [exact (conj (proj2 C) (proj1 C))|]. destruct C as (H1 & H2 & _ & H3). auto.
Qed.
Print Assumptions C02_error_bytes_are_consumed_bytes.

(** C02: cutting a readable record anywhere strictly inside it makes the read
    fail with something other than the clean end of file, and the error carries
    all the bytes that were there. *)
Theorem C02_truncation_is_an_error :
  forall s r rest, chunk_mrt_record s = FRec r rest ->
  forall t u, raw_bytes r = t ++ u -> t <> [] -> u <> [] ->
  exists e h, chunk_mrt_record t = FErr e h (Some t) [] /\ e <> EEofExpected.
Proof.
  intros s r rest H t u Hr Ht Hu. apply (chunk_trunc t u r []); auto.
  rewrite app_nil_r, <- Hr, <- (app_nil_r (raw_bytes r)). eapply chunk_local; eauto.
Qed.
Print Assumptions C02_truncation_is_an_error.

(** C03: a header whose microsecond field is present exactly for BGP4MP_ET
    ([header_ok]) encodes, and parsing the bytes followed by anything returns
    the same header, its bytes, and what followed. *)
Theorem C03_header_roundtrip :
  forall h rest, header_ok h ->
  exists b, encode_header h = Ok b /\
  exists s', parse_common_header_s [Data (b ++ rest)] = HOk h b s' /\ sbytes s' = rest.
Proof.
  intros h rest H.
  assert (exists b, encode_header h = Ok b) as [b Hb].
  { unfold encode_header. destruct H as (_ & _ & _ & H). destruct (h_us h); eauto.
    destruct (4294967295 <? h_len h + 4) eqn:E; eauto. apply N.ltb_lt in E.
    destruct H as (_ & _ & H). exfalso. apply N.lt_nge in E. apply E.
    change (2 ^ 32) with (N.succ 4294967295) in H. apply N.lt_succ_r in H. exact H. }
  exists b. split; [exact Hb|].
  pose proof (flat_header_eq [Data (b ++ rest)] (no_fail_data _)) as R.
  rewrite sbytes_data, (flat_header_encode h b rest H Hb) in R.
  destruct R as (s' & _ & E1 & E2). eauto.
Qed.
Print Assumptions C03_header_roundtrip.

(** C03: every header the parser accepts re-encodes to the 12 or 16 bytes it was
    read from. *)
Theorem C03_header_parse_exact :
  forall s h b s', bytes_ok s -> parse_common_header_s [Data s] = HOk h b s' ->
  encode_header h = Ok b /\ header_ok h /\ s = b ++ sbytes s'.
Proof.
  intros s h b s' Hs H.
  pose proof (flat_header_eq [Data s] (no_fail_data _)) as R. rewrite sbytes_data in R.
  destruct (flat_header s) as [[[h0 hb0] r0]|[[e c] r0]] eqn:E.
  - destruct R as (s0 & _ & E1 & E2). rewrite H in E2. injection E2 as <- <- <-.
    pose proof (flat_header_inv _ _ _ _ E Hs) as [A B].
    pose proof (flat_header_bytes s) as C. rewrite E in C. destruct C as [C _].
    subst r0. auto.
  - destruct R as (s0 & _ & E1 & E2). rewrite H in E2. discriminate.
Qed.
Print Assumptions C03_header_parse_exact.

(** C03: a BGP4MP_ET header declaring fewer than 4 bytes is refused. *)
Theorem C03_et_short_length_refused :
  forall ts sub len rest, ts < 2 ^ 32 -> sub < 2 ^ 16 -> len < 4 ->
  exists s', parse_common_header_s
    [Data (be 4 ts ++ be 2 17 ++ be 2 sub ++ be 4 len ++ rest)]
  = HErr EParse (be 4 ts ++ be 2 17 ++ be 2 sub ++ be 4 len) s' /\ sbytes s' = rest.
Proof.
  intros ts sub len rest H1 H2 H3.
  set (b := be 4 ts ++ be 2 17 ++ be 2 sub ++ be 4 len).
  replace (be 4 ts ++ be 2 17 ++ be 2 sub ++ be 4 len ++ rest) with (b ++ rest)
    by (unfold b; rewrite <- !app_assoc; reflexivity).
  pose proof (flat_header_eq [Data (b ++ rest)] (no_fail_data _)) as R.
  rewrite sbytes_data in R. unfold flat_header in R.
  rewrite BaseFacts.splitn_app in R by apply header_base_len.
  unfold b in R at 1. rewrite split_header_be in R.
  - change (negb (etype_known 17)) with false in R. change (17 =? ET_BGP4MP_ET) with true in R.
    cbn iota in R. apply N.ltb_lt in H3. rewrite H3 in R. destruct R as (s' & _ & E1 & E2). eauto.
  - exact H1.
  - reflexivity.
  - exact H2.
  - eapply N.lt_trans; [exact H3|reflexivity].
Qed.
Print Assumptions C03_et_short_length_refused.

(** Non-vacuity: a BGP4MP_ET record with a 3-byte body, delivered one byte at a
    time with interruptions, and cut short. *)
Definition ex_hdr := Hdr 1000 (Some 5) 17 4 3.
Definition ex_rec := [0;0;3;232; 0;17; 0;4; 0;0;0;7; 0;0;0;5; 9;8;7].
Example C03_ex : header_ok ex_hdr /\ encode_header ex_hdr = Ok (firstn 16 ex_rec).
Proof. split; [repeat split; reflexivity|reflexivity]. Qed.
Example C01_ex_bytewise :
  to_frame (chunk_mrt_record_s (flat_map (fun b => [Intr; Data [b]]) (ex_rec ++ [42])))
  = FRec (Raw ex_hdr (firstn 16 ex_rec) [9;8;7]) [42].
Proof. reflexivity. Qed.
Example C02_ex_cut : chunk_mrt_record (firstn 18 ex_rec) = FErr EIo (Some ex_hdr) (Some (firstn 18 ex_rec)) [].
Proof. reflexivity. Qed.
Example C02_ex_fail : chunk_mrt_record_s [Data (firstn 5 ex_rec); Fail; Data [1]]
  = CErr EIo None (Some (firstn 5 ex_rec)) [Data [1]].
Proof. reflexivity. Qed.
Example C01_ex_all : fst (read_all_s 10 [Data ex_rec; Data ex_rec]) =
  [Raw ex_hdr (firstn 16 ex_rec) [9;8;7]; Raw ex_hdr (firstn 16 ex_rec) [9;8;7]].
Proof. reflexivity. Qed.

(** Finding: [CommonHeader::encode] decides on the microsecond field, not on the
    entry type, so a BGP4MP_ET header without microseconds is written as 12
    bytes and does not read back as such. *)
Theorem C03_et_without_microseconds_refuted :
  exists h b, h_type h = 17 /\ h_us h = None /\ encode_header h = Ok b /\
  forall rest s', parse_common_header_s [Data (b ++ rest)] <> HOk h b s'.
Proof.
  exists (Hdr 0 None 17 0 3). eexists. split; [reflexivity|]. split; [reflexivity|]. split; [reflexivity|].
  intros rest s'. cbn. discriminate.
Qed.
Print Assumptions C03_et_without_microseconds_refuted.
