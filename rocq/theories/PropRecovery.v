(** Properties C36, C37, C64, C65, C66: recovery. *)
From Coq Require Import Lia.
From Verif Require Import Base Net AsPath Community TableDump TableDumpFacts Stream Framing Attr AttrSpec Bgp4mp MrtRecord Elem ElemSpec PropElem Filter PropFilter Iter IterSpec IterFacts PropIter Recovery RecoverySpec RecoveryFacts RecoveryFilter.

(** ** C36: whatever the source holds and however it behaves, the stream is cut into records
    that are read and gaps; all gaps and the records that pass are shown, in order.  Without a
    final error the pieces reach the end of the stream; an error carries the offset they
    reach.  [tiled] and [shown] are in RecoverySpec. *)
Theorem C36_records show p c : pr_text p = None -> exists segs out tail,
  recovered show p c = Ok (map inl (shown show (pr_filters p) None segs) ++ map inr out) /\
  sbytes (pr_stream p) = seg_all segs ++ tail /\ tiled c 0 segs tail /\
  (out = [] /\ tail = [] \/ exists x, out = [x] /\ re_offset x = nlen (seg_all segs)).
Proof.
  intros T. destruct (recovered_spec show p c T) as (segs & out & tail & C & _ & E & TI & X). exists segs, out, tail.
  split; [apply C; lia|]. split; [exact E|]. split; [exact TI|]. destruct X as [X|(x & X1 & X2 & _)]; [auto|]. right. eauto.
Qed.
Print Assumptions C36_records.
(** The element iterator shows the same gaps and the elements of the same records. *)
Theorem C36_elems show p c : pr_text p = None -> exists segs out tail n,
  recovered show (unfiltered p) c = Ok (map inl (shown show [] None segs) ++ map inr out) /\
  (forall fuel, (n <= fuel)%nat -> recovered_elems show fuel p c = Ok (map inl (shown_elems show (pr_filters p) None segs) ++ map inr out)) /\
  sbytes (pr_stream p) = seg_all segs ++ tail /\ tiled c 0 segs tail /\
  (out = [] /\ tail = [] \/ exists x, out = [x] /\ re_offset x = nlen (seg_all segs)).
Proof.
  intros T. destruct (recovered_elems_spec show p c T) as (segs & out & tail & n & C & D & E & TI & X). exists segs, out, tail, n.
  split; [exact C|]. split; [exact D|]. split; [exact E|]. split; [exact TI|]. destruct X as [X|(x & X1 & X2 & _)]; [auto|]. right. eauto.
Qed.
Print Assumptions C36_elems.
(** Filters hide records, never gaps: with and without them the stream is cut alike. *)
Theorem C36_filtered show p c : pr_text p = None -> exists segs out tail,
  recovered show (unfiltered p) c = Ok (map inl (shown show [] None segs) ++ map inr out) /\
  recovered show p c = Ok (map inl (shown show (pr_filters p) None segs) ++ map inr out) /\
  sbytes (pr_stream p) = seg_all segs ++ tail /\ tiled c 0 segs tail.
Proof. intros T. destruct (recovered_filtered show p c T) as (segs & out & tail & U & F & E & TI & _). exists segs, out, tail. auto. Qed.
Print Assumptions C36_filtered.
(** Text dumps are refused. *)
Theorem C36_text_dump show p c l : pr_text p = Some l -> recovered show p c = Ok [inr (RError 0 0 EUnsup None)].
Proof. intros T. unfold recovered. cbn [Nat.add collect rbind rnext into_recovering rs_finished rs_unsupported]. rewrite T. reflexivity. Qed.
Print Assumptions C36_text_dump.

(** ** C37: recovery is not noticed on undamaged streams. *)
Theorem C37_records show p c rs : pr_text p = None -> no_fail (pr_stream p) -> sbytes (pr_stream p) = concat (map raw_bytes rs) -> Forall readable rs ->
  exists l, record_list show p = Ok l /\ recovered show p c = Ok (map (fun r => inl (Item r)) l).
Proof.
  intros T NF ES R. assert (exists xs, Forall2 reads_to rs xs) as (xs & F2).
  { clear -R. induction R as [|r rs (F & x & PR) R (xs & IH)]; [exists []; constructor|]. exists (x :: xs). constructor; [split; auto|auto]. }
  eexists. eapply undamaged_records; eauto.
Qed.
Print Assumptions C37_records.
Theorem C37_elems show p c rs : pr_text p = None -> no_fail (pr_stream p) -> sbytes (pr_stream p) = concat (map raw_bytes rs) -> Forall readable rs ->
  exists n l, forall fuel, (n <= fuel)%nat -> elem_list show fuel p = Ok l /\ recovered_elems show fuel p c = Ok (map (fun e => inl (Item e)) l).
Proof.
  intros T NF ES R. assert (exists xs, Forall2 reads_to rs xs) as (xs & F2).
  { clear -R. induction R as [|r rs (F & x & PR) R (xs & IH)]; [exists []; constructor|]. exists (x :: xs). constructor; [split; auto|auto]. }
  eapply undamaged_elems; eauto.
Qed.
Print Assumptions C37_elems.

(** ** C64: a source that does not fail is given up only where no record is and no chain of the
    required length begins within the limit. ([gap_true], part of [tiled], is the other half:
    what every gap reports is true, and a gap found by searching ends where the first chain
    begins.) *)
Theorem C64_search show p c : pr_text p = None -> quiet (pr_stream p) -> exists segs out tail,
  recovered show p c = Ok (map inl (shown show (pr_filters p) None segs) ++ map inr out) /\
  sbytes (pr_stream p) = seg_all segs ++ tail /\ tiled c 0 segs tail /\
  (out = [] /\ tail = [] \/ exists x, out = [x] /\ re_offset x = nlen (seg_all segs) /\ gives_up c tail x).
Proof.
  intros T Q. destruct (recovered_spec show p c T) as (segs & out & tail & C & _ & E & TI & X). exists segs, out, tail.
  split; [apply C; lia|]. split; [exact E|]. split; [exact TI|]. destruct X as [X|(x & X1 & X2 & X3)]; [auto|]. right. exists x. auto.
Qed.
Print Assumptions C64_search.
(** So each gap starts at a place where no record can be read and reports why, at most
    [max_scan_bytes] and five bytes are skipped by searching, and a chain passed over does not exist. *)
Theorem C64_gap c pos b g l tail : tiled c pos (SGap b g :: l) tail ->
  b <> [] /\ g_start g = pos /\ g_end g = pos + nlen b /\ damaged (b ++ seg_all l ++ tail) (g_cause g) /\
  (g_evidence g <> AlignedRecordChain -> nlen b < rc_max_scan c + 6 /\
    forall k ev, (0 < k < length b)%nat -> ~ chain (required c) ev (skipn k (b ++ seg_all l ++ tail))) /\
  (In (g_evidence g) [LegacyMrtChain; BgpMarkerChain; StateChangeChain] -> chain (required c) (g_evidence g) (seg_all l ++ tail) /\ g_confirmed g = required c) /\
  (g_evidence g = EndOfStream -> seg_all l ++ tail = [] /\ g_confirmed g = 0).
Proof.
  cbn [tiled]. intros (A & B & C & (D & E & F) & _). repeat split; auto.
  - destruct (g_evidence g); try congruence; lia.
  - destruct F as [F|F]; [congruence|exact F].
  - destruct (g_evidence g); cbn in H; try (exfalso; intuition congruence); apply E.
  - destruct (g_evidence g); cbn in H; try (exfalso; intuition congruence); apply E.
  - rewrite H in E. apply E.
  - rewrite H in E. apply E.
Qed.
Print Assumptions C64_gap.

(** ** C65: how a source cuts its data does not matter. *)
Theorem C65_records show p p' c : same_source p p' -> recovered show p c = recovered show p' c.
Proof. exact (recovered_sim show p p' c). Qed.
Print Assumptions C65_records.
Theorem C65_elems show fuel p p' c : same_source p p' -> recovered_elems show fuel p c = recovered_elems show fuel p' c.
Proof. exact (recovered_elems_sim show fuel p p' c). Qed.
Print Assumptions C65_elems.

(** ** C66: when every record is framed and after each one that cannot be read the required
    number of records, or all that are left, can be, each unreadable record costs only itself:
    there is one piece for each record. *)
Theorem C66_isolated show p c rs : pr_text p = None -> quiet (pr_stream p) -> sbytes (pr_stream p) = concat (map raw_bytes rs) -> Forall framed rs ->
  (forall a bad b, rs = a ++ bad :: b -> readable bad \/ Forall readable (firstn (N.to_nat (required c)) b)) ->
  exists segs, recovered show p c = Ok (map inl (shown show (pr_filters p) None segs)) /\
    Forall2 (fun r s => match s with SRec r' x => r' = r /\ parse_raw r = Ok x | SGap b g => b = raw_bytes r /\ parse_raw r = Err (g_cause g) /\ g_evidence g = AlignedRecordChain end) rs segs.
Proof.
  intros T Q ES FR AP. exists (pieces c 0 rs). split; [|apply pieces_match]. apply apart_records; auto. apply apart_spec. exact AP.
Qed.
Print Assumptions C66_isolated.

(** ** Examples *)
Definition keepalive : bytes := repeat 255 16 ++ [0; 19; 4].
Definition mp_rec (t : N) (msg : bytes) : bytes := be 4 t ++ be 2 16 ++ be 2 4 ++ be 4 (20 + nlen msg) ++ be 4 65001 ++ be 4 65002 ++ [0; 0; 0; 1; 10; 0; 0; 1; 10; 0; 0; 2] ++ msg.
Definition rec_good (t : N) : bytes := mp_rec t keepalive.
Definition rec_bad (t : N) : bytes := mp_rec t (repeat 255 16 ++ [0; 19; 9]).
Definition junk : bytes := repeat 7 20.
Definition rsource (s : stream) : parser := Parser s [] false None None.
Definition glance (r : res (list (event mrt_record + rerror))) : option (list (N * N * option evidence)) :=
  match r with
  | Ok l => Some (map (fun x => match x with inl (Item x) => (h_ts (mr_hdr x), 0, None) | inl (Gap g) => (g_start g, g_end g, Some (g_evidence g)) | inr x => (re_offset x, re_scanned x, None) end) l)
  | _ => None
  end.
Definition ex_config : recovery_config := RConfig 100 2.
(** Damage of both kinds, with the stream cut anyhow; C36 and C64 hold of it. *)
Example ex_recovered : glance (recovered show_nothing (rsource [Data (firstn 60 (rec_good 1 ++ rec_bad 2 ++ rec_good 3 ++ rec_good 4 ++ junk ++ rec_good 5 ++ rec_good 6)); Data []; Data (skipn 60 (rec_good 1 ++ rec_bad 2 ++ rec_good 3 ++ rec_good 4 ++ junk ++ rec_good 5 ++ rec_good 6))]) ex_config) =
  Some [(1, 0, None); (51, 102, Some AlignedRecordChain); (3, 0, None); (4, 0, None); (204, 224, Some BgpMarkerChain); (5, 0, None); (6, 0, None)].
Proof. vm_compute. reflexivity. Qed.
(** Nothing is found within the limit. *)
Example ex_gives_up : glance (recovered show_nothing (rsource [Data (rec_good 1 ++ repeat 7 200)]) ex_config) = Some [(1, 0, None); (51, 100, None)].
Proof. vm_compute. reflexivity. Qed.
(** An undamaged stream, as C37 asks for. *)
Example ex_undamaged : exists rs, Forall readable rs /\ concat (map raw_bytes rs) = rec_good 1 ++ rec_good 2 /\ length rs = 2%nat.
Proof.
  set (r := fun t => match chunk_mrt_record (rec_good t) with FRec r _ => r | _ => Raw (Hdr 0 None 0 0 0) [] [] end). exists [r 1; r 2]. split; [|split; vm_compute; reflexivity].
  assert (H : forall t x, chunk_mrt_record (raw_bytes (r t)) = FRec (r t) [] -> parse_raw (r t) = Ok x -> readable (r t)) by (intros t x A B; split; [exact A|eauto]).
  constructor; [|constructor; [|constructor]]; eapply H; vm_compute; reflexivity.
Qed.
(** A stream with an isolated unreadable record, as C66 asks for. *)
Example ex_isolated : glance (recovered show_nothing (rsource [Data (rec_bad 1 ++ rec_good 2 ++ rec_good 3 ++ rec_bad 4 ++ rec_good 5)]) ex_config) =
  Some [(0, 51, Some AlignedRecordChain); (2, 0, None); (3, 0, None); (153, 204, Some AlignedRecordChain); (5, 0, None)].
Proof. vm_compute. reflexivity. Qed.

(** ** Findings *)
(** A read that is interrupted while searching ends the iteration with an error, although it
    is retried everywhere else; without it the same bytes are recovered. *)
Theorem C65_interrupted_refuted : exists a b, let p := rsource [Data a; Intr; Data b] in let q := rsource [Data (a ++ b)] in
  glance (recovered show_nothing q ex_config) = Some [(0, 20, Some BgpMarkerChain); (1, 0, None); (2, 0, None)] /\
  glance (recovered show_nothing p ex_config) = Some [(0, 20, None)] /\ no_fail (pr_stream p).
Proof.
  exists junk, (rec_good 1 ++ rec_good 2). cbv zeta. split; [vm_compute; reflexivity|]. split; [vm_compute; reflexivity|]. intros [H|[H|[H|[]]]]; discriminate.
Qed.
Print Assumptions C65_interrupted_refuted.
(** Intact records at the end of a stream are lost when there are fewer of them than must be
    confirmed: the gap reaches to the end. *)
Theorem C66_tail_refuted : exists s, glance (recovered show_nothing (rsource [Data (junk ++ s)]) ex_config) = Some [(0, nlen (junk ++ s), Some EndOfStream)] /\
  glance (recovered show_nothing (rsource [Data s]) ex_config) = Some [(1, 0, None)].
Proof. exists (rec_good 1). split; vm_compute; reflexivity. Qed.
Print Assumptions C66_tail_refuted.
(** A second unreadable record close behind the first makes both of them, and the intact record
    between, one gap. *)
Theorem C66_close_refuted : exists a b, glance (recovered show_nothing (rsource [Data (rec_bad 1 ++ a ++ rec_bad 3 ++ b)]) (RConfig 200 2)) = Some [(0, 153, Some BgpMarkerChain); (4, 0, None); (5, 0, None)] /\
  glance (recovered show_nothing (rsource [Data a]) (RConfig 200 2)) = Some [(2, 0, None)].
Proof. exists (rec_good 2), (rec_good 4 ++ rec_good 5). split; vm_compute; reflexivity. Qed.
Print Assumptions C66_close_refuted.
