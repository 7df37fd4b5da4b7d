(** C04, C55-C57: whole MRT records. *)
From Coq Require Import Lia.
From Verif Require Import Base BaseFacts Net NetSpec FlowSpec AsPath Nlri NlriFacts Attr AttrFacts BgpError BgpMsg MsgSpec MsgFacts Bgp4mp Bgp4mpSpec
  TableDump TableDumpSpec TableDumpFacts Stream Framing FramingFacts MrtRecord MrtRecordSpec MrtRecordFacts.

(** ** C04: no input makes the parser panic.  [parse_mrt_record_s] reads one record from a
    source that delivers its bytes as it likes, fails when it likes; the others are the
    entry points below it. *)
Theorem C04_no_panic :
  (forall s : stream, parse_mrt_record_s s <> RPanic) /\
  (forall (r : raw), parse_raw r <> Panic) /\
  (forall ty sub s, parse_mrt_body ty sub s <> Panic) /\
  (forall ap al s, parse_bgp_message ap al s <> Panic) /\
  (forall ap al t s, parse_body ap al t s <> Panic) /\
  (forall k s, parse_attributes k s <> Panic) /\
  (forall s a sf ps re ap, parse_nlri s a sf ps re ap <> Panic) /\
  (forall ty sub s, parse_dump_v2 ty s <> Panic /\ parse_dumps sub s <> Panic /\ parse_bgp4mp sub s <> Panic /\ parse_legacy sub s <> Panic).
Proof.
  split; [exact record_np|]. split; [exact raw_np|]. split; [exact body_np|]. split; [intros ap al s; apply message_np|].
  split; [exact parse_body_np|]. split; [exact parse_attributes_np|]. split; [exact parse_nlri_np|].
  intros ty sub s. split; [apply dump_v2_np|]. split; [apply parse_dumps_np|]. split; [apply Bgp4mpFacts.bgp4mp_np|apply Bgp4mpFacts.legacy_np].
Qed.
Print Assumptions C04_no_panic.
(** Malformed lengths end in an error: an attribute block longer than the entry, a record
    longer than the file, a path segment longer than its attribute. *)
Example C04_ex :
  (exists e c s', parse_mrt_record_s [Data ([0;0;0;1; 0;13; 0;2] ++ be 4 4000 ++ [0;0;0;1])] = RErr e c s') /\
  parse_mrt_body 12 1 ([0;0;0;0] ++ repeat 0 20 ++ [255;255]) = Err ETrunc /\
  parse_mrt_body 13 6 [] = Err EUnsup /\ parse_mrt_body 14 0 [] = Err EParse /\ parse_mrt_body 6 0 [] = Err EUnsup.
Proof. split; [do 3 eexists; vm_compute; reflexivity|]. repeat split; vm_compute; reflexivity. Qed.

(** ** C55: a record that is encoded is read back, from any stream that delivers its bytes,
    and what follows it is left. *)
Theorem C55_roundtrip r x rest s : record_ok r x -> encode_mrt_record r = Ok x -> no_fail s -> sbytes s = x ++ rest ->
  nlen x <= header_size (mr_hdr r) + 16777216 ->
  exists r' z s', parse_mrt_record_s s = RRec r' z s' /\ sbytes s' = rest /\ no_fail s' /\ same_record r r' /\
    header_size (mr_hdr r) + h_len (mr_hdr r') = nlen x.
Proof. exact (record_roundtrip r x rest s). Qed.
Print Assumptions C55_roundtrip.
(** Two headers compare equal exactly if everything that is written of them is equal. *)
Theorem C55_equal a b : header_eqb a b = true <-> h_ts a = h_ts b /\ h_us a = h_us b /\ h_type a = h_type b /\ h_sub a = h_sub b.
Proof.
  unfold header_eqb. rewrite !andb_true_iff, !N.eqb_eq.
  assert (U : match h_us a, h_us b with Some x, Some y => x =? y | None, None => true | _, _ => false end = true <-> h_us a = h_us b).
  { destruct (h_us a), (h_us b); rewrite ?N.eqb_eq; intuition congruence. }
  tauto.
Qed.
Print Assumptions C55_equal.
(** The length of the header given plays no role, and the one written is that of the message. *)
Theorem C55_length_recomputed r n : encode_mrt_record r = encode_mrt_record (MrtRecord (Hdr (h_ts (mr_hdr r)) (h_us (mr_hdr r)) (h_type (mr_hdr r)) (h_sub (mr_hdr r)) n) (mr_msg r)).
Proof. reflexivity. Qed.
Print Assumptions C55_length_recomputed.
Theorem C55_written r x : encode_mrt_record r = Ok x <-> exists b, encode_mrt_message (h_sub (mr_hdr r)) (mr_msg r) = Ok b /\
  let h := mr_hdr r in
  match h_us h with
  | None => nlen b < 2 ^ 32 /\ x = be 4 (h_ts h) ++ be 2 (h_type h) ++ be 2 (h_sub h) ++ be 4 (nlen b) ++ b
  | Some us => nlen b + 4 < 2 ^ 32 /\ x = be 4 (h_ts h) ++ be 2 (h_type h) ++ be 2 (h_sub h) ++ be 4 (nlen b + 4) ++ be 4 us ++ b
  end.
Proof.
  change (2 ^ 32) with 4294967296. unfold encode_mrt_record, encode_header, with_length. cbn [h_us h_len h_ts h_type h_sub].
  destruct (encode_mrt_message _ _) as [b|e|]; cbn [rbind]; try (split; [discriminate|intros (? & ? & _); discriminate]).
  unfold check_max. destruct (N.ltb_spec 4294967295 (nlen b)); cbn [rbind].
  { split; [discriminate|]. intros (b0 & E & H0). apply ok_inj in E. subst b0. cbn zeta in H0. destruct (h_us (mr_hdr r)); lia. }
  cbn zeta. destruct (h_us (mr_hdr r)) as [us|].
  - destruct (N.ltb_spec 4294967295 (nlen b + 4)); cbn [rbind].
    + split; [discriminate|]. intros (b0 & E & H1). apply ok_inj in E. subst b0. lia.
    + split.
      * intros E. apply ok_inj in E. exists b. split; auto. split; [lia|]. rewrite <- E, <- ?app_assoc. reflexivity.
      * intros (b0 & E & _ & ->). apply ok_inj in E. subst b0. rewrite <- ?app_assoc. reflexivity.
  - split.
    + intros E. apply ok_inj in E. exists b. split; auto. split; [lia|]. rewrite <- E, <- ?app_assoc. reflexivity.
    + intros (b0 & E & _ & ->). apply ok_inj in E. subst b0. rewrite <- ?app_assoc. reflexivity.
Qed.
Print Assumptions C55_written.
(** Whatever happens, the bytes taken from the stream are those of the record, and after a
    failure to decode its body they are handed out with the error. *)
Theorem C55_bytes s :
  match parse_mrt_record_s s with
  | RRec r _ s' => exists w, sbytes s = w ++ sbytes s' /\ 12 <= nlen w
  | RErr _ (Some c) s' => sbytes s = c ++ sbytes s'
  | RErr e None s' => e = EEofExpected /\ sbytes s = [] /\ sbytes s' = []
  | RPanic => False
  end.
Proof.
  unfold parse_mrt_record_s. pose proof (chunk_bytes s) as B. destruct (chunk_mrt_record_s s) as [r s'|e h [c|] s'].
  - destruct B as [B1 B2]. pose proof (raw_np r) as N. destruct (parse_raw r); auto.
    exists (raw_bytes r). split; auto. unfold nlen. lia.
  - tauto.
  - destruct B as (B1 & B2 & _ & B3). auto.
Qed.
Print Assumptions C55_bytes.
(** The type and subtype alone decide which kind of message comes out. *)
Theorem C55_kind ty sub s m : parse_mrt_body ty sub s = Ok m ->
  match m with
  | MrtDump _ => ty = 12 | MrtDumps l => ty = 12 /\ (2 <= length l)%nat
  | MrtV2 v => ty = 13 /\ dump_type v = sub
  | MrtBgp4mp x => (ty = 16 \/ ty = 17) /\ mp_type x = sub
  | MrtLegacy (LgMessage x) => ty = 5 /\ legacy_subtype (lg_bgp x) sub
  | MrtLegacy (LgStateChange _) => ty = 5 /\ sub = 3
  end.
Proof. exact (body_kind ty sub s m). Qed.
Print Assumptions C55_kind.
Definition ex_record : mrt_record :=
  MrtRecord (Hdr 1700000000 (Some 250000) 17 4 0)
    (MrtBgp4mp (MpMessage (MpMsg 4 400000 65000 3 (V4 1) (V4 2)
      (MUpdate (Update [] (attrs_of_list [Attr (AOrigin IGP) 0x40]) [Pfx (Net (V4 0x0A000000) 8) None]))))).
Example C55_ex : exists x, encode_mrt_record ex_record = Ok x /\ nlen x = 65 /\ record_ok ex_record x /\
  exists r' s', parse_mrt_record_s [Data (firstn 5 x); Intr; Data (skipn 5 x ++ [7; 7])] = RRec r' false s' /\
    sbytes s' = [7; 7] /\ same_record ex_record r' /\ h_len (mr_hdr r') = 49.
Proof.
  eexists. split; [vm_compute; reflexivity|]. split; [reflexivity|]. split.
  { split; [repeat split; vm_compute; reflexivity|]. split; [right; reflexivity|]. split; [reflexivity|]. split.
    - exists Bits32, false. split; [left; reflexivity|]. split; [repeat split; vm_compute; reflexivity|].
      cbn [mm_bgp message_ok]. unfold update_ok, AttrSpec.canonical_routes, NlriSpec.routes_ok. cbn [u_withdrawn u_announced removelast].
      repeat match goal with |- _ /\ _ => split end; intros; repeat constructor; try (vm_compute; reflexivity); try (cbn; lia).
      intros b H. apply ok_inj in H. subst b. reflexivity.
    - discriminate. }
  do 2 eexists. split; [vm_compute; reflexivity|]. split; [reflexivity|]. split; [repeat split|reflexivity].
Qed.
(** Findings.  A batch of one entry comes back as a single entry. *)
Theorem C55_batch_of_one_refuted : exists d x r' z s',
  encode_mrt_record (MrtRecord (Hdr 0 None 12 1 0) (MrtDumps [d])) = Ok x /\
  parse_mrt_record_s [Data x] = RRec r' z s' /\ mr_msg r' = MrtDump d.
Proof.
  exists (Dump 1 2 (Pfx (Net (V4 0) 0) None) 1 3 (V4 4) 5 (check_mandatory (attrs_of_list []) true true)). do 4 eexists.
  split; [vm_compute; reflexivity|]. split; vm_compute; reflexivity.
Qed.
Print Assumptions C55_batch_of_one_refuted.
(** A record is encoded without a check of its type: a BGP4MP message under the type of
    table dumps, for instance, which is then read as something else or not at all. *)
Theorem C55_type_unchecked_refuted : exists r x e c s', encode_mrt_record r = Ok x /\
  parse_mrt_record_s [Data x] = RErr e c s'.
Proof.
  exists (MrtRecord (Hdr 0 None 12 4 0) (MrtBgp4mp (MpMessage (MpMsg 4 1 2 0 (V4 1) (V4 2) MKeepAlive)))). do 4 eexists.
  split; vm_compute; reflexivity.
Qed.
Print Assumptions C55_type_unchecked_refuted.
(** Records above 16 MiB are written but not read. *)
Theorem C55_oversize_refuted r x rest s : record_ok r x -> encode_mrt_record r = Ok x -> no_fail s -> sbytes s = x ++ rest ->
  header_size (mr_hdr r) + 16777216 < nlen x -> exists c s', parse_mrt_record_s s = RErr EUnsup (Some c) s'.
Proof. exact (record_oversize r x rest s). Qed.
Print Assumptions C55_oversize_refuted.
Definition ex_dump : dump := Dump 1 2 (Pfx (Net (V4 0x0A000000) 8) None) 1 3 (V4 4) 5 (attrs_of_list []).
Example C55_oversize_ex : exists n x,
  let r := MrtRecord (Hdr 0 None 12 1 0) (MrtDumps (repeat ex_dump n)) in
  record_ok r x /\ encode_mrt_record r = Ok x /\ header_size (mr_hdr r) + 16777216 < nlen x.
Proof.
  remember (N.to_nat 1000000) as n eqn:En. assert (Hn : N.of_nat n = 1000000) by (subst n; apply N2Nat.id). clear En.
  assert (Ee : exists w, encode_dump_entry ex_dump = Ok w /\ nlen w = 18) by (eexists; split; [vm_compute; reflexivity|reflexivity]).
  destruct Ee as (w & Ew & Lw).
  assert (Lc : forall k, nlen (concat (repeat w k)) = N.of_nat k * 18).
  { induction k; [reflexivity|]. cbn [repeat concat]. rewrite nlen_app, IHk, Lw. lia. }
  assert (Ed : encode_dumps 1 (repeat ex_dump n) = Ok (be 2 1 ++ be 2 2 ++ concat (repeat w n))).
  { apply encode_dumps_iff. exists AIpv4, ex_dump, (repeat ex_dump (n - 1)), (repeat w n). split; [left; auto|]. split.
    - destruct n; [discriminate|]. cbn [repeat Nat.sub]. rewrite Nat.sub_0_r. reflexivity.
    - split; [apply Forall_forall; intros m Hm; apply repeat_spec in Hm; subst m; auto|]. split; [|reflexivity].
      clear - Ew. induction n; constructor; auto. }
  pose proof (Lc n) as L. rewrite Hn in L. change (1000000 * 18) with 18000000 in L.
  assert (L2 : nlen (be 2 1 ++ be 2 2 ++ concat (repeat w n)) = 18000004).
  { rewrite !nlen_app, L. reflexivity. }
  exists n. eexists. cbn zeta. split; [|split].
  2:{ apply C55_written. eexists. split; [exact Ed|]. cbn zeta. cbn [mr_hdr h_us]. split; [|reflexivity]. change (2 ^ 32) with 4294967296. lia. }
  - split; [repeat split; discriminate|]. split; [reflexivity|]. split; [rewrite repeat_length; lia|].
    exists AIpv4. split; [left; auto|]. apply Forall_forall. intros m Hm. apply repeat_spec in Hm. subst m.
    split; [|split; reflexivity]. split; [repeat split; vm_compute; discriminate|constructor].
  - cbn [mr_hdr h_ts h_type h_sub]. repeat rewrite (nlen_app (be _ _)). repeat rewrite (nlen_app (be _ _)) in L2. change (header_size _) with 12. lia.
Qed.

(** ** C56: encoding a record never panics, except for the length of a header with
    microseconds, which overflows in the last four octets below 4 GiB (a check that only
    builds with overflow checks make), and FlowSpec operators with an impossible length. *)
Theorem C56_encode_panics_exact r : maps_ok (mr_msg r) -> Forall attr_lengths_ok (mrt_attrs (mr_msg r)) ->
  (encode_mrt_record r = Panic <-> exists us b, h_us (mr_hdr r) = Some us /\
     encode_mrt_message (h_sub (mr_hdr r)) (mr_msg r) = Ok b /\ 2 ^ 32 - 4 <= nlen b < 2 ^ 32).
Proof. exact (encode_record_panic r). Qed.
Print Assumptions C56_encode_panics_exact.
Theorem C56_message_no_panic sub m : maps_ok m -> Forall attr_lengths_ok (mrt_attrs m) -> encode_mrt_message sub m <> Panic.
Proof. exact (np_encode_body sub m). Qed.
Print Assumptions C56_message_no_panic.
Theorem C56_bgp_no_panic al m : Forall attr_lengths_ok (bgp_attrs m) -> encode_bgp_message al m <> Panic.
Proof. exact (np_encode_message al m). Qed.
Print Assumptions C56_bgp_no_panic.
(** Whatever was read can be handed to the encoder. *)
Theorem C56_reencode s r z s' : parse_mrt_record_s s = RRec r z s' -> bytes_ok (sbytes s) -> no_fail s -> encode_mrt_record r <> Panic.
Proof. exact (parsed_reencode s r z s'). Qed.
Print Assumptions C56_reencode.
Example C56_ex : maps_ok (mr_msg ex_record) /\ Forall attr_lengths_ok (mrt_attrs (mr_msg ex_record)) /\ h_us (mr_hdr ex_record) = Some 250000 /\
  (forall a, encode_attribute Bits32 (Attr (AMpReach (Nlri AIpv4 SFlowSpec None [] None None (Some [[FPort [NumOp true false 9 false false true 80]]]))) a) = Panic).
Proof. split; [exact I|]. split; [repeat constructor|]. split; [reflexivity|]. intros a. unfold encode_attribute. vm_compute. reflexivity. Qed.

(** ** C57: the length correction for old table dumps is applied exactly when the body is
    view and sequence number, complete entries and one entry that lacks four octets; then
    these four octets are taken from the stream.  Bodies the encoder wrote are left alone. *)
Theorem C57_exact s h hb body rest : header_ok h -> encode_header h = Ok hb -> no_fail s -> sbytes s = hb ++ body ++ rest -> h_len h = nlen body -> nlen body <= 16777216 ->
  (h_type h = 12 /\ four_short (h_sub h) body ->
     forall more rest', rest = more ++ rest' -> length more = 4%nat ->
     exists s', chunk_mrt_record_s s = CRec (Raw h hb (body ++ more)) s' /\ sbytes s' = rest') /\
  (~ (h_type h = 12 /\ four_short (h_sub h) body) ->
     exists s', chunk_mrt_record_s s = CRec (Raw h hb body) s' /\ sbytes s' = rest).
Proof. exact (correction_exact s h hb body rest). Qed.
Print Assumptions C57_exact.
Theorem C57_encoded_untouched sub l b : encode_dumps sub l = Ok b -> ~ four_short sub b.
Proof. intros H F. apply four_short_iff in F. rewrite (dumps_not_short _ _ _ H) in F. discriminate. Qed.
Print Assumptions C57_encoded_untouched.
(** A well-formed body cut by four octets in its last entry's attributes is one of them. *)
Theorem C57_cut_recognised sub a l b cut more : dump_subtype sub a -> encode_dumps sub l = Ok b -> b = cut ++ more -> length more = 4%nat ->
  (exists l0 d x, l = l0 ++ [d] /\ encode_attributes Bits16 (at_inner (td_attrs d)) = Ok x /\ 4 <= nlen x) -> four_short sub cut.
Proof. exact (cut_short sub a l b cut more). Qed.
Print Assumptions C57_cut_recognised.
Example C57_ex : exists b, encode_dumps 1 [Dump 1 2 (Pfx (Net (V4 0x0A000000) 8) None) 1 3 (V4 4) 5 (attrs_of_list [Attr (AOrigin IGP) 0x40])] = Ok b /\
  nlen b = 26 /\ needs_legacy_length_correction 1 b = false /\ needs_legacy_length_correction 1 (firstn 22 b) = true /\
  needs_legacy_length_correction 1 (firstn 21 b) = false.
Proof. eexists. split; [vm_compute; reflexivity|]. split; [reflexivity|]. repeat split; vm_compute; reflexivity. Qed.
