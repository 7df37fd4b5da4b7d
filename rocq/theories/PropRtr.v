(** C40, C41: RPKI-to-router PDUs and streams of them. *)
From Coq Require Import Lia.
From Verif Require Import Base BaseFacts Stream FramingFacts TableDumpSpec Rtr RtrSpec RtrFacts.

(** C40.  Parsing succeeds exactly when the buffer starts with the wire form of a PDU, and
    then returns that PDU and the length of that wire form. *)
Theorem C40_parse_iff s p n : bytes_ok s ->
  (parse_rtr s = TOk (p, n) <-> exists x r, s = x ++ r /\ nlen x = n /\ pdu_wire p x).
Proof. exact (parse_iff s p n). Qed.
Print Assumptions C40_parse_iff.

(** Encoding then parsing, with anything after it. *)
Theorem C40_roundtrip p r : pdu_ok p -> parse_rtr (encode_rtr p ++ r) = TOk (p, nlen (encode_rtr p)).
Proof. intros H. exact (parse_wire p _ r (encode_wire p H)). Qed.
Print Assumptions C40_roundtrip.

(** What the encoder writes is the wire form of the RFCs. *)
Theorem C40_encode_wire p : pdu_ok p -> pdu_wire p (encode_rtr p).
Proof. exact (encode_wire p). Qed.
Print Assumptions C40_encode_wire.

(** Parsing never panics. *)
Theorem C40_no_panic s : bytes_ok s -> parse_rtr s <> TPanic.
Proof. intros B H. pose proof (parse_cases s B) as W. rewrite H in W. exact W. Qed.
Print Assumptions C40_no_panic.

(** A cut PDU is reported as incomplete, with the number of bytes it needs. *)
Theorem C40_incomplete p y z : pdu_ok p -> encode_rtr p = y ++ z -> z <> [] ->
  parse_rtr y = TErr (TIncomplete (nlen y) (if nlen y <? 8 then 8 else nlen (encode_rtr p))).
Proof. intros H E Z. exact (parse_prefix p _ y z (encode_wire p H) E Z). Qed.
Print Assumptions C40_incomplete.

(** An End Of Data PDU of version 1 always carries three intervals: those not given are the
    defaults of RFC 8210 (3600, 600 and 7200 seconds).  One of version 0 carries none. *)
Theorem C40_end_of_data i n r t e rest : i < 2 ^ 16 -> n < 2 ^ 32 ->
  (forall x, r = Some x \/ t = Some x \/ e = Some x -> x < 2 ^ 32) ->
  parse_rtr (encode_rtr (EndOfData RV0 i n r t e) ++ rest) = TOk (EndOfData RV0 i n None None None, 12)
  /\ parse_rtr (encode_rtr (EndOfData RV1 i n r t e) ++ rest)
     = TOk (EndOfData RV1 i n (Some match r with Some x => x | None => 3600 end) (Some match t with Some x => x | None => 600 end)
              (Some match e with Some x => x | None => 7200 end), 24).
Proof.
  intros I S H. split.
  - exact (C40_roundtrip (EndOfData RV0 i n None None None) rest (conj I (conj S (conj eq_refl (conj eq_refl eq_refl))))).
  - refine (C40_roundtrip (EndOfData RV1 i n (Some match r with Some x => x | None => 3600 end) (Some match t with Some x => x | None => 600 end)
              (Some match e with Some x => x | None => 7200 end)) rest (conj I (conj S _))).
    eexists _, _, _. do 3 (split; [reflexivity|]).
    split; [|split]; [destruct r|destruct t|destruct e]; first [reflexivity|apply H; auto].
Qed.
Print Assumptions C40_end_of_data.
Example C40_end_of_data_ex :
  parse_rtr (encode_rtr (EndOfData RV1 7 9 (Some 60) None None)) = TOk (EndOfData RV1 7 9 (Some 60) (Some 600) (Some 7200), 24).
Proof. vm_compute. reflexivity. Qed.

Definition ex_key : pdu := RouterKey RV1 1 (repeat 7 20) 64496 [1; 2; 3].
Definition ex_report : pdu := ErrorReport RV0 3 [0; 9] [111; 107].
Definition ex_v4 : pdu := Ipv4Prefix RV0 1 24 26 (be_val [192; 0; 2; 0]) 64500.
Definition ex_end : pdu := EndOfData RV1 5 9 (Some 3600) (Some 600) (Some 7200).
Example ex_pdus_ok : pdu_ok ex_key /\ pdu_ok ex_report /\ pdu_ok ex_v4 /\ pdu_ok ex_end.
Proof.
  split; [|split; [|split]].
  - cbn. repeat split; try (apply bytes_okb_spec; reflexivity).
  - cbn. split; [discriminate|]. split; [apply bytes_okb_spec; reflexivity|]. split; [apply TableDumpFacts.utf8_ok_iff; reflexivity|reflexivity].
  - cbn. repeat split; discriminate.
  - cbn. split; [reflexivity|]. split; [reflexivity|]. exists 3600, 600, 7200. repeat split.
Qed.
Example ex_parse_key : parse_rtr (encode_rtr ex_key ++ [9; 9]) = TOk (ex_key, 37).
Proof. vm_compute. reflexivity. Qed.
Example ex_parse_report : parse_rtr (encode_rtr ex_report) = TOk (ex_report, 20).
Proof. vm_compute. reflexivity. Qed.
Example ex_cut : parse_rtr (firstn 11 (encode_rtr ex_report)) = TErr (TIncomplete 11 20).
Proof. vm_compute. reflexivity. Qed.
(** Hostile lengths: an error report whose inner length exceeds the PDU. *)
Example ex_hostile : parse_rtr ([1; 10; 0; 0] ++ be 4 16 ++ be 4 (2 ^ 32 - 1) ++ be 4 0) = TErr (TBadLength (2 ^ 32 - 1) 16 10).
Proof. vm_compute. reflexivity. Qed.

(** Findings: PDUs the API can build but that do not survive the codec. *)
Theorem C40_key_v0_refuted : exists p, parse_rtr (encode_rtr p) = TErr TKeyInV0.
Proof. exists (RouterKey RV0 1 (repeat 7 20) 64496 [1]). vm_compute. reflexivity. Qed.
Print Assumptions C40_key_v0_refuted.
Theorem C40_end_of_data_refuted : exists p q p' q',
  parse_rtr (encode_rtr p) = TOk (p', 24) /\ p' <> p /\ parse_rtr (encode_rtr q) = TOk (q', 12) /\ q' <> q.
Proof.
  exists (EndOfData RV1 1 2 None None None), (EndOfData RV0 1 2 (Some 5) None None).
  eexists _, _. split; [vm_compute; reflexivity|]. split; [discriminate|]. split; [vm_compute; reflexivity|discriminate].
Qed.
Print Assumptions C40_end_of_data_refuted.
Theorem C40_prefix_length_refuted : exists p, parse_rtr (encode_rtr p) = TErr (TBadPrefix 24 16 32).
Proof. exists (Ipv4Prefix RV1 1 24 16 0 64500). vm_compute. reflexivity. Qed.
Print Assumptions C40_prefix_length_refuted.

(** C41.  Reading from any source that does not fail — however it splits its data — whose bytes
    are encoded PDUs one after the other returns those PDUs, and leaves what follows. *)
Theorem C41_sequence ps r s : Forall pdu_ok ps -> Forall (fun p => nlen (encode_rtr p) <= MAX_REPORT) ps ->
  no_fail s -> sbytes s = concat (map encode_rtr ps) ++ r ->
  exists s', reads_rtr (length ps) s = (map TOk ps, s') /\ no_fail s' /\ sbytes s' = r.
Proof.
  intros H M F E. refine (reads_wire ps (map encode_rtr ps) _ _ s r F E).
  - clear -H. induction H; constructor; auto. apply encode_wire; assumption.
  - apply Forall_map. exact M.
Qed.
Print Assumptions C41_sequence.

(** Every read, on any bytes: too short, refused with only the header consumed, cut, or the
    outcome of parsing exactly the declared number of bytes, which are consumed in all cases. *)
Theorem C41_read_cases s : no_fail s -> bytes_ok (sbytes s) -> exists s', no_fail s' /\
  ((nlen (sbytes s) < 8 /\ read_rtr s = (TErr TIo, s') /\ sbytes s' = []) \/
   exists v ty code len d, sbytes s = v :: ty :: be 2 code ++ be 4 len ++ d /\ u16 code /\ u32 len /\
     ((len < 8 /\ read_rtr s = (TErr (TBadLength 8 len ty), s') /\ sbytes s' = d) \/
      (131086 < len /\ read_rtr s = (TErr (TBadLength 131086 len ty), s') /\ sbytes s' = d) \/
      (8 <= len <= 131086 /\ nlen (sbytes s) < len /\ read_rtr s = (TErr TIo, s') /\ sbytes s' = []) \/
      (8 <= len <= 131086 /\ exists x r, sbytes s = x ++ r /\ nlen x = len /\ read_rtr s = (q <! parse_rtr x ;; TOk (fst q), s') /\ sbytes s' = r))).
Proof. exact (read_cases s). Qed.
Print Assumptions C41_read_cases.

(** A refused length leaves the rest of the source untouched, whatever that is. *)
Theorem C41_refused v ty code len rest : u16 code -> u32 len -> len < 8 \/ 131086 < len ->
  exists e, read_rtr (Data (v :: ty :: be 2 code ++ be 4 len) :: rest) = (TErr e, Data [] :: rest) /\ e = TBadLength (if len <? 8 then 8 else 131086) len ty.
Proof. exact (read_refused v ty code len rest). Qed.
Print Assumptions C41_refused.

(** The division into pieces does not matter. *)
Theorem C41_chunking n s1 s2 : no_fail s1 -> no_fail s2 -> sbytes s1 = sbytes s2 -> fst (reads_rtr n s1) = fst (reads_rtr n s2).
Proof. exact (reads_agree n s1 s2). Qed.
Print Assumptions C41_chunking.

(** Reading never panics, even from failing sources. *)
Theorem C41_no_panic s : Forall (fun e => match e with Data l => bytes_ok l | _ => True end) s -> fst (read_rtr s) <> TPanic.
Proof. exact (read_no_panic s). Qed.
Print Assumptions C41_no_panic.

Example ex_stream : fst (reads_rtr 4 [Data [1; 9]; Intr; Data (skipn 2 (encode_rtr ex_key ++ encode_rtr ex_report)); Data (encode_rtr ex_v4 ++ encode_rtr ex_end)])
  = [TOk ex_key; TOk ex_report; TOk ex_v4; TOk ex_end].
Proof. vm_compute. reflexivity. Qed.
(** A PDU with a bad type is refused and the next one is still read. *)
Example ex_resync : fst (reads_rtr 2 [Data ([1; 77; 0; 0] ++ be 4 12 ++ [1; 2; 3; 4] ++ encode_rtr ex_v4)]) = [TErr (TBadType 77); TOk ex_v4].
Proof. vm_compute. reflexivity. Qed.

(** Finding: the slice parser accepts error reports the stream reader refuses. *)
Theorem C41_large_report_refuted : exists p, pdu_ok p /\ parse_rtr (encode_rtr p) = TOk (p, nlen (encode_rtr p)) /\ fst (read_rtr [Data (encode_rtr p)]) = TErr (TBadLength 131086 131087 10).
Proof.
  assert (O : forall k, bytes_ok (repeat 0 k)) by (induction k; constructor; auto; reflexivity).
  set (z := repeat 0 (N.to_nat 131071)). assert (Z : nlen z = 131071) by (unfold z, nlen; rewrite repeat_length; reflexivity).
  assert (H : pdu_ok (ErrorReport RV1 0 z [])).
  { cbn [pdu_ok]. split; [discriminate|]. split; [apply O|]. split; [apply TableDumpFacts.utf8_ok_iff; reflexivity|]. rewrite Z. reflexivity. }
  exists (ErrorReport RV1 0 z []). split; [exact H|]. split.
  - pose proof (C40_roundtrip _ [] H) as W. rewrite app_nil_r in W. exact W.
  - cbn [encode_rtr]. rewrite Z. clearbody z. vm_compute. reflexivity.
Qed.
Print Assumptions C41_large_report_refuted.
