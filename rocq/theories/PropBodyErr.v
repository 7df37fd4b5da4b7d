(** C101: a body that cannot be read is never taken for the end of the source. *)
From Coq Require Import Lia.
From Verif Require Import Base BaseFacts Net AsPath Community Attr BgpMsg Bgp4mp TableDump TableDumpFacts Stream Framing MrtRecord MrtRecordFacts Elem ElemSpec Filter FilterSpec FilterFacts Iter IterSpec IterFacts PropMrtRecord PropElem PropFilter PropIter BodyErrSpec BodyErrFacts.

(** The body of a record fails in four ways only, none of which stands for the end. *)
Theorem C101_kinds w e : parse_raw w = Err e -> e = EIo \/ e = EParse \/ e = ETrunc \/ e = EUnsup.
Proof. intros H. apply raw_kind in H. destruct e; try discriminate H; auto. Qed.
Print Assumptions C101_kinds.
(** Fallible iteration gives one item for each item of the framing, in order, whatever the bodies
    hold. *)
Theorem C101_fallible show p items : pr_text p = None -> chunks (pr_stream p) items ->
  exists outs, frecord_list show (unfiltered p) = Ok outs /\ Forall2 outcome items outs.
Proof.
  intros T C. destruct (reads_chunks _ _ C) as (outs & R & F). exists outs. split; [|exact F].
  rewrite (frecord_list_ok show (unfiltered p) outs T R). cbn [pr_filters unfiltered]. rewrite fkept_nil. reflexivity.
Qed.
Print Assumptions C101_fallible.
(** Default iteration gives the records of the raw records that raw iteration gives, passing over
    bodies that cannot be read, as long as none of them fails like the source itself. *)
Theorem C101_default show p ws : pr_text p = None -> pr_core p = false -> raw_list p = Ok ws -> Forall (fun w => parse_raw w <> Err EIo) ws ->
  record_list show (unfiltered p) = Ok (readable_records ws).
Proof.
  intros T K W A. destruct (chunks_total (pr_stream p)) as (items & C). rewrite (raw_list_ok p items T C) in W. apply ok_inj in W. subst ws.
  destruct (reads_chunks _ _ C) as (outs & R & F). rewrite (record_list_ok show (unfiltered p) outs T R). cbn [pr_filters pr_core unfiltered]. rewrite kept_nil, K in *. f_equal.
  apply usable_outcomes; assumption.
Qed.
Print Assumptions C101_default.

(** ** Examples *)
Definition frame (ty sub : N) (b : bytes) : bytes := [0; 0; 0; 9] ++ be 2 ty ++ be 2 sub ++ be 4 (nlen b) ++ b.
(** A body of each kind of error between sound records. *)
Definition bad_bytes : bytes :=
  enc ex_record ++ frame 13 1 [1; 2] ++ enc ex_record ++ frame 16 99 [] ++ frame 11 0 [7; 7] ++ enc ex_record ++ frame 16 4 ([0; 0; 0; 1; 0; 0; 0; 2; 0; 0; 0; 1] ++ [10; 0]) ++ enc ex_record.
Definition bad_parser : parser := Parser [Data (firstn 9 bad_bytes); Intr; Data (skipn 9 bad_bytes)] [] false None None.
Definition kinds (r : res (list (item mrt_record))) : option (list (option perr)) :=
  match r with Ok l => Some (map (fun x => match x with inl _ => None | inr (e, _) => Some e end) l) | _ => None end.
Example C101_ex : kinds (frecord_list show_nothing bad_parser) = Some [None; Some ETrunc; None; Some EParse; Some EUnsup; None; Some EIo; None].
Proof. vm_compute. reflexivity. Qed.
Example C101_ex_default : let p := Parser [Data (enc ex_record ++ frame 13 1 [1; 2] ++ enc ex_record ++ frame 11 0 [7; 7] ++ enc ex_record)] [] false None None in
  exists ws, raw_list p = Ok ws /\ Forall (fun w => parse_raw w <> Err EIo) ws /\ length ws = 5%nat /\ length (readable_records ws) = 3%nat.
Proof. cbv zeta. eexists. split; [vm_compute; reflexivity|]. split; [repeat (apply Forall_cons; [vm_compute; discriminate|]); apply Forall_nil|]. split; vm_compute; reflexivity. Qed.

(** ** Findings *)
(** A body cut inside an address fails like the source, and ends default iteration although sound
    records follow, which raw iteration gives. *)
Theorem C101_default_refuted : exists p ws, pr_text p = None /\ pr_core p = false /\ raw_list p = Ok ws /\
  exists l, record_list show_nothing (unfiltered p) = Ok l /\ length l = 3%nat /\ length (readable_records ws) = 4%nat.
Proof. exists bad_parser. eexists. split; [reflexivity|]. split; [reflexivity|]. split; [vm_compute; reflexivity|]. eexists. split; [vm_compute; reflexivity|]. split; vm_compute; reflexivity. Qed.
Print Assumptions C101_default_refuted.
