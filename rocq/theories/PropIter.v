(** C33, C34, C61, C62: iteration. *)
From Coq Require Import Lia.
From Verif Require Import Base BaseFacts Net AsPath Community Attr BgpMsg Bgp4mp TableDump TableDumpFacts Stream Framing MrtRecord MrtRecordFacts Elem ElemSpec Filter FilterSpec FilterFacts Iter IterSpec IterFacts PropMrtRecord PropElem PropFilter.

(** ** C33: with filters, iteration gives what the unfiltered iteration gives and the
    filters let pass, for MRT sources and text dumps.  The iterators end on every source:
    [n] steps suffice. *)
Theorem C33_filtered_elems show p : exists n l, forall fuel, (n <= fuel)%nat ->
  elem_list show fuel (unfiltered p) = Ok l /\
  elem_list show fuel p = Ok (List.filter (fun e => match_filters show (VElem e) (pr_filters p)) l).
Proof. exact (filtered_elems show p). Qed.
Print Assumptions C33_filtered_elems.
(** Filtered record iteration keeps the records that pass: peer tables, and those one of
    whose elements matches, under the peer table in force. *)
Theorem C33_filtered_records show p : pr_text p = None -> exists l,
  record_list show (unfiltered p) = Ok l /\
  record_list show p = Ok (map snd (List.filter (passes show (pr_filters p)) (annotate None l))).
Proof. exact (filtered_records show p). Qed.
Print Assumptions C33_filtered_records.
(** The same for the fallible iterators, which report every error besides. *)
Theorem C33_filtered_fallible show p : exists n l, forall fuel, (n <= fuel)%nat ->
  felem_list show fuel (unfiltered p) = Ok l /\
  felem_list show fuel p = Ok (List.filter (keep_item (fun e => match_filters show (VElem e) (pr_filters p))) l).
Proof. exact (filtered_fallible show p). Qed.
Print Assumptions C33_filtered_fallible.
(** Unfiltered element iteration is the concatenation of the elements of the records, each
    under the last peer table before it. *)
Theorem C33_elems_of_records show p : pr_text p = None -> exists n l, record_list show (unfiltered p) = Ok l /\
  forall fuel, (n <= fuel)%nat -> elem_list show fuel (unfiltered p) = Ok (flat_map elems_of (annotate None l)).
Proof. exact (elems_of_records show p). Qed.
Print Assumptions C33_elems_of_records.

(** ** C34: the default iterators give the values the fallible ones give before the first
    error that stops. *)
Theorem C34_records show p : exists items, frecord_list show p = Ok items /\ record_list show p = Ok (usable (pr_core p) items).
Proof. exact (default_records show p). Qed.
Print Assumptions C34_records.
Theorem C34_elems show p : exists n items, forall fuel, (n <= fuel)%nat ->
  felem_list show fuel p = Ok items /\ elem_list show fuel p = Ok (usable (pr_core p) items).
Proof. exact (default_elems show p). Qed.
Print Assumptions C34_elems.
Theorem C34_no_errors show p l : frecord_list show p = Ok (map inl l) -> record_list show p = Ok l.
Proof.
  intros H. destruct (default_records show p) as (items & A & B). rewrite A in H. apply ok_inj in H. subst items. rewrite B. f_equal.
  clear. induction l as [|a l IH]; [reflexivity|]. cbn [map usable]. f_equal. exact IH.
Qed.
Print Assumptions C34_no_errors.
(** What the fallible iterator gives without filters is what reading the source record by
    record gives. *)
Theorem C34_reads show p : pr_text p = None -> exists items, reads (pr_stream p) items /\ frecord_list show (unfiltered p) = Ok items.
Proof.
  intros T. destruct (reads_total (pr_stream p)) as (items & R). exists items. split; [exact R|].
  rewrite (frecord_list_ok show (unfiltered p) items T R). cbn [pr_filters unfiltered]. rewrite fkept_nil. reflexivity.
Qed.
Print Assumptions C34_reads.

(** ** C61: the other iterators. *)
(** Raw records are those the framing finds before an error that stops. *)
Theorem C61_raw p : pr_text p = None -> exists items, chunks (pr_stream p) items /\ raw_list p = Ok (usable (pr_core p) items).
Proof. intros T. destruct (chunks_total (pr_stream p)) as (l & C). exists l. split; [exact C|]. apply raw_list_ok; auto. Qed.
Print Assumptions C61_raw.
(** Filtered raw iteration gives the records of filtered record iteration, each with the
    raw record it was read from, taken in order from those of raw iteration. *)
Theorem C61_filtered_raw show p : exists l, fraw_list show p = Ok l /\ record_list show p = Ok (map snd l) /\
  Forall (fun x => parse_raw (fst x) = Ok (snd x)) l /\ exists ws, raw_list p = Ok ws /\ subseq (map fst l) ws.
Proof. exact (filtered_raw show p). Qed.
Print Assumptions C61_filtered_raw.
(** [into_elementor_and_record_iter]: converting the records with the elementor given gives
    the elements of the whole. *)
Theorem C61_elementor show p : exists el l rs, elementor_and_records show p = Ok (el, l) /\ record_list show p = Ok rs /\
  flat_map elems_of (annotate el l) = flat_map elems_of (annotate None rs) /\ (rs = l \/ exists r, rs = r :: l /\ is_peer_table r = true).
Proof. exact (elementor_records show p). Qed.
Print Assumptions C61_elementor.
Theorem C61_elementor_raw p : exists el l ws, elementor_and_raws p = Ok (el, l) /\ raw_list p = Ok ws /\
  (el = None /\ ws = l \/ exists w h t, ws = w :: l /\ el = Some t /\ parse_raw w = Ok (MrtRecord h (MrtV2 (V2Peers t)))).
Proof. exact (elementor_raws p). Qed.
Print Assumptions C61_elementor_raw.
(** Text dumps have no records; their elements are those given, filtered. *)
Theorem C61_text show p l : pr_text p = Some l ->
  record_list show p = Ok [] /\ frecord_list show p = Ok [] /\ raw_list p = Ok [] /\
  forall fuel, (length l < fuel)%nat ->
    elem_list show fuel p = Ok (List.filter (fun e => match_filters show (VElem e) (pr_filters p)) l) /\
    felem_list show fuel p = Ok (map inl (List.filter (fun e => match_filters show (VElem e) (pr_filters p)) l)).
Proof. exact (text_lists show p l). Qed.
Print Assumptions C61_text.

(** ** C62: the core dump. *)
Theorem C62_core_dump show p items : pr_text p = None -> pr_core p = true -> reads (pr_stream p) items ->
  exists p' el, ends_in (record_next show) (p, None) (p', el) /\ pr_dump p' = core_dump (pr_dump p) items.
Proof. intros. apply dump_ok; auto. Qed.
Print Assumptions C62_core_dump.
Theorem C62_no_dump show p el st' : pr_core p = false -> ends_in (record_next show) (p, el) st' -> pr_dump (fst st') = pr_dump p.
Proof. exact (no_dump show p el st'). Qed.
Print Assumptions C62_no_dump.

(** ** A source with a peer table, a RIB record, an unsupported record, an UPDATE, a
    record of unknown type and a cut record, delivered in two pieces. *)
Definition enc (r : mrt_record) : bytes := match encode_mrt_record r with Ok b => b | _ => [] end.
Definition ex_v2 (t : N) (m : dump_v2) : mrt_record := MrtRecord (Hdr 7 None 13 t 0) (MrtV2 m).
Definition ex_bytes : bytes :=
  enc (ex_v2 1 (V2Peers ex_table)) ++ enc (ex_v2 2 (V2Rib (Rib 2 1 ex_p1 (map (fun i => RibEntry i (1000 + i) None (of_values [AOrigin IGP; AAsPath [Seg KSeq [i; 5]]])) [2; 0])))) ++
  [0;0;0;9; 0;11; 0;0; 0;0;0;2; 7;7] ++ enc ex_record ++ [0;0;0;9; 0;99; 0;0; 0;0;0;0] ++ enc ex_record ++ firstn 20 (enc ex_record).
Definition ex_parser (fs : list filter) (core : bool) : parser := Parser [Data (firstn 9 ex_bytes); Intr; Data (skipn 9 ex_bytes)] fs core None None.
Definition summary (r : res (list (item elem))) : option (list (N + perr)) :=
  match r with Ok l => Some (map (fun x => match x with inl e => inl (e_asn e) | inr (e, _) => inr e end) l) | _ => None end.
Definition asns (r : res (list elem)) : option (list N) := match r with Ok l => Some (map e_asn l) | _ => None end.
Example C34_ex :
  summary (felem_list show_nothing 30 (ex_parser [] false)) =
    Some [inl 64502; inl 64500; inr EUnsup; inl 400000; inr EParse; inl 400000; inr EIo] /\
  asns (elem_list show_nothing 30 (ex_parser [] false)) = Some [64502; 64500; 400000; 400000] /\
  asns (elem_list show_nothing 30 (ex_parser [] true)) = Some [64502; 64500; 400000].
Proof. repeat split; vm_compute; reflexivity. Qed.
Example C33_ex :
  asns (elem_list show_nothing 30 (ex_parser [FOriginAsn 5; FNegated (FPeerAsn 64502)] false)) = Some [64500] /\
  match record_list show_nothing (ex_parser [FOriginAsn 5] false) with Ok [a; b] => is_peer_table a = true /\ is_peer_table b = false | _ => False end.
Proof. split; vm_compute; [reflexivity|auto]. Qed.
Example C61_ex : match fraw_list show_nothing (ex_parser [FPeerAsn 400000] false) with
  | Ok [(_, t); (w, r); _] => is_peer_table t = true /\ raw_bytes w = enc ex_record | _ => False end.
Proof. vm_compute. auto. Qed.
Example C62_ex : exists items, reads (pr_stream (ex_parser [] true)) items /\ core_dump None items = Some [0;0;0;9; 0;99; 0;0; 0;0;0;0].
Proof. destruct (reads_total (pr_stream (ex_parser [] true))) as (l & R). exists l. split; [exact R|].
  destruct (C34_reads show_nothing (ex_parser [] true) eq_refl) as (l2 & R2 & E). assert (l = l2) by (eapply reads_fun; eauto). subst l2.
  vm_compute in E. apply ok_inj in E. subst l. reflexivity.
Qed.
