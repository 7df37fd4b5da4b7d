(** C100: what is read from octets is in range, and a whole file can go through JSON. *)
From Coq Require Import String Lia Sorting.Permutation.
From Verif Require Import Tac Base BaseFacts Reader Net NetSpec AsPath LinkState Attr BgpMsg Elem ElemSpec Text Filter FilterSpec TextDump Stream Framing TableDump TableDumpFacts Bgp4mp MrtRecord Iter IterSpec IterFacts
  Json JsonSpec RangeSpec JsonMsg JsonMsgSpec JsonRec JsonRecSpec JsonRecFacts ParsedFacts ParsedIterFacts PropFilter PropElem PropIter PropJson PropJsonMsg PropJsonRec.
Local Open Scope string_scope. Local Open Scope list_scope. Local Open Scope N_scope.

(** C100.  Whatever octets are read as a BGP message, each number of it is in the range of its
    field. *)
Theorem C100_message ap al s m r : bytes_ok s -> parse_bgp_message ap al s = Ok (m, r) -> msg_ranged m.
Proof. intros B H. exact (proj1 (y_msg ap al s m r B H)). Qed.
Print Assumptions C100_message.
(** The same for attributes alone, for announced prefixes in range. *)
Theorem C100_attributes k s a : bytes_ok s -> opt_all (Forall prefix_ok) (ac_prefixes k) -> parse_attributes k s = Ok a -> attrs_in_range a.
Proof. intros B C H. exact (attributes_in k s a B C H). Qed.
Print Assumptions C100_attributes.
(** The same for an MRT record, read from a source of octets delivered in whatever pieces; a peer
    table has one peer for an index and one index for an address. *)
Theorem C100_record s r z s' : octet_source s -> parse_mrt_record_s s = RRec r z s' -> record_in r /\ octet_source s'.
Proof. exact (record_in_of s r z s'). Qed.
Print Assumptions C100_record.
(** Hence for every record that the iterators give, whatever the filters. *)
Theorem C100_records show p : pr_text p = None -> octet_source (pr_stream p) -> exists l, record_list show p = Ok l /\ Forall record_in l.
Proof. exact (source_records show p). Qed.
Print Assumptions C100_records.

(** So a message read from octets, written as JSON and read back, is the same: only floats and
    paths can stand against it. *)
Theorem C100_message_json ps tx ord ap al s m r : texts_ok ps tx -> any_order ord -> bytes_ok s -> parse_bgp_message ap al s = Ok (m, r) -> msg_kept m ->
  exists n, de_msg ps (ser_msg tx ord m) = Some n /\ same_msg m n.
Proof. intros T O B H K. exact (C98_message ps tx ord m T O (C100_message ap al s m r B H) K). Qed.
Print Assumptions C100_message_json.
(** And a file whose records are written as JSON, read back and turned into elements gives the
    elements that iterating over the file gives, with filters those that pass. *)
Theorem C100_file ps tx ord show p : texts_ok ps tx -> any_orders ord -> pr_text p = None -> octet_source (pr_stream p) ->
  exists n rs, record_list show (unfiltered p) = Ok rs /\ (Forall record_kept rs -> exists qs es,
    all_of (de_record ps) (map (ser_record tx ord) rs) = Some qs /\ Forall2 same_record rs qs /\ elements None qs = Ok es /\
    forall fuel, (n <= fuel)%nat -> elem_list show fuel (unfiltered p) = Ok es /\
      elem_list show fuel p = Ok (List.filter (fun e => match_filters show (VElem e) (pr_filters p)) es)).
Proof.
  intros T O X S. destruct (C33_elems_of_records show p X) as (n1 & rs & E & H1). destruct (C33_filtered_elems show p) as (n2 & l & H2).
  exists (Nat.max n1 n2), rs. split; [exact E|]. intros K. destruct (source_records show (unfiltered p) X S) as (rs' & E' & R). rewrite E in E'. apply ok_inj in E'. subst rs'.
  assert (F : Forall (fun r => record_in r /\ record_kept r) rs) by (rewrite Forall_forall in *; auto).
  destruct (C99_elements ps tx ord rs T O F) as (qs & D & M & L). exists qs, (flat_map elems_of (annotate None rs)). rewrite L, elements_list.
  split; [exact D|]. split; [exact M|]. split; [reflexivity|]. intros fuel G.
  assert (G1 : (n1 <= fuel)%nat) by lia. assert (G2 : (n2 <= fuel)%nat) by lia.
  specialize (H1 fuel G1). destruct (H2 fuel G2) as [A B]. rewrite H1 in A. apply ok_inj in A. subst l. auto.
Qed.
Print Assumptions C100_file.

(** A source with a peer table, a RIB record, updates and errors among them, read in two pieces. *)
Example C100_ex : texts_ok ex_ps ex_tx /\ any_orders ex_ord /\ pr_text (ex_parser [FOriginAsn 5] false) = None /\
  octet_source (pr_stream (ex_parser [FOriginAsn 5] false)) /\
  exists rs, record_list show_nothing (unfiltered (ex_parser [FOriginAsn 5] false)) = Ok rs /\ length rs = 4%nat /\ Forall record_kept rs.
Proof.
  split; [apply ex_texts|]. split; [exact (proj1 (proj2 (proj2 C99_ex)))|]. split; [reflexivity|]. split; [apply bytes_okb_spec; vm_compute; reflexivity|].
  eexists. split; [vm_compute; reflexivity|]. split; [reflexivity|]. 
  repeat constructor; cbn.
  all: intros _ E; inversion_clear E as [? ? H|? ? H]; [discriminate H|inversion H].
Qed.
