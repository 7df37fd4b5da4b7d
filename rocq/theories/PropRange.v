(** C90: what is read from octets is in range, so that the theorems about JSON and text apply. *)
From Coq Require Import Floats.SpecFloat.
From Verif Require Import Base BaseFacts Net NetSpec AsPath Community CommunitySpec Attr AttrSpec Nlri BgpMsg Bgp4mp TableDump Stream Framing MrtRecord Elem Filter Iter IterSpec
  Json JsonSpec Text Psv PsvSpec RangeSpec RangeFacts RangeIterFacts PropFilter PropElem PropMrtRecord PropIter PropJson PropPsv.

(** ** Messages and records *)
(** Of any octets read as a BGP message, for a peer in range: every element is in range. *)
Theorem C90_message ap al s m r t pi pa l : bytes_ok s -> parse_bgp_message ap al s = Ok (m, r) -> ip_ok pi -> pa < 2 ^ 32 ->
  bgp_to_elems m t pi pa = Ok l -> Forall in_range l.
Proof. intros H E A B L. exact (bgp_elems_ranged _ _ _ _ _ (proj1 (y_bgp ap al s m r H E)) A B L). Qed.
Print Assumptions C90_message.
(** Of any octets read as path attributes: so are the values of the attributes. *)
Theorem C90_attributes k s a : bytes_ok s -> opt_all (Forall prefix_ok) (ac_prefixes k) -> parse_attributes k s = Ok a -> attrs_ranged a.
Proof. exact (attributes_ranged k s a). Qed.
Print Assumptions C90_attributes.
(** A record read from a source of octets: its elements are in range if the peer table in
    force is, and the table after it is. *)
Theorem C90_record s r z s' el l el' : octet_source s -> parse_mrt_record_s s = RRec r z s' -> table_ok el ->
  record_to_elems el r = Ok (l, el') -> Forall in_range l /\ table_ok el' /\ octet_source s'.
Proof.
  intros Hs H T E. destruct (record_ranged_of _ _ _ _ Hs H) as [R S']. destruct (record_elems_ranged _ _ _ _ T R E) as [A B]. auto.
Qed.
Print Assumptions C90_record.
Theorem C90_records show p : pr_text p = None -> octet_source (pr_stream p) -> exists l, record_list show p = Ok l /\ Forall record_ranged l.
Proof. exact (records_all show p). Qed.
Print Assumptions C90_records.

(** ** Sources *)
(** Every element that either iterator gives is in range, whatever the octets, the filters and
    the way the source delivers them. *)
Theorem C90_elements show p : pr_text p = None -> octet_source (pr_stream p) -> exists n items l,
  (forall fuel, (n <= fuel)%nat -> felem_list show fuel p = Ok items /\ elem_list show fuel p = Ok l) /\
  Forall (item_all in_range) items /\ Forall in_range l.
Proof. exact (source_all in_range show p elems_all). Qed.
Print Assumptions C90_elements.
(** Its time is a finite number besides. *)
Theorem C90_times show p : pr_text p = None -> octet_source (pr_stream p) -> exists n items l,
  (forall fuel, (n <= fuel)%nat -> felem_list show fuel p = Ok items /\ elem_list show fuel p = Ok l) /\
  Forall (item_all typed) items /\ Forall typed l.
Proof. exact (source_all typed show p elems_typed). Qed.
Print Assumptions C90_times.
(** Hence it can be written as JSON and read back, unless a rate in its communities is not a
    finite number or its path is one of those the short form confuses. *)
Theorem C90_json show p ps tx : texts_ok ps tx -> pr_text p = None -> octet_source (pr_stream p) -> exists n l,
  (forall fuel, (n <= fuel)%nat -> elem_list show fuel p = Ok l) /\
  forall e, In e l -> opt_all (Forall meta_finite) (e_comms e) -> opt_all path_kept (e_path e) -> de_elem ps (ser_elem tx e) = Some e.
Proof.
  intros X T Hs. destruct (C90_times show p T Hs) as (n & items & l & H & _ & F). exists n, l. split; [intros fuel L; apply H, L|].
  intros e I C K. rewrite Forall_forall in F. destruct (F e I) as [[R _] [_ N]]. apply C81_roundtrip; auto. split; auto.
Qed.
Print Assumptions C90_json.
(** Its line has the columns announced, and two elements have the same line exactly if their
    fields are alike. *)
Theorem C90_psv show p T : shows_ok T -> pr_text p = None -> octet_source (pr_stream p) -> exists n l,
  (forall fuel, (n <= fuel)%nat -> elem_list show fuel p = Ok l) /\
  (forall e, In e l -> split_on 124 (to_psv T e) = map snd (columns T e) /\ Forall (fun x => 32 <= x <= 126) (to_psv T e)) /\
  (forall a b, In a l -> In b l -> to_psv T a = to_psv T b <-> psv_alike a b).
Proof.
  intros X Tx Hs. destruct (C90_times show p Tx Hs) as (n & items & l & H & _ & F). exists n, l. split; [intros fuel L; apply H, L|].
  assert (G : forall e, In e l -> fields_ok e).
  { intros e I. rewrite Forall_forall in F. destruct (F e I) as [[(R1 & _ & _ & [R4 _] & R5 & _ & _ & _ & _ & _ & _ & R12 & _) C] [B _]].
    unfold fields_ok. repeat split; auto; try apply R4. }
  split; [intros e I; split; [apply C88_psv; auto|apply (C88_line T e X (G e I))]|]. intros a b A B. apply C88_psv_tells; auto.
Qed.
Print Assumptions C90_psv.

(** A source with a peer table, RIB entries, updates and errors among them. *)
Example C90_ex : pr_text (ex_parser [] false) = None /\ octet_source (pr_stream (ex_parser [] false)) /\
  (exists l, elem_list show_nothing 30 (ex_parser [] false) = Ok l /\ length l = 4%nat) /\ texts_ok ex_ps ex_tx /\ shows_ok ex_shows.
Proof.
  split; [reflexivity|]. split; [apply bytes_okb_spec; vm_compute; reflexivity|]. split; [eexists; split; vm_compute; reflexivity|].
  split; [apply ex_texts|]. exact C88_ex_shows.
Qed.
(** An UPDATE whose link bandwidth is not a number: the element read from its octets, written
    as JSON, cannot be read back. *)
Definition nan_record : mrt_record := MrtRecord (Hdr 7 None 16 4 0) (MrtBgp4mp (MpMessage (MpMsg 4 64500 64501 0 (V4 1) (V4 2)
  (MUpdate (Update [] (of_values [AOrigin IGP; AAsPath [Seg KSeq [5; 6]]; AExtCommunities [XLinkBandwidth true 64500 (2 ^ 31 - 1)]]) [ex_p1]))))).
Theorem C90_nan_refuted : exists p e, pr_text p = None /\ octet_source (pr_stream p) /\ elem_list show_nothing 30 p = Ok [e] /\
  forall ps tx, de_elem ps (ser_elem tx e) = None.
Proof.
  exists (Parser [Data (enc nan_record)] [] false None None). eexists.
  split; [reflexivity|]. split; [apply bytes_okb_spec; vm_compute; reflexivity|]. split; [vm_compute; reflexivity|].
  intros ps tx. apply C81_nan_refuted. reflexivity.
Qed.
Print Assumptions C90_nan_refuted.
