(** C99: the JSON forms of MRT records. *)
From Coq Require Import String Lia Sorting.Permutation.
From Verif Require Import Tac Base BaseFacts Net NetSpec AsPath LinkState Attr BgpMsg Elem Text Filter TextDump Framing TableDump Bgp4mp MrtRecord Json JsonSpec JsonMsg JsonMsgSpec JsonRec JsonRecSpec JsonRecFacts JsonRecReadFacts PropJson PropJsonMsg.
Local Open Scope string_scope. Local Open Scope list_scope. Local Open Scope N_scope.

(** C99.  An MRT record written as JSON and read back is the same record, in whatever order the
    entries of maps are written; warnings about attributes are dropped. *)
Theorem C99_record ps tx ord r : texts_ok ps tx -> any_orders ord -> record_in r -> record_kept r ->
  exists q, de_record ps (ser_record tx ord r) = Some q /\ same_record r q.
Proof. exact (record_back ps tx ord r). Qed.
Print Assumptions C99_record.
(** The records of a whole file, written one by one and read back, have the same elements. *)
Theorem C99_elements ps tx ord rs : texts_ok ps tx -> any_orders ord -> Forall (fun r => record_in r /\ record_kept r) rs ->
  exists qs, all_of (de_record ps) (map (ser_record tx ord) rs) = Some qs /\ Forall2 same_record rs qs /\ elements None qs = elements None rs.
Proof.
  intros T O F. destruct (records_back ps tx ord rs T O F) as (qs & E & S). exact (ex_intro _ qs (conj E (conj S (elements_same rs qs S None None I)))).
Qed.
Print Assumptions C99_elements.
(** Whatever JSON is read, each number of the record is in the range of its field, a table has one
    peer for an index and one index for an address, and attributes come without warnings. *)
Theorem C99_in_range ps j r : parsers_typed ps -> de_record ps j = Some r -> record_in r /\ same_record r r.
Proof. exact (record_read ps j r). Qed.
Print Assumptions C99_in_range.
(** What is read can be written and read again: only floats and paths can stand against it. *)
Theorem C99_again ps tx ord j r : texts_ok ps tx -> parsers_typed ps -> any_orders ord -> de_record ps j = Some r -> record_kept r ->
  exists q, de_record ps (ser_record tx ord r) = Some q /\ same_record r q.
Proof. intros T P O D K. exact (record_back ps tx ord r T O (proj1 (record_read ps j r P D)) K). Qed.
Print Assumptions C99_again.
(** Any peer type is written as its words, and read back. *)
Theorem C99_peer_type f : u8v f -> show_peer_flags f = join (str " | ") (peer_words_of f) /\ parse_peer_flags (show_peer_flags f) = Some f.
Proof. intros H. exact (conj (peer_flags_text f H) (peer_flags_ok f H)). Qed.
Print Assumptions C99_peer_type.
(** A peer table is an object with one member per peer, under the index in decimal, and one per
    address. *)
Theorem C99_table tx ord t : any_orders ord -> exists l k,
  ser_table tx ord t = JObject [(str "collector_bgp_id", ser_ip4 tx (pt_collector t)); (str "view_name", JText (pt_name t));
                                (str "id_peer_map", JObject l); (str "peer_ip_id_map", JObject k)] /\
  Permutation l (map (fun kv => (dec (fst kv), ser_peer tx (snd kv))) (pt_peers t)) /\
  Permutation k (map (fun kv => (tx_ip tx (fst kv), JNum (snd kv))) (pt_ids t)).
Proof. intros (_ & O1 & O2). do 2 eexists. split; [reflexivity|]. split; apply Permutation_map; [apply O1|apply O2]. Qed.
Print Assumptions C99_table.
(** An index is read only as it is written. *)
Theorem C99_index s n : read_index s = Some n <-> u16v n /\ s = dec n.
Proof.
  split; [|intros (H & ->); apply index_ok; exact H]. intros H. split; [exact (index_in s n H)|]. unfold read_index in H. apply JsonFacts.obind_inv in H. destruct H as (m & _ & H).
  destruct (bytes_eqb (dec m) s) eqn:E; [|rewrite Bool.andb_false_r in H; discriminate]. apply bytes_eqb_eq in E. destruct (m <? 2 ^ 16); [|discriminate]. cbn [andb] in H. congruence.
Qed.
Print Assumptions C99_index.
(** The names of the members. *)
Theorem C99_names tx ord r : record_in r -> exists h m,
  ser_record tx ord r = JObject [(str "common_header", h); (str "message", JObject [(str (body_word (mr_msg r)), m)])] /\
  members h = map str ["timestamp"; "microsecond_timestamp"; "entry_type"; "entry_subtype"; "length"] /\
  match mr_msg r with
  | MrtDump _ => members m = map str ["view_number"; "sequence_number"; "prefix"; "status"; "originated_time"; "peer_ip"; "peer_asn"; "attributes"]
  | MrtDumps l => exists js, m = JList js /\ length js = length l
  | MrtV2 (V2Peers _) => exists x, m = JObject [(str "PeerIndexTable", x)] /\ members x = map str ["collector_bgp_id"; "view_name"; "id_peer_map"; "peer_ip_id_map"]
  | MrtV2 (V2Rib _) => exists x, m = JObject [(str "RibAfi", x)] /\ members x = map str ["rib_type"; "sequence_number"; "prefix"; "rib_entries"]
  | MrtV2 (V2Geo _) => exists x, m = JObject [(str "GeoPeerTable", x)] /\
      members x = map str ["collector_bgp_id"; "view_name"; "collector_latitude"; "collector_longitude"; "geo_peers"]
  | MrtV2 V2Generic => False
  | MrtBgp4mp (MpStateChange _) => exists x, m = JObject [(str "StateChange", x)] /\
      members x = map str ["msg_type"; "peer_asn"; "local_asn"; "interface_index"; "peer_ip"; "local_addr"; "old_state"; "new_state"]
  | MrtBgp4mp (MpMessage _) => exists x, m = JObject [(str "Message", x)] /\
      members x = map str ["msg_type"; "peer_asn"; "local_asn"; "interface_index"; "peer_ip"; "local_ip"; "bgp_message"]
  | MrtLegacy (LgMessage _) => exists x, m = JObject [(str "Message", x)] /\ members x = map str ["peer_asn"; "peer_ip"; "local_asn"; "local_ip"; "bgp_message"]
  | MrtLegacy (LgStateChange _) => exists x, m = JObject [(str "StateChange", x)] /\ members x = map str ["peer_asn"; "peer_ip"; "old_state"; "new_state"]
  end.
Proof.
  intros (_ & R). destruct r as [h [d|l|[t|r| |t]|[s|x]|[x|s]]]; cbn [mr_msg body_in] in R; try contradiction; do 2 eexists; (split; [reflexivity|]; split; [reflexivity|]).
  all: try reflexivity. 2-8: eexists; split; reflexivity.
  eexists. split; [reflexivity|]. apply map_length.
Qed.
Print Assumptions C99_names.

(** A peer table whose type has bits without a name, a RIB with attributes that have a warning, a
    message in BGP4MP, a batch of old dumps, a geographic table, written in reverse order. *)
Definition ex_ord : orders := Orders (@rev _) (@rev _) (@rev _).
Definition ex_peers_rec : mrt_record :=
  MrtRecord (Hdr 1700000000 None 13 1 40) (MrtV2 (V2Peers (PeerTable 16909060 [114] [(0, Peer 2 1 (V4 167772161) 400000); (1, Peer 0xFF 2 (V6 5) 65000)] [(V4 167772161, 0); (V6 5, 1)]))).
Definition ex_rib_rec : mrt_record :=
  MrtRecord (Hdr 1700000000 None 13 2 40) (MrtV2 (V2Rib (Rib 2 7 (Pfx (Net (V4 167772160) 8) None) [RibEntry 1 9 None ex_json_attrs]))).
Definition ex_mp_rec : mrt_record := MrtRecord (Hdr 1 (Some 999999) 17 4 99) (MrtBgp4mp (MpMessage (MpMsg 4 400000 65000 1 (V4 167772161) (V4 167772162) ex_json_open))).
Definition ex_dumps_rec : mrt_record :=
  MrtRecord (Hdr 1 None 12 1 99) (MrtDumps [Dump 1 2 (Pfx (Net (V4 167772160) 8) None) 1 3 (V4 4) 5 ex_json_attrs; Dump 1 3 (Pfx (Net (V4 167772160) 9) None) 1 3 (V4 4) 5 (attrs_of_list [])]).
Definition ex_geo_rec : mrt_record := MrtRecord (Hdr 1 None 13 7 99) (MrtV2 (V2Geo (GeoTable 1 [] 1065353216 0 [GeoPeer (Peer 2 1 (V4 167772161) 400000) 0 1065353216]))).
Definition ex_records : list mrt_record := [ex_peers_rec; ex_rib_rec; ex_mp_rec; ex_dumps_rec; ex_geo_rec].
Lemma ex_records_in : Forall record_in ex_records.
Proof.
  assert (A : attrs_in_range ex_json_attrs) by exact (proj1 (proj2 (proj1 (C98_in_range _ _ _ (proj2 ex_texts) (proj1 ex_json_back))))).
  assert (M : msg_ranged ex_json_open) by exact (proj1 (C98_in_range _ _ _ (proj2 ex_texts) (proj2 ex_json_back))).
  apply Forall_cons; [|apply Forall_cons; [|apply Forall_cons; [|apply Forall_cons; [|apply Forall_cons; [|apply Forall_nil]]]]].
  all: split; [split; [reflexivity|]; split; [first [exact I|reflexivity]|]; split; [reflexivity|]; split; reflexivity|].
  - split; [reflexivity|]. split; [|split; [|split]].
    + repeat constructor; cbn; intuition discriminate.
    + apply Forall_cons; [|apply Forall_cons; [|apply Forall_nil]]; (split; [reflexivity|]; split; [reflexivity|]; split; [reflexivity|]; split; reflexivity).
    + repeat constructor; cbn; intuition discriminate.
    + apply Forall_cons; [|apply Forall_cons; [|apply Forall_nil]]; split; reflexivity.
  - split; [cbn; lia|]. split; [reflexivity|]. split; [split; [split; [reflexivity|discriminate]|exact I]|]. apply Forall_cons; [|apply Forall_nil].
    split; [reflexivity|]. split; [reflexivity|]. split; [exact I|exact A].
  - split; [unfold mp_code; cbn; lia|]. split; [reflexivity|]. split; [reflexivity|]. split; [reflexivity|]. split; [reflexivity|]. split; [reflexivity|exact M].
  - apply Forall_cons; [|apply Forall_cons; [|apply Forall_nil]].
    all: split; [reflexivity|]; split; [reflexivity|]; split; [split; [split; [reflexivity|discriminate]|exact I]|]; split; [reflexivity|]; split; [reflexivity|]; split; [reflexivity|]; split; [reflexivity|].
    + exact A. + apply Forall_nil.
  - split; [reflexivity|]. apply Forall_cons; [|apply Forall_nil]. split; [reflexivity|]. split; [reflexivity|]. split; reflexivity.
Qed.
Example C99_ex : texts_ok ex_ps ex_tx /\ parsers_typed ex_ps /\ any_orders ex_ord /\ Forall (fun r => record_in r /\ record_kept r) ex_records /\
  show_peer_flags 0xFF = str "AS_SIZE_32BIT | ADDRESS_FAMILY_IPV6 | 0xfc" /\
  exists qs, all_of (de_record ex_ps) (map (ser_record ex_tx ex_ord) ex_records) = Some qs /\ qs <> ex_records /\
    match elements None qs with Ok l => length l = 3%nat | _ => False end.
Proof.
  split; [apply ex_texts|]. split; [apply ex_texts|]. split; [split; [|split]; intros l; symmetry; apply Permutation_rev|]. split.
  { pose proof ex_records_in as F. assert (K : attrs_kept ex_json_attrs) by exact (proj1 (proj2 (proj2 (proj2 (proj2 C98_ex))))).
    repeat (apply Forall_cons; [split; [inversion_clear F; assumption|]|inversion_clear F as [|? ? _ F']; rename F' into F]); [..|apply Forall_nil].
    - exact I. - unfold record_kept, ex_rib_rec. cbn [mr_msg body_kept rb_entries]. apply Forall_cons; [exact K|apply Forall_nil]. - exact I.
    - unfold record_kept, ex_dumps_rec. cbn [mr_msg body_kept]. apply Forall_cons; [exact K|]. apply Forall_cons; apply Forall_nil.
    - split; [repeat constructor; discriminate|]. split; [repeat constructor; discriminate|]. apply Forall_cons; [|apply Forall_nil]. split; repeat constructor; discriminate. }
  split; [vm_compute; reflexivity|]. eexists. split; [vm_compute; reflexivity|]. split; [|vm_compute; reflexivity].
  intros E. apply (f_equal (fun l => match l with _ :: MrtRecord _ (MrtV2 (V2Rib (Rib _ _ _ (e :: _)))) :: _ => at_warnings (re_attrs e) | _ => [] end)) in E. discriminate.
Qed.

(** Finding: a geographic table with coordinates that are not numbers, which is how RFC 6397 says
    that a place is not known, is written with nulls that are not read back. *)
Theorem C99_private_place_refuted : exists b t, parse_mrt_body 13 7 b = Ok (MrtV2 (V2Geo t)) /\ geo_in t /\
  forall ps tx ord, de_body ps (ser_body tx ord (MrtV2 (V2Geo t))) = None.
Proof.
  exists [1; 2; 3; 4; 0; 0; 0x7F; 0xC0; 0; 0; 0x7F; 0xC0; 0; 0; 0; 0]. eexists. split; [reflexivity|]. split; [split; [reflexivity|constructor]|].
  intros ps tx ord. unfold de_body, ser_body, de_variant. cbn. unfold de_into, de_v2, de_variant. cbn. unfold de_into, de_geo. cbn.
  unfold field. cbn. destruct (ps_ip4 ps (tx_ip tx (V4 16909060))); reflexivity.
Qed.
Print Assumptions C99_private_place_refuted.
(** Finding: a table is read whose addresses lead to indexes that it does not have. *)
Theorem C99_dangling_refuted : exists ps j t a i, de_table ps j = Some t /\ get_peer_id_by_addr t a = Some i /\ get_peer_by_id t i = None.
Proof.
  exists ex_ps, (ser_table ex_tx ex_ord (PeerTable 0 [] [] [(V4 1, 5)])), (PeerTable 0 [] [] [(V4 1, 5)]), (V4 1), 5.
  split; [vm_compute; reflexivity|]. split; reflexivity.
Qed.
Print Assumptions C99_dangling_refuted.
