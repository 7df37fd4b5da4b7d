(** C29, C30, C58, C59: per-prefix elements. *)
From Coq Require Import Lia Permutation Floats.SpecFloat.
From Verif Require Import Base BaseFacts Net AsPath Community Mpls Nlri Attr BgpMsg Bgp4mp TableDump Stream Framing MrtRecord Elem ElemSpec ElemFacts F64Facts.

(** ** C29: an UPDATE yields exactly its announcements and withdrawals. *)
Theorem C29_update_elems m t pi pa : exists l, bgp_update_to_elems m t pi pa = Ok l /\ update_elems m t pi pa l.
Proof. exact (update_elems_ok m t pi pa). Qed.
Print Assumptions C29_update_elems.
(** The description leaves no freedom. *)
Theorem C29_determined m t pi pa l l' : update_elems m t pi pa l -> update_elems m t pi pa l' -> l = l'.
Proof. exact (update_elems_fun m t pi pa l l'). Qed.
Print Assumptions C29_determined.
(** The lazy iterator delivers the same list, its [n]-th call the [n]-th element and [None]
    ever after the last; the size hint is the number of elements still to come. *)
Theorem C29_iterator m t pi pa : exists u l, bgp_update_to_elems_iter m t pi pa = Ok u /\ bgp_update_to_elems m t pi pa = Ok l /\
  forall n, let u' := Nat.iter n (fun u => snd (upd_next u)) u in
    fst (upd_next u') = nth_error l n /\ upd_size u' = (length l - n)%nat.
Proof. exact (upd_iter_ok m t pi pa). Qed.
Print Assumptions C29_iterator.
(** A dual-stack update. *)
Definition ex_p1 : prefix := Pfx (Net (V4 0x0a000000) 8) None.
Definition ex_p2 : prefix := Pfx (Net (V4 0x0b000000) 8) (Some 7).
Definition ex_p6 : prefix := Pfx (Net (V6 (N.shiftl 0x20010db8 96)) 32) None.
Definition ex_reach : nlri := Nlri AIpv6 SUnicast (Some (NH6 5)) [ex_p6] None None None.
Definition ex_unreach : nlri := Nlri AIpv6 SUnicast None [ex_p6; ex_p6] None None None.
Definition of_values (l : list attr_value) : attributes := Attrs (map attr_of_value l) [] 0.
Definition ex_update : update_msg :=
  Update [ex_p2] (of_values [AOrigin EGP; AAsPath [Seg KSeq [1; 23456]]; AAs4Path [Seg KSeq [70000]]; ACommunities [CNoExport; CCustom 1 2];
                             AMpReach ex_reach; AMpUnreach ex_unreach; AMed 9; AAggregator 3 4; ALargeCommunities [Large 1 2 3]; AUnknown 99 [1]; AAtomicAggregate])
    [ex_p1; ex_p2].
Example C29_ex : exists l, bgp_update_to_elems ex_update (f64_of_N 3) (V4 1) 64500 = Ok l /\
  map (fun e => (e_type e, e_prefix e)) l =
    [(Announce, ex_p1); (Announce, ex_p2); (Announce, ex_p6); (Withdraw, ex_p2); (Withdraw, ex_p6); (Withdraw, ex_p6)] /\
  map e_path l = repeat (Some [Seg KSeq [1; 70000]]) 3 ++ [None; None; None] /\
  map e_hop l = repeat (Some (V6 5)) 3 ++ [None; None; None] /\
  map e_comms l = repeat (Some [MPlain CNoExport; MPlain (CCustom 1 2); MLarge (Large 1 2 3)]) 3 ++ [None; None; None] /\
  map e_origins l = repeat (Some [70000]) 3 ++ [None; None; None].
Proof. eexists. repeat split; vm_compute; reflexivity. Qed.
(** Findings.  Where the attributes are absent, MED and LOCAL_PREF of an announcement are
    nevertheless [Some(0)]: an absent value cannot be told from zero. *)
Theorem C29_defaults_refuted : exists m e, map a_value (at_inner (u_attrs m)) = [] /\
  bgp_update_to_elems m (f64_of_N 0) (V4 1) 1 = Ok [e] /\ e_pref e = Some 0 /\ e_med e = Some 0 /\
  bgp_update_to_elems (Update [] (of_values [AMed 0; ALocalPref 0]) (u_announced m)) (f64_of_N 0) (V4 1) 1 = Ok [e].
Proof. exists (Update [] (of_values []) [ex_p1]). eexists. split; [reflexivity|]. split; [vm_compute; reflexivity|]. repeat split; vm_compute; reflexivity. Qed.
Print Assumptions C29_defaults_refuted.
(** The prefixes of a labelled (RFC 8277) MP_REACH yield no element. *)
Theorem C29_labeled_refuted : exists n, nlri_nets n <> [] /\
  bgp_update_to_elems (Update [] (of_values [AMpReach n]) []) (f64_of_N 0) (V4 1) 1 = Ok [].
Proof. exists (Nlri AIpv4 SMplsLabel (Some (NH4 1)) [] (Some [Labeled (p_net ex_p1) [5] None]) None None). split; [discriminate|vm_compute; reflexivity]. Qed.
Print Assumptions C29_labeled_refuted.
(** Of two MP_REACH attributes only the last one counts. *)
Theorem C29_second_reach_refuted : exists a b e, In ex_p1 (nl_prefixes a) /\
  bgp_update_to_elems (Update [] (of_values [AMpReach a; AMpReach b]) []) (f64_of_N 0) (V4 1) 1 = Ok [e] /\ e_prefix e <> ex_p1.
Proof. exists (new_reachable ex_p1 None), (new_reachable ex_p2 None). eexists. split; [left; reflexivity|]. split; [vm_compute; reflexivity|discriminate]. Qed.
Print Assumptions C29_second_reach_refuted.
(** AGGREGATOR written after AS4_AGGREGATOR hides it, AS_TRANS included (RFC 6793 wants the
    four-octet one). *)
Theorem C29_as4_aggregator_refuted : exists e,
  bgp_update_to_elems (Update [] (of_values [AAs4Aggregator 70000 1; AAggregator 23456 1]) [ex_p1]) (f64_of_N 0) (V4 1) 1 = Ok [e] /\ e_aggr_asn e = Some 23456.
Proof. eexists. split; vm_compute; reflexivity. Qed.
Print Assumptions C29_as4_aggregator_refuted.

(** ** C30: a RIB record yields one announcement per entry, of the entry's peer. *)
Theorem C30_rib_elems t h b ps : Forall2 (fun r p => get_peer_by_id t (re_peer r) = Some p) (rb_entries b) ps ->
  exists l, record_to_elems (Some t) (MrtRecord h (MrtV2 (V2Rib b))) = Ok (l, Some t) /\
    Forall2 (fun x e => rib_elem (rb_prefix b) (fst x) (snd x) e) (combine ps (rb_entries b)) l.
Proof. exact (rib_known t h b ps). Qed.
Print Assumptions C30_rib_elems.
Theorem C30_determined p pe r e e' : rib_elem p pe r e -> rib_elem p pe r e' -> e = e'.
Proof. exact (rib_elem_fun p pe r e e'). Qed.
Print Assumptions C30_determined.
Theorem C30_no_table h b : record_to_elems_iter None (MrtRecord h (MrtV2 (V2Rib b))) = Ok (inl EeNoTable) /\
  record_to_elems None (MrtRecord h (MrtV2 (V2Rib b))) = Ok ([], None).
Proof. split; reflexivity. Qed.
Print Assumptions C30_no_table.
(** The first entry of an unknown peer ends the record: it and all entries after it are
    dropped without an error. *)
Theorem C30_unknown_peer t h b ps l1 r l2 : rb_entries b = l1 ++ r :: l2 ->
  Forall2 (fun r p => get_peer_by_id t (re_peer r) = Some p) l1 ps -> get_peer_by_id t (re_peer r) = None ->
  exists l, record_to_elems (Some t) (MrtRecord h (MrtV2 (V2Rib b))) = Ok (l, Some t) /\
    Forall2 (fun x e => rib_elem (rb_prefix b) (fst x) (snd x) e) (combine ps l1) l.
Proof. exact (rib_cut t h b ps l1 r l2). Qed.
Print Assumptions C30_unknown_peer.
Definition ex_peer (i : N) : peer := Peer 2 i (V4 (100 + i)) (64500 + i).
Definition ex_table : peer_table := PeerTable 0 [] [(0, ex_peer 0); (1, ex_peer 1); (2, ex_peer 2)] [].
Definition ex_rib (idx : list N) : rib :=
  Rib 2 1 ex_p1 (map (fun i => RibEntry i (1000 + i) (Some i) (of_values [AOrigin IGP; AAsPath [Seg KSeq [i; 5]]; ANextHop (V4 i)])) idx).
Example C30_ex :
  Forall2 (fun r p => get_peer_by_id ex_table (re_peer r) = Some p) (rb_entries (ex_rib [2; 0; 1; 0])) [ex_peer 2; ex_peer 0; ex_peer 1; ex_peer 0] /\
  exists l, record_to_elems (Some ex_table) (MrtRecord (Hdr 7 None 13 2 0) (MrtV2 (V2Rib (ex_rib [2; 0; 1; 0])))) = Ok (l, Some ex_table) /\
    map e_asn l = [64502; 64500; 64501; 64500] /\ map e_hop l = [Some (V4 2); Some (V4 0); Some (V4 1); Some (V4 0)] /\
    map e_time l = map f64_of_N [1002; 1000; 1001; 1000].
Proof.
  split. { cbn. repeat (constructor; [vm_compute; reflexivity|]). constructor. }
  eexists. repeat split; vm_compute; reflexivity.
Qed.
(** Findings.  After an unknown peer the entries of known peers are lost; the size hint, a
    lower bound by the contract of [Iterator], had promised them. *)
Theorem C30_known_after_unknown_refuted : exists b l,
  get_peer_by_id ex_table (re_peer (nth 1 (rb_entries b) (RibEntry 0 0 None (of_values [])))) <> None /\
  record_to_elems (Some ex_table) (MrtRecord (Hdr 7 None 13 2 0) (MrtV2 (V2Rib b))) = Ok (l, Some ex_table) /\ l = [].
Proof. exists (ex_rib [9; 1]), []. split; [vm_compute; discriminate|]. split; [vm_compute; reflexivity|reflexivity]. Qed.
Print Assumptions C30_known_after_unknown_refuted.
Theorem C30_size_hint_refuted : exists i l, record_to_elems_iter (Some ex_table) (MrtRecord (Hdr 7 None 13 2 0) (MrtV2 (V2Rib (ex_rib [9; 1])))) = Ok (inr i) /\
  rec_collect 100 i = Ok l /\ (length l < rec_size i)%nat.
Proof. do 2 eexists. split; [vm_compute; reflexivity|]. split; [vm_compute; reflexivity|]. apply Nat.leb_le. vm_compute. reflexivity. Qed.
Print Assumptions C30_size_hint_refuted.
(** The path identifier of an entry (RFC 8050) does not reach its element: two paths of one
    peer become indistinguishable. *)
Theorem C30_path_id_refuted : exists r r' e, re_path r <> re_path r' /\ rib_entry_to_elem ex_p1 (ex_peer 1) r = Ok e /\ rib_entry_to_elem ex_p1 (ex_peer 1) r' = Ok e.
Proof. exists (RibEntry 1 2 (Some 3) (of_values [])), (RibEntry 1 2 (Some 4) (of_values [])). eexists. split; [discriminate|]. split; vm_compute; reflexivity. Qed.
Print Assumptions C30_path_id_refuted.

(** ** C58: every record becomes the elements of its kind, without panic, and only a peer
    index table changes the table in force. *)
Theorem C58_record_elems el r : exists l, record_to_elems el r = Ok (l, table_after el r) /\ record_elems el r l.
Proof. exact (record_elems_ok el r). Qed.
Print Assumptions C58_record_elems.
(** Whatever iterator a record gives, no number of calls panics. *)
Theorem C58_no_panic el r : record_to_elems_iter el r <> Panic /\ forall i fuel, rec_collect fuel i <> Panic.
Proof. split; [apply record_iter_np|intros; apply collect_np]. Qed.
Print Assumptions C58_no_panic.
Example C58_ex : exists e1 e2 l,
  record_to_elems None (MrtRecord (Hdr 7 None 12 1 0) (MrtDumps [Dump 0 0 ex_p1 1 5 (V4 1) 2 (of_values [AMed 3]); Dump 0 1 ex_p2 1 6 (V4 1) 2 (of_values [])])) = Ok ([e1; e2], None) /\
  e_med e1 = Some 3 /\ e_prefix e2 = ex_p2 /\
  record_to_elems None (MrtRecord (Hdr 7 None 13 1 0) (MrtV2 (V2Peers ex_table))) = Ok ([], Some ex_table) /\
  record_to_elems (Some ex_table) (MrtRecord (Hdr 7 (Some 500000) 17 4 0) (MrtBgp4mp (MpMessage (MpMsg 4 64500 64501 0 (V4 1) (V4 2) (MUpdate ex_update))))) = Ok (l, Some ex_table) /\
  length l = 6%nat /\ Forall (fun e => e_time e = f64_div (f64_of_N 15) (f64_of_N 2)) l.
Proof.
  do 3 eexists. split; [vm_compute; reflexivity|]. split; [vm_compute; reflexivity|]. split; [vm_compute; reflexivity|]. split; [vm_compute; reflexivity|].
  split; [vm_compute; reflexivity|]. split; [reflexivity|]. repeat constructor; vm_compute; reflexivity.
Qed.
(** Whole seconds are exact: element times compare as the timestamps of their records. *)
Theorem C58_time_exact r r' : h_us (mr_hdr r) = None -> h_us (mr_hdr r') = None -> h_ts (mr_hdr r) < 2 ^ 32 -> h_ts (mr_hdr r') < 2 ^ 32 ->
  SFcompare (record_time (mr_hdr r)) (record_time (mr_hdr r')) = Some (h_ts (mr_hdr r) ?= h_ts (mr_hdr r'))%N.
Proof. intros A B C D. unfold record_time. rewrite A, B. apply f64_compare; [revert C|revert D]; change (2 ^ 32) with 4294967296; change (2 ^ 53) with 9007199254740992; lia. Qed.
Print Assumptions C58_time_exact.
Example C58_time_ex : SFcompare (f64_of_N 4294967295) (f64_of_N 4294967294) = Some Gt /\ f64_add (f64_of_N 7) (f64_div (f64_of_N 1) (f64_of_N 1000000)) <> f64_of_N 7.
Proof. split; [vm_compute; reflexivity|vm_compute; discriminate]. Qed.
(** Finding: the AS4_PATH of a TABLE_DUMP entry, whose AS numbers have two octets, is not
    merged into the path. *)
Theorem C58_dump_as4_refuted : exists d e, record_to_elems None (MrtRecord (Hdr 7 None 12 1 0) (MrtDump d)) = Ok ([e], None) /\
  In (AAs4Path [Seg KSeq [70000]]) (map a_value (at_inner (td_attrs d))) /\ e_path e = Some [Seg KSeq [1; 23456]] /\ e_origins e = Some [23456].
Proof.
  exists (Dump 0 0 ex_p1 1 5 (V4 1) 2 (of_values [AAsPath [Seg KSeq [1; 23456]]; AAs4Path [Seg KSeq [70000]]])). eexists.
  split; [vm_compute; reflexivity|]. split; [right; left; reflexivity|]. split; vm_compute; reflexivity.
Qed.
Print Assumptions C58_dump_as4_refuted.

(** ** C59: an element turned into attributes and back.  [reread] says what is kept. *)
Theorem C59_elem_roundtrip e :
  bgp_update_to_elems (Update [] (attributes_of_elem e) []) (e_time e) (e_peer e) (e_asn e) = Ok [reread e].
Proof. exact (elem_roundtrip e). Qed.
Print Assumptions C59_elem_roundtrip.
(** Regrouping communities by kind loses and invents none. *)
Theorem C59_communities l : Permutation (regroup l) l.
Proof. exact (regroup_perm l). Qed.
Print Assumptions C59_communities.
(** What the parser makes of an update survives up to the mark of aggregation and the order
    of communities. *)
Theorem C59_parsed m t pi pa l e : bgp_update_to_elems m t pi pa = Ok l -> In e l -> e_atomic e = false ->
  match e_comms e with Some c => regroup c = c | None => True end -> reread e = e.
Proof. exact (parsed_reread m t pi pa l e). Qed.
Print Assumptions C59_parsed.
Example C59_ex : exists e, bgp_update_to_elems (Update [] (of_values [AOrigin IGP; AAsPath [Seg KSeq [1; 2]; Seg KSet [3; 4]]; AMpReach ex_reach; AAggregator 5 6; AOtc 7]) []) (f64_of_N 5) (V4 1) 2 = Ok [e] /\
  reread e = e /\ e_origins e = Some [3; 4].
Proof. eexists. split; [vm_compute; reflexivity|]. split; vm_compute; reflexivity. Qed.
(** Finding: the ATOMIC_AGGREGATE mark of an element gets no attribute. *)
Theorem C59_atomic_refuted : exists e, e_atomic e = true /\ ~ In AAtomicAggregate (map a_value (at_inner (attributes_of_elem e))).
Proof.
  exists (Elem (f64_of_N 0) Announce (V4 1) 1 None ex_p1 None None None None None None None true None None None None None). split; [reflexivity|].
  vm_compute. intros [H|[]]. discriminate.
Qed.
Print Assumptions C59_atomic_refuted.
