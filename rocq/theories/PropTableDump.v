(** C26-C28, C53, C54: TABLE_DUMP_V2 peer tables and RIB records, TABLE_DUMP records. *)
From Coq Require Import Permutation Sorted Lia.
From Verif Require Import Base BaseFacts Reader Net NetSpec NetFacts AsPath AsPathSpec Nlri NlriSpec Attr AttrSpec AttrFacts
  Utf8 TableDump TableDumpSpec TableDumpFacts.

(** ** C26: the peer index table. *)
Theorem C26_roundtrip t l : map_ok (pt_peers t) -> numbered t l -> pt_collector t < 2 ^ 32 -> nlen (pt_name t) < 2 ^ 16 ->
  utf8 (pt_name t) -> nlen l < 2 ^ 16 -> Forall peer_ok l ->
  exists b t', encode_peer_table t = Ok b /\ parse_peer_table b = Ok (t', []) /\
    pt_collector t' = pt_collector t /\ pt_name t' = pt_name t /\ numbered t' l /\ addresses_last t' l /\ map_ok (pt_peers t').
Proof.
  intros Hm Hn Hc Hnm Hu Hl Hp. exists (table_wire (pt_collector t) (pt_name t) l). eexists.
  split; [apply table_roundtrip; auto|]. pose proof (table_parse (pt_collector t) (pt_name t) l [] Hc Hnm Hl Hp) as E.
  rewrite app_nil_r in E. split; [exact E|]. rewrite (proj2 (utf8_ok_iff _) Hu).
  destruct (number_head 0 l (PeerTable (pt_collector t) (pt_name t) [] [])) as [-> ->]. split; auto. split; auto.
  assert (nlen l <= 65536) by (change (2 ^ 16) with 65536 in Hl; lia).
  split; [apply number_numbered; auto|]. split; [apply number_addresses; auto|]. apply number_ok. constructor.
Qed.
Print Assumptions C26_roundtrip.
(** Every table that is accepted, and what it is read as. *)
Theorem C26_parsed s t r : bytes_ok s -> parse_peer_table s = Ok (t, r) ->
  exists nm l, s = table_wire (pt_collector t) nm l ++ r /\ pt_collector t < 2 ^ 32 /\ nlen nm < 2 ^ 16 /\ nlen l < 2 ^ 16 /\
    Forall peer_ok l /\ numbered t l /\ addresses_last t l /\ (utf8 nm /\ pt_name t = nm \/ ~ utf8 nm /\ pt_name t = []).
Proof.
  intros Hs H. apply table_parsed in H as (nm & l & E & H1 & H2 & H3 & H4 & H5); auto. exists nm, l.
  assert (nlen l <= 65536) by (change (2 ^ 16) with 65536 in H3; lia).
  do 5 (split; auto). rewrite H5. split; [apply number_numbered; auto|]. split; [apply number_addresses; auto|].
  rewrite (proj2 (number_head _ _ _)). cbn [pt_name]. destruct (utf8_ok nm) eqn:U.
  - left. split; auto. apply utf8_ok_iff. exact U.
  - right. split; auto. intros X. apply utf8_ok_iff in X. congruence.
Qed.
Print Assumptions C26_parsed.
Theorem C26_accepted c nm l r : c < 2 ^ 32 -> nlen nm < 2 ^ 16 -> nlen l < 2 ^ 16 -> Forall peer_ok l ->
  exists t, parse_peer_table (table_wire c nm l ++ r) = Ok (t, r) /\ pt_collector t = c /\ numbered t l.
Proof.
  intros H1 H2 H3 H4. eexists. split; [apply table_parse; auto|]. split; [rewrite (proj1 (number_head _ _ _)); reflexivity|].
  apply number_numbered. change (2 ^ 16) with 65536 in H3. lia.
Qed.
Print Assumptions C26_accepted.
(** Any table: what is written, in increasing order of number, and when it is refused. *)
Theorem C26_encode_exact t b : map_ok (pt_peers t) -> (encode_peer_table t = Ok b <->
  nlen (pt_name t) < 2 ^ 16 /\ nlen (pt_peers t) < 2 ^ 16 /\
  exists l, Permutation l (pt_peers t) /\ StronglySorted key_lt l /\
    b = be 4 (pt_collector t) ++ be 2 (nlen (pt_name t)) ++ pt_name t ++ be 2 (nlen l) ++
        flat_map (fun x => encode_peer (snd x)) l).
Proof. exact (encode_table_iff t b). Qed.
Print Assumptions C26_encode_exact.
Theorem C26_no_panic t s : parse_peer_table s <> Panic /\ (map_ok (pt_peers t) -> encode_peer_table t <> Panic).
Proof. split; [apply npp_table|apply np_encode_table]. Qed.
Print Assumptions C26_no_panic.
Theorem C26_utf8 s : utf8_ok s = true <-> utf8 s.
Proof. exact (utf8_ok_iff s). Qed.
Print Assumptions C26_utf8.
Definition ex_peers : list peer := [Peer 2 1 (V4 0x0A000001) 400000; Peer 1 2 (V6 1) 65000; Peer 0 3 (V4 0x0A000001) 65001].
Definition ex_table : peer_table := PeerTable 7 [114; 0xC3; 0xA9] [(2, Peer 0 3 (V4 0x0A000001) 65001); (0, Peer 2 1 (V4 0x0A000001) 400000); (1, Peer 1 2 (V6 1) 65000)] [].
Example C26_ex : map_ok (pt_peers ex_table) /\ utf8 (pt_name ex_table) /\ Forall peer_ok ex_peers /\
  exists b t', encode_peer_table ex_table = Ok b /\ nlen b = 58 /\ parse_peer_table b = Ok (t', []) /\
    get_peer_by_id t' 1 = Some (Peer 1 2 (V6 1) 65000) /\ get_peer_by_id t' 3 = None /\ get_peer_id_by_addr t' (V4 0x0A000001) = Some 2.
Proof.
  split; [repeat constructor; cbn; intuition discriminate|]. split; [apply utf8_ok_iff; reflexivity|].
  split; [repeat constructor|]. eexists. eexists. split; [vm_compute; reflexivity|]. split; [reflexivity|].
  split; [vm_compute; reflexivity|]. split; [reflexivity|]. split; reflexivity.
Qed.
Example C26_ex_numbered : numbered ex_table ex_peers.
Proof.
  intros id. destruct (N.ltb_spec id 3) as [H|H].
  - assert (id = 0 \/ id = 1 \/ id = 2) as [-> | [-> | ->]] by lia; reflexivity.
  - rewrite (proj2 (nth_error_None ex_peers (N.to_nat id))) by (cbn; lia). unfold get_peer_by_id. cbn [pt_peers ex_table map_get].
    destruct (N.eqb_spec id 2); [lia|]. destruct (N.eqb_spec id 0); [lia|]. destruct (N.eqb_spec id 1); [lia|]. reflexivity.
Qed.
(** Findings.  A view name that is not UTF-8 is silently read as the empty name. *)
Theorem C26_name_dropped_refuted : exists s t, bytes_ok s /\ parse_peer_table s = Ok (t, []) /\
  (exists nm l, s = table_wire (pt_collector t) nm l /\ pt_name t <> nm) /\ encode_peer_table t <> Ok s.
Proof.
  exists (table_wire 1 [255] []). eexists. split; [apply bytes_okb_spec; reflexivity|]. split; [vm_compute; reflexivity|].
  split; [exists [255], []; split; [reflexivity|discriminate]|]. vm_compute. discriminate.
Qed.
Print Assumptions C26_name_dropped_refuted.
(** Peers whose numbers have a gap come back under other numbers. *)
Theorem C26_renumbered_refuted : exists t b t', map_ok (pt_peers t) /\ (forall id p, get_peer_by_id t id = Some p -> peer_ok p) /\
  encode_peer_table t = Ok b /\ parse_peer_table b = Ok (t', []) /\ get_peer_by_id t 5 <> None /\
  get_peer_by_id t' 5 = None /\ get_peer_by_id t' 0 = get_peer_by_id t 5.
Proof.
  exists (PeerTable 1 [] [(5, Peer 0 1 (V4 1) 1)] []). eexists. eexists.
  split; [repeat constructor; cbn; tauto|]. split.
  { intros id p H. unfold get_peer_by_id in H. cbn in H. destruct (id =? 5); [|discriminate]. injection H as <-. repeat constructor. }
  split; [vm_compute; reflexivity|]. split; [vm_compute; reflexivity|]. split; [discriminate|]. split; reflexivity.
Qed.
Print Assumptions C26_renumbered_refuted.
(** A peer whose type disagrees with the family of its address (both fields are public) is
    written as octets that are not read back. *)
Theorem C26_type_mismatch_refuted : exists t b, encode_peer_table t = Ok b /\ numbered t [Peer 0 1 (V6 1) 1] /\
  forall t' r, parse_peer_table b = Ok (t', r) -> get_peer_by_id t' 0 <> get_peer_by_id t 0 /\ r <> [].
Proof.
  exists (PeerTable 1 [] [(0, Peer 0 1 (V6 1) 1)] []). eexists. split; [vm_compute; reflexivity|]. split.
  - intros id. unfold get_peer_by_id. cbn [pt_peers map_get]. destruct (N.eqb_spec id 0) as [->|H]; [reflexivity|].
    symmetry. apply nth_error_None. cbn. lia.
  - intros t' r H. vm_compute in H. injection H as <- <-. split; discriminate.
Qed.
Print Assumptions C26_type_mismatch_refuted.

(** ** C27: registering peers one by one, from any table without peers. *)
Theorem C27_history c nm ps : exists rs t, register (PeerTable c nm [] []) ps = (rs, t) /\
  length rs = length ps /\ pt_collector t = c /\ pt_name t = nm /\
  numbered t (firstn max_peers (firsts ps)) /\
  (forall i id, get_peer_id_by_addr t i = Some id <->
     exists p, nth_error (firstn max_peers (firsts ps)) (N.to_nat id) = Some p /\ pe_ip p = i) /\
  forall k p, nth_error ps k = Some p -> exists n q,
    nth_error (firsts ps) n = Some q /\ pe_ip q = pe_ip p /\ nth_error rs k = Some (entry_result n).
Proof.
  destruct (register_all c nm ps) as (rs & t & E & R & L & C1 & C2 & A). exists rs, t. destruct R. auto 10.
Qed.
Print Assumptions C27_history.
(** One step, after any history: a known address, a new one, and a full table. *)
Theorem C27_step c nm ps rs t p : register (PeerTable c nm [] []) ps = (rs, t) ->
  match get_peer_id_by_addr t (pe_ip p) with
  | Some id => add_peer t p = (Ok id, t)
  | None =>
      if (length (firsts ps) <? max_peers)%nat then
        exists t', add_peer t p = (Ok (nlen (firsts ps)), t') /\
          pt_collector t' = pt_collector t /\ pt_name t' = pt_name t /\
          get_peer_by_id t' (nlen (firsts ps)) = Some p /\ get_peer_id_by_addr t' (pe_ip p) = Some (nlen (firsts ps)) /\
          (forall id, id <> nlen (firsts ps) -> get_peer_by_id t' id = get_peer_by_id t id) /\
          (forall i, i <> pe_ip p -> get_peer_id_by_addr t' i = get_peer_id_by_addr t i)
      else add_peer t p = (Err EEncTooLarge, t)
  end.
Proof.
  intros E0. destruct (register_all c nm ps) as (rs' & t0 & E & R & L & C1 & C2 & A). rewrite E0 in E. injection E as <- <-.
  destruct (get_peer_id_by_addr t (pe_ip p)) eqn:G; [eapply registered_known; eauto|].
  destruct (Nat.ltb_spec (length (firsts ps)) max_peers) as [H|H].
  - rewrite firstn_all2 in R by lia. destruct (registered_new _ _ p R G H) as (t' & E' & R' & D1 & D2). exists t'.
    split; auto. split; auto. split; auto.
    assert (N0 : forall id, get_peer_by_id t' id = nth_error (firsts ps ++ [p]) (N.to_nat id)) by apply (rg_num _ _ R').
    unfold nlen. split; [rewrite N0, Nat2N.id, nth_error_snoc, Nat.eqb_refl; auto|].
    split. { apply (rg_ids _ _ R'). exists p. rewrite Nat2N.id, nth_error_snoc, Nat.eqb_refl. auto. }
    split.
    + intros id Hid. rewrite N0, (rg_num _ _ R), nth_error_snoc. destruct (Nat.eqb_spec (N.to_nat id) (length (firsts ps))); auto. lia.
    + intros i Hi. unfold add_peer in E'. unfold get_peer_id_by_addr in *. rewrite G in E'.
      destruct (check_max _ _); inversion E'; subst t'. cbn [pt_ids]. rewrite (map_get_insert ip_eqb ip_eqb_eq).
      destruct (ip_eqb i (pe_ip p)) eqn:X; auto. apply ip_eqb_eq in X. contradiction.
  - apply (registered_full _ _ p R G). rewrite firstn_length. lia.
Qed.
Print Assumptions C27_step.
Example C27_ex : let p a n := Peer 0 n (V4 a) 1 in
  firsts [p 9 1; p 8 2; p 9 3; p 7 4] = [p 9 1; p 8 2; p 7 4] /\
  fst (register empty_table [p 9 1; p 8 2; p 9 3; p 7 4]) = [Ok 0; Ok 1; Ok 0; Ok 2] /\
  get_peer_by_id (snd (register empty_table [p 9 1; p 8 2; p 9 3; p 7 4])) 0 = Some (p 9 1) /\
  N.of_nat max_peers = 65535.
Proof. split; [reflexivity|]. split; [reflexivity|]. split; [reflexivity|]. apply max_peers_val. Qed.
(** Finding: on a table read from the wire with an address listed twice, registering a new
    peer overwrites an existing one. *)
Theorem C27_parsed_table_refuted : exists s t p id t', parse_peer_table s = Ok (t, []) /\
  get_peer_id_by_addr t (pe_ip p) = None /\ add_peer t p = (Ok id, t') /\
  get_peer_by_id t id <> None /\ get_peer_by_id t' id <> get_peer_by_id t id.
Proof.
  exists (table_wire 1 [] [Peer 0 1 (V4 1) 1; Peer 0 2 (V4 1) 2]). eexists. exists (Peer 0 3 (V4 3) 3). eexists. eexists.
  split; [vm_compute; reflexivity|]. split; [reflexivity|]. split; [vm_compute; reflexivity|]. split; discriminate.
Qed.
Print Assumptions C27_parsed_table_refuted.

(** ** C28: RIB records. *)
Theorem C28_roundtrip t a sf ap r b : rib_subtype t a sf ap -> rb_type r = t -> rb_seq r < 2 ^ 32 ->
  prefix_ok (rb_prefix r) -> p_id (rb_prefix r) = None -> wire_exact (p_net (rb_prefix r)) -> afi_of_ip (net_addr (p_net (rb_prefix r))) = a ->
  Forall (rib_entry_ok ap a sf (rb_prefix r)) (rb_entries r) -> encode_rib r = Ok b ->
  exists r', parse_rib t b = Ok r' /\ rb_type r' = rb_type r /\ rb_seq r' = rb_seq r /\ rb_prefix r' = rb_prefix r /\
    Forall2 same_entry (rb_entries r) (rb_entries r').
Proof. exact (rib_roundtrip t a sf ap r b). Qed.
Print Assumptions C28_roundtrip.
(** What is accepted: as many entries as announced, or as many as can be read. *)
Theorem C28_parse_exact t s r : bytes_ok s -> (parse_rib t s = Ok r <->
  exists a sf ap x count ws rest, rib_subtype t a sf ap /\ s = rib_wire (rb_seq r) x count (concat ws ++ rest) /\
    rb_type r = t /\ rb_seq r < 2 ^ 32 /\ count < 2 ^ 16 /\ net_ok x /\ afi_of_ip (net_addr x) = a /\
    rb_prefix r = Pfx (wire_trunc x) None /\ Forall2 (entry_reads ap a sf (rb_prefix r)) ws (rb_entries r) /\
    nlen (rb_entries r) <= count /\
    (nlen (rb_entries r) < count -> forall w y e, rest = w ++ y -> ~ entry_reads ap a sf (rb_prefix r) w e)).
Proof. exact (parse_rib_iff t s r). Qed.
Print Assumptions C28_parse_exact.
(** Any record: what is written and when it is refused. *)
Theorem C28_encode_exact t a sf ap r b : rib_subtype t a sf ap -> rb_type r = t -> (encode_rib r = Ok b <->
  nlen (rb_entries r) < 2 ^ 16 /\ exists xs,
    Forall2 (fun e x => encode_attributes Bits32 (at_inner (re_attrs e)) = Ok x /\ nlen x < 2 ^ 16) (rb_entries r) xs /\
    b = be 4 (rb_seq r) ++ encode_prefix (rb_prefix r) ++ be 2 (nlen (rb_entries r)) ++
        concat (map (fun y => entry_wire (re_peer (fst y)) (re_time (fst y)) (if ap then re_path (fst y) else None) (snd y))
          (combine (rb_entries r) xs))).
Proof. intros Ht <-. apply rib_subtype_iff in Ht as [_ <-]. apply encode_rib_iff. Qed.
Print Assumptions C28_encode_exact.
Theorem C28_no_panic t s : parse_rib t s <> Panic.
Proof. exact (parse_rib_np t s). Qed.
Print Assumptions C28_no_panic.
Definition ex_rib : rib := Rib 8 99 (Pfx (Net (V4 0x0A010200) 23) None)
  [RibEntry 1 1000 (Some 5) (attrs_of_list [Attr (AOrigin IGP) 0x40; Attr (AMed 10) 0x80]); RibEntry 2 1001 (Some 6) (attrs_of_list [Attr (AOrigin EGP) 0x40])].
Example C28_ex : rib_subtype 8 AIpv4 SUnicast true /\ wire_exact (Net (V4 0x0A010200) 23) /\
  Forall (rib_entry_ok true AIpv4 SUnicast (rb_prefix ex_rib)) (rb_entries ex_rib) /\
  exists b, encode_rib ex_rib = Ok b /\ nlen b = 49 /\
  exists r', parse_rib 8 b = Ok r' /\ rb_prefix r' = rb_prefix ex_rib /\ Forall2 same_entry (rb_entries ex_rib) (rb_entries r').
Proof.
  split; [repeat split; auto|]. split; [reflexivity|]. split.
  { repeat constructor; cbn; try (intros ? H; injection H as <-; reflexivity). }
  eexists. split; [vm_compute; reflexivity|]. split; [reflexivity|]. eexists. split; [vm_compute; reflexivity|]. split; [reflexivity|].
  repeat constructor.
Qed.
(** Findings.  A record whose entries are cut short is accepted with fewer entries than
    it announces. *)
Theorem C28_fewer_entries_refuted : exists s r, bytes_ok s /\ parse_rib 2 s = Ok r /\
  (exists x e, s = rib_wire (rb_seq r) x 2 e) /\ nlen (rb_entries r) = 1.
Proof.
  exists (rib_wire 1 (Net (V4 0x0A000000) 8) 2 (entry_wire 3 4 None [] ++ [0; 5; 0])). eexists.
  split; [apply bytes_okb_spec; reflexivity|]. split; [vm_compute; reflexivity|]. split; [|reflexivity]. eexists. eexists. reflexivity.
Qed.
Print Assumptions C28_fewer_entries_refuted.
(** An entry without path identifier in an additional-paths record is written without one
    and read back as another entry. *)
Theorem C28_path_id_missing_refuted : exists r b r', rib_subtype (rb_type r) AIpv4 SUnicast true /\
  encode_rib r = Ok b /\ parse_rib (rb_type r) b = Ok r' /\ ~ Forall2 same_entry (rb_entries r) (rb_entries r').
Proof.
  exists (Rib 8 1 (Pfx (Net (V4 0x0A000000) 8) None) [RibEntry 0 0 None (attrs_of_list [Attr (AOrigin IGP) 0x40])]). eexists. eexists.
  split; [repeat split; auto|]. split; [vm_compute; reflexivity|]. split; [vm_compute; reflexivity|]. intros H. inversion H.
Qed.
Print Assumptions C28_path_id_missing_refuted.
(** A path identifier on the prefix of the record is written where none is read. *)
Theorem C28_prefix_path_id_refuted : exists r b, rib_subtype (rb_type r) AIpv4 SUnicast false /\ prefix_ok (rb_prefix r) /\
  encode_rib r = Ok b /\ forall r', parse_rib (rb_type r) b = Ok r' -> p_net (rb_prefix r') <> p_net (rb_prefix r).
Proof.
  exists (Rib 2 1 (Pfx (Net (V4 0x0A000000) 8) (Some 1)) []). eexists.
  split; [repeat split; auto|]. split; [repeat split; cbn; lia|]. split; [vm_compute; reflexivity|].
  intros r' H. vm_compute in H. injection H as <-. discriminate.
Qed.
Print Assumptions C28_prefix_path_id_refuted.

(** ** C53: TABLE_DUMP records. *)
Theorem C53_roundtrip sub a l b : dump_subtype sub a -> Forall (dump_ok a) l ->
  Forall (fun m => td_view m < 2 ^ 16 /\ td_seq m < 2 ^ 16) l -> encode_dumps sub l = Ok b ->
  exists l', parse_dumps sub b = Ok l' /\ Forall2 same_dump l l'.
Proof. exact (dumps_roundtrip sub a l b). Qed.
Print Assumptions C53_roundtrip.
Theorem C53_single_roundtrip sub a m b : dump_subtype sub a -> dump_ok a m -> td_view m < 2 ^ 16 -> td_seq m < 2 ^ 16 ->
  encode_dump m = Ok b -> exists m', parse_dump sub b = Ok m' /\ same_dump m m'.
Proof.
  intros Hsub Hm Hv Hq H. unfold encode_dump in H. apply rbind_inv in H as (x & H1 & H). assert (b = be 2 (td_view m) ++ be 2 (td_seq m) ++ x) by congruence. subst b.
  pose proof Hm as [(P1 & P2 & P3 & P4 & P5 & P6 & P7 & P8) _].
  assert (E : encode_dumps sub [m] = Ok (be 2 (td_view m) ++ be 2 (td_seq m) ++ x)).
  { apply encode_dumps_iff. exists a, m, [], [x]. split; auto. split; auto. split; [repeat constructor; auto|].
    split; [repeat constructor; auto|]. cbn [concat]. rewrite app_nil_r. reflexivity. }
  destruct (dumps_roundtrip sub a [m] _ Hsub (Forall_cons _ Hm (Forall_nil _)) (Forall_cons _ (conj Hv Hq) (Forall_nil _)) E) as (l' & R & F).
  inversion F as [|? m' ? l0 S F0]; subst. inversion F0; subst. exists m'. split; auto. unfold parse_dump. rewrite R. reflexivity.
Qed.
Print Assumptions C53_single_roundtrip.
Theorem C53_parse_exact sub s l : bytes_ok s -> (parse_dumps sub s = Ok l <->
  exists a v q ws, dump_subtype sub a /\ v < 2 ^ 16 /\ q < 2 ^ 16 /\ s = be 2 v ++ be 2 q ++ concat ws /\ l <> [] /\
    Forall2 (dump_reads a) ws l /\ Forall (fun m => td_view m = v /\ td_seq m = q) l).
Proof. exact (parse_dumps_iff sub s l). Qed.
Print Assumptions C53_parse_exact.
(** The reader of one entry takes exactly the records that hold one. *)
Theorem C53_single_exact sub s m : bytes_ok s -> (parse_dump sub s = Ok m <->
  exists a v q w, dump_subtype sub a /\ v < 2 ^ 16 /\ q < 2 ^ 16 /\ s = be 2 v ++ be 2 q ++ w /\
    dump_reads a w m /\ td_view m = v /\ td_seq m = q).
Proof.
  intros B. unfold parse_dump. split.
  - intros H. destruct (parse_dumps sub s) as [l|e|] eqn:E; cbn [rbind] in H; try discriminate. destruct l as [|m' [|]]; try discriminate. inversion H; subst.
    apply (C53_parse_exact sub s _ B) in E as (a & v & q & ws & H1 & H2 & H3 & H4 & _ & H5 & H6).
    inversion H5 as [|w ? ws' ? R R']; subst. inversion R'; subst. inversion H6 as [|? ? [V Q] _]; subst.
    exists a, (td_view m), (td_seq m), w. cbn [concat]. rewrite app_nil_r. auto 10.
  - intros (a & v & q & w & H1 & H2 & H3 & H4 & H5 & H6 & H7).
    assert (E : parse_dumps sub s = Ok [m]).
    { apply (C53_parse_exact sub s _ B). exists a, v, q, [w]. cbn [concat]. rewrite app_nil_r. repeat split; auto. discriminate. }
    rewrite E. reflexivity.
Qed.
Print Assumptions C53_single_exact.
(** A batch is encoded exactly when it has an entry, all entries share view and sequence
    number and have the family of the subtype, and each entry can be written. *)
Theorem C53_encode_exact sub l b : encode_dumps sub l = Ok b <->
  exists a first rest bs, dump_subtype sub a /\ l = first :: rest /\
    Forall (fun m => td_view m = td_view first /\ td_seq m = td_seq first /\
              afi_of_ip (net_addr (p_net (td_prefix m))) = a /\ afi_of_ip (td_peer m) = a) l /\
    Forall2 (fun m x => exists y, encode_attributes Bits16 (at_inner (td_attrs m)) = Ok y /\ nlen y < 2 ^ 16 /\
       x = octets (net_addr (p_net (td_prefix m))) ++ be 1 (net_len (p_net (td_prefix m))) ++ be 1 (td_status m) ++ be 4 (td_time m) ++
           octets (td_peer m) ++ be 2 (td_asn m) ++ be 2 (nlen y) ++ y) l bs /\
    b = be 2 (td_view first) ++ be 2 (td_seq first) ++ concat bs.
Proof.
  rewrite encode_dumps_iff. split; intros (a & first & rest & bs & H1 & H2 & H3 & H4 & H5); exists a, first, rest, bs;
    (split; [auto|]); (split; [auto|]); (split; [auto|]); (split; [|auto]).
  - clear - H4. induction H4; constructor; auto. apply encode_dump_entry_iff. auto.
  - clear - H4. induction H4; constructor; auto. apply encode_dump_entry_iff. auto.
Qed.
Print Assumptions C53_encode_exact.
Theorem C53_no_panic sub s : parse_dumps sub s <> Panic.
Proof. exact (parse_dumps_np sub s). Qed.
Print Assumptions C53_no_panic.
Definition ex_dumps : list dump :=
  [Dump 1 2 (Pfx (Net (V4 0x0A010203) 24) None) 1 1000 (V4 1) 65000 (attrs_of_list [Attr (AOrigin IGP) 0x40]);
   Dump 1 2 (Pfx (Net (V4 0) 0) None) 1 1001 (V4 2) 65001 (attrs_of_list [])].
Example C53_ex : Forall (dump_ok AIpv4) ex_dumps /\ exists b, encode_dumps 1 ex_dumps = Ok b /\ nlen b = 44 /\
  exists l', parse_dumps 1 b = Ok l' /\ Forall2 same_dump ex_dumps l'.
Proof.
  split. { repeat constructor; cbn; try lia; try (intros ? H; injection H as <-; reflexivity). }
  eexists. split; [vm_compute; reflexivity|]. split; [reflexivity|]. eexists. split; [vm_compute; reflexivity|]. repeat constructor.
Qed.
(** Finding: the AS number and the time of a record are silently cut to the 16 and 32 bits
    of the format. *)
Theorem C53_truncated_refuted : exists m b m', td_asn m < 2 ^ 32 /\ td_time m < 2 ^ 64 /\
  encode_dump m = Ok b /\ parse_dump 1 b = Ok m' /\ td_asn m' <> td_asn m /\ td_time m' <> td_time m.
Proof.
  exists (Dump 1 2 (Pfx (Net (V4 0) 0) None) 1 (2 ^ 32 + 7) (V4 1) 400000 (attrs_of_list [])). eexists. eexists.
  split; [reflexivity|]. split; [reflexivity|]. split; [vm_compute; reflexivity|]. split; [vm_compute; reflexivity|]. split; discriminate.
Qed.
Print Assumptions C53_truncated_refuted.

(** ** C54: geographic peer tables. *)
Theorem C54_roundtrip t b : gt_collector t < 2 ^ 32 -> gt_lat t < 2 ^ 32 -> gt_lon t < 2 ^ 32 -> Forall geo_ok (gt_peers t) ->
  Forall (fun c => c < 128) (gt_name t) -> encode_geo_table t = Ok b -> parse_geo_table b = Ok (t, []).
Proof.
  intros H1 H2 H3 H4 H5 H. apply encode_geo_iff in H as (L1 & L2 & ->). rewrite flat_map_geo by auto.
  pose proof (geo_parse (gt_collector t) (gt_name t) (gt_lat t) (gt_lon t) (gt_peers t) [] H1 L1 H2 H3 L2 H4) as E.
  unfold geo_table_wire in E. rewrite app_nil_r in E. rewrite E. rewrite latin1_ascii by auto. destruct t; reflexivity.
Qed.
Print Assumptions C54_roundtrip.
Theorem C54_parse_exact s t r : bytes_ok s -> (parse_geo_table s = Ok (t, r) <-> exists nm,
  s = geo_table_wire (gt_collector t) nm (gt_lat t) (gt_lon t) (gt_peers t) ++ r /\ gt_collector t < 2 ^ 32 /\ nlen nm < 2 ^ 16 /\
  gt_lat t < 2 ^ 32 /\ gt_lon t < 2 ^ 32 /\ nlen (gt_peers t) < 2 ^ 16 /\ Forall geo_ok (gt_peers t) /\
  gt_name t = flat_map encode_scalar nm).
Proof.
  intros Hs. split; [intros H; apply geo_parsed; auto|]. intros (nm & -> & H1 & H2 & H3 & H4 & H5 & H6 & H7).
  rewrite geo_parse by auto. unfold latin1. rewrite <- H7. destruct t; reflexivity.
Qed.
Print Assumptions C54_parse_exact.
Theorem C54_encode_exact t b : encode_geo_table t = Ok b <-> nlen (gt_name t) < 2 ^ 16 /\ nlen (gt_peers t) < 2 ^ 16 /\
  b = be 4 (gt_collector t) ++ be 2 (nlen (gt_name t)) ++ gt_name t ++ be 4 (gt_lat t) ++ be 4 (gt_lon t) ++ be 2 (nlen (gt_peers t)) ++
      flat_map encode_geo_peer (gt_peers t).
Proof. exact (encode_geo_iff t b). Qed.
Print Assumptions C54_encode_exact.
Theorem C54_no_panic t s : parse_geo_table s <> Panic /\ encode_geo_table t <> Panic.
Proof. split; [apply npp_geo|apply np_encode_geo]. Qed.
Print Assumptions C54_no_panic.
Example C54_ex : exists b, encode_geo_table (GeoTable 1 [114] 0x42000000 0xC2000000 [GeoPeer (Peer 3 9 (V6 5) 400000) 0x41000000 0x7FC00000]) = Ok b /\ nlen b = 50 /\
  parse_geo_table b = Ok (GeoTable 1 [114] 0x42000000 0xC2000000 [GeoPeer (Peer 3 9 (V6 5) 400000) 0x41000000 0x7FC00000], []).
Proof. eexists. split; [vm_compute; reflexivity|]. split; reflexivity. Qed.
(** Finding: a view name with a character outside ASCII grows on every cycle of encoding
    and parsing. *)
Theorem C54_name_refuted : exists t b t', utf8 (gt_name t) /\ encode_geo_table t = Ok b /\ parse_geo_table b = Ok (t', []) /\
  nlen (gt_name t) = 2 /\ nlen (gt_name t') = 4.
Proof.
  exists (GeoTable 1 [0xC3; 0xA9] 0 0 []). eexists. eexists. split; [apply utf8_ok_iff; reflexivity|].
  split; [vm_compute; reflexivity|]. split; [vm_compute; reflexivity|]. split; reflexivity.
Qed.
Print Assumptions C54_name_refuted.

(** The subtypes of TABLE_DUMP_V2: exactly these are decoded, and none panics. *)
Theorem C28_subtypes sub s : parse_dump_v2 sub s <> Panic /\
  (forall m, parse_dump_v2 sub s = Ok m -> dump_type m = sub /\
     ((sub = 1 /\ exists t, m = V2Peers t /\ run parse_peer_table s = Ok t) \/ (sub = 7 /\ exists t, m = V2Geo t /\ run parse_geo_table s = Ok t) \/
      exists a sf ap r, rib_subtype sub a sf ap /\ m = V2Rib r /\ parse_rib sub s = Ok r)).
Proof.
  assert (N1 : np (run parse_peer_table s)) by (apply np_run, npp_table). assert (N2 : np (run parse_geo_table s)) by (apply np_run, npp_geo).
  pose proof (parse_rib_np sub s) as N3.
  assert (R : forall a sf, rib_family sub = Some (a, sf) -> forall r, parse_rib sub s = Ok r -> dump_type (V2Rib r) = sub /\
     exists a sf ap r0, rib_subtype sub a sf ap /\ V2Rib r = V2Rib r0 /\ parse_rib sub s = Ok r0).
  { intros a sf E r H. split.
    - unfold parse_rib in H. rewrite E in H. apply run_inv in H as (z & H). do 4 (apply bind_inv in H as (? & ? & _ & H)).
      apply bind_inv in H as (? & ? & _ & H). apply ret_inv in H as [<- _]. reflexivity.
    - exists a, sf, (rib_add_path sub), r. split; auto. apply rib_subtype_iff. auto. }
  unfold parse_dump_v2. code_cases sub;
  try (split; [discriminate|intros m H; discriminate]);
  (split; [apply np_rbind; [assumption|intros; apply np_ok]|]); intros m H; apply rbind_inv in H as (t & H1 & H); injection H as <-;
  first [ split; [reflexivity|left; split; [reflexivity|]; exists t; auto; fail]
        | split; [reflexivity|right; left; split; [reflexivity|]; exists t; auto; fail]
        | destruct (R _ _ eq_refl t H1) as [R1 R2]; split; [exact R1|right; right; exact R2] ].
Qed.
Print Assumptions C28_subtypes.
