(** C92: the layered text of a record. *)
From Coq Require Import String Sorting.Permutation Sorting.Sorted Lia ZifyBool ZifyNat ZifyN.
From Verif Require Import Base BaseFacts Net NetSpec AsPath Community CommunitySpec Mpls Nlri LinkState Tlv Attr BgpError Cap BgpMsg Bgp4mp TableDump Framing MrtRecord Elem
  Text Psv PsvSpec Render RenderSpec RenderFacts RenderReadFacts RenderTellFacts PropPsv.
Local Open Scope string_scope.
Local Open Scope list_scope.
Local Open Scope N_scope.

(** ** C92: a reader finds in the text what is in the record, under fixed headings. *)
(** Time, type and the two ends of the session are top lines of every record that has them. *)
Theorem C92_session T r : rtexts_ok T -> let ls := lines (format_record T r) in
  (exists t, value 0 "TIME: " ls = Some t /\ time_text (mr_hdr r) t) /\
  value 0 "TYPE: " ls = Some (etype_name (h_type (mr_hdr r)) ++ str "/" ++ match mr_msg r with MrtBgp4mp m => mp_name (mp_type m) | _ => dec (h_sub (mr_hdr r)) end) /\
  value 0 "FROM: " ls = option_map (end_text T) (from_in r) /\ value 0 "TO: " ls = option_map (end_text T) (to_in r).
Proof. intros O ls. unfold ls. rewrite record_lines by exact O. exact (conj (time_ok T r) (conj (type_ok T r) (conj (from_ok T r) (to_ok T r)))). Qed.
Print Assumptions C92_session.
(** The kind of message is a top line of its own. *)
Theorem C92_kind T r : rtexts_ok T -> let ls := lines (format_record T r) in
  (In (str "OPEN:") ls <-> exists o, message_in r = Some (MOpen o)) /\ (In (str "UPDATE:") ls <-> exists u, message_in r = Some (MUpdate u)) /\
  (In (str "NOTIFICATION:") ls <-> exists n, message_in r = Some (MNotif n)) /\ (In (str "KEEPALIVE:") ls <-> message_in r = Some MKeepAlive) /\
  (In (str "ROUTE_REFRESH:") ls <-> exists f, message_in r = Some (MRefresh f)) /\ (In (str "STATE_CHANGE:") ls <-> states_in r <> None).
Proof. intros O ls. unfold ls. rewrite record_lines by exact O. exact (kinds T r). Qed.
Print Assumptions C92_kind.
(** Each route of an UPDATE, standard or multiprotocol, has its line under the heading of its
    kind, in order, and no other line is there; so have attributes and warnings. *)
Theorem C92_update T r u : rtexts_ok T -> update_in r = Some u -> let ls := lines (format_record T r) in let vs := values (u_attrs u) in
  under 1 "WITHDRAWN:" ls = map (route_text T) (u_withdrawn u ++ flat_map mp_withdrawn vs) /\
  under 1 "ANNOUNCED:" ls = map (route_text T) (u_announced u ++ flat_map mp_announced vs) /\
  under 1 "ANNOUNCED (labeled):" ls = map (labeled_text T) (flat_map mp_labeled vs) /\
  under 1 "ATTRIBUTES:" ls = map (attr_text T) vs /\
  under 1 "WARNINGS:" ls = map (warn_text T) (at_warnings (u_attrs u)).
Proof. intros O U ls vs. unfold ls. rewrite record_lines by exact O. exact (update_sections T r u U). Qed.
Print Assumptions C92_update.
(** BGP-LS routes and FlowSpec rules are counted, if there are any. *)
Theorem C92_counts T r u : rtexts_ok T -> update_in r = Some u -> let ls := lines (format_record T r) in let vs := values (u_attrs u) in
  value 1 "LINK_STATE_NLRI: " ls = (if total ls_routes vs =? 0 then None else Some (dec (total ls_routes vs) ++ str " entries (BGP-LS)")) /\
  value 1 "FLOWSPEC_NLRI: " ls = (if total fs_rules vs =? 0 then None else Some (dec (total fs_rules vs) ++ str " rules (RFC 8955)")).
Proof. intros O U ls vs. unfold ls. rewrite record_lines by exact O. exact (update_counts T r u U). Qed.
Print Assumptions C92_counts.
(** Every element of the record has its prefix under the heading of its type. *)
Theorem C92_elements T el r u l el' : rtexts_ok T -> update_in r = Some u -> record_to_elems el r = Ok (l, el') ->
  Forall (fun e => value 0 "FROM: " (lines (format_record T r)) = Some (end_text T (e_peer e, e_asn e)) /\
    In (route_text T (e_prefix e)) (under 1 (match e_type e with Announce => "ANNOUNCED:" | Withdraw => "WITHDRAWN:" end) (lines (format_record T r)))) l.
Proof. intros O. rewrite record_lines by exact O. exact (elements_read T el r u l el'). Qed.
Print Assumptions C92_elements.
(** The other messages. *)
Theorem C92_open T r o : rtexts_ok T -> message_in r = Some (MOpen o) -> let ls := lines (format_record T r) in
  value 1 "VERSION: " ls = Some (dec (o_version o)) /\ value 1 "MY_AS: " ls = Some (dec (o_asn o)) /\
  value 1 "HOLD_TIME: " ls = Some (dec (o_hold o) ++ str "s") /\ value 1 "BGP_ID: " ls = Some (sh_ip (rt T) (V4 (o_id o))) /\
  under 1 "CAPABILITIES:" ls = map cap_text (caps_in o).
Proof. intros O M ls. unfold ls. rewrite record_lines by exact O. exact (open_ok T r o M). Qed.
Print Assumptions C92_open.
Theorem C92_states T r o n : rtexts_ok T -> states_in r = Some (o, n) ->
  value 1 "OLD_STATE: " (lines (format_record T r)) = Some (state_name o) /\ value 1 "NEW_STATE: " (lines (format_record T r)) = Some (state_name n).
Proof. intros O. rewrite record_lines by exact O. exact (states_ok T r o n). Qed.
Print Assumptions C92_states.
Theorem C92_notification T r n : rtexts_ok T -> message_in r = Some (MNotif n) ->
  value 1 "ERROR: " (lines (format_record T r)) = Some (rt_error T (nt_error n) ++ str " (" ++ dec (nlen (nt_data n)) ++ str " bytes of data)").
Proof. intros O. rewrite record_lines by exact O. exact (notification_ok T r n). Qed.
Print Assumptions C92_notification.
Theorem C92_refresh T r f : rtexts_ok T -> message_in r = Some (MRefresh f) ->
  value 1 "AFI: " (lines (format_record T r)) = Some (dec (rf_afi f) ++ str " SAFI: " ++ dec (rf_safi f) ++ str " SUBTYPE: " ++ dec (rf_subtype f)).
Proof. intros O. rewrite record_lines by exact O. exact (refresh_ok T r f). Qed.
Print Assumptions C92_refresh.
(** A peer table: each peer has a line, by increasing number, whatever the order of the map. *)
Theorem C92_peers T r t : rtexts_ok T -> mr_msg r = MrtV2 (V2Peers t) -> NoDup (map fst (pt_peers t)) -> let ls := lines (format_record T r) in
  value 0 "PEER_INDEX_TABLE: " ls = Some (dec (nlen (pt_peers t)) ++ str " peers") /\
  exists l, Permutation (pt_peers t) l /\ StronglySorted (fun a b => fst a < fst b) l /\
    skipn 3 ls = map (fun x => deep 1 (str "PEER[" ++ dec (fst x) ++ str "]: " ++ end_text T (pe_ip (snd x), pe_asn (snd x)))) l.
Proof. intros O M D ls. unfold ls. rewrite record_lines by exact O. exact (peers_read T r t M D). Qed.
Print Assumptions C92_peers.
(** A RIB: its heading, and one part for each entry. *)
Theorem C92_rib T r b : rtexts_ok T -> mr_msg r = MrtV2 (V2Rib b) -> let ls := lines (format_record T r) in
  value 0 "RIB_AFI: " ls = Some (v2_name (rb_type b) ++ str " PREFIX: " ++ route_text T (rb_prefix b) ++ str " (" ++ dec (nlen (rb_entries b)) ++ str " entries)") /\
  Forall2 (fun e p => value 2 "PEER_INDEX: " p = Some (dec (re_peer e)) /\ value 2 "ORIGINATED: " p = Some (dec (re_time e)) /\
      under 2 "ATTRIBUTES:" p = map (attr_text T) (values (re_attrs e)) /\ under 2 "WARNINGS:" p = map (warn_text T) (at_warnings (re_attrs e)))
    (rb_entries b) (parts (is_line 1 "RIB_ENTRY:") ls).
Proof. intros O M ls. unfold ls. rewrite record_lines by exact O. exact (rib_all T r b M). Qed.
Print Assumptions C92_rib.
Theorem C92_dumps T r l : rtexts_ok T -> dumps_in r = Some l ->
  Forall2 (fun m p => value 1 "PREFIX: " p = Some (route_text T (td_prefix m)) /\ value 1 "PEER: " p = Some (end_text T (td_peer m, td_asn m)) /\
      value 1 "ORIGINATED: " p = Some (dec (td_time m)) /\
      under 1 "ATTRIBUTES:" p = map (attr_text T) (values (td_attrs m)) /\ under 1 "WARNINGS:" p = map (warn_text T) (at_warnings (td_attrs m)))
    l (parts (is_line 0 "RIB_ENTRY:") (lines (format_record T r))).
Proof. intros O. rewrite record_lines by exact O. exact (dumps_all T r l). Qed.
Print Assumptions C92_dumps.
(** Records printed one after another come apart at the [TIME] lines; the octets in
    hexadecimal, if asked for, are one more line that nothing else can be taken for. *)
Theorem C92_blocks T xs : rtexts_ok T -> Forall (fun x => all_opt one_line (snd x)) xs ->
  let text x := match snd x with Some h => format_record_with_hex T (fst x) h | None => format_record T (fst x) end in
  parts (begins "TIME: ") (lines (List.concat (map text xs))) = map (fun x => tl (lines (text x))) xs /\
  lines (List.concat (map text xs)) = flat_map (fun x => lines (text x)) xs.
Proof. exact (blocks_read T xs). Qed.
Print Assumptions C92_blocks.
Theorem C92_hex T r h : rtexts_ok T -> one_line h ->
  lines (format_record_with_hex T r h) = lines (format_record T r) ++ [deep 1 (str "HEX: " ++ h)] /\
  value 1 "HEX: " (lines (format_record_with_hex T r h)) = Some h /\ value 1 "HEX: " (lines (format_record T r)) = None.
Proof. exact (hex_read T r h). Qed.
Print Assumptions C92_hex.

(** Codes and families have their names; other capabilities and attributes are named by the
    number; octets of flags are in hexadecimal. *)
Theorem C92_names :
  Forall (fun x => etype_name (fst x) = str (snd x)) record_types /\ Forall (fun x => mp_name (fst x) = str (snd x)) bgp4mp_types /\
  Forall (fun x => v2_name (fst x) = str (snd x)) table_types /\
  Forall (fun x => afi_name (fst x) = str (snd x)) families /\ Forall (fun x => safi_name (fst x) = str (snd x)) subfamilies /\
  (forall b, b < 256 -> low_octet b = hexadecimal b) /\
  Forall (fun x => cap_name (fst x) = str (snd x)) capabilities /\ (forall n, ~ In n (map fst capabilities) -> cap_name n = str "Unknown(" ++ dec n ++ str ")") /\
  Forall (fun x => atype_name (fst x) = str (snd x)) attribute_types /\ (forall n, ~ In n (map fst attribute_types) -> atype_name n = str "Unknown(" ++ dec n ++ str ")").
Proof. exact names_ok. Qed.
Print Assumptions C92_names.

(** Lines tell what they are about: equal texts are of like attributes and warnings. *)
Theorem C92_attr_tells T v w : rtexts_ok T -> attr_fine v -> attr_fine w -> attr_text T v = attr_text T w -> attr_alike T v w.
Proof. exact (attr_tells T v w). Qed.
Print Assumptions C92_attr_tells.
Theorem C92_warning_tells T v w : warn_fine v -> warn_fine w -> warn_text T v = warn_text T w -> warn_alike T v w.
Proof. exact (warn_tells T v w). Qed.
Print Assumptions C92_warning_tells.
(** Records with the same text have the same time, session, states and kind of message, *)
Theorem C92_tells T r s : rtexts_ok T -> all_opt (fun x => ip_ok (fst x)) (from_in r) -> all_opt (fun x => ip_ok (fst x)) (to_in r) ->
  all_opt (fun x => ip_ok (fst x)) (from_in s) -> all_opt (fun x => ip_ok (fst x)) (to_in s) -> format_record T r = format_record T s ->
  h_ts (mr_hdr r) = h_ts (mr_hdr s) /\ h_us (mr_hdr r) = h_us (mr_hdr s) /\ from_in r = from_in s /\ to_in r = to_in s /\ states_in r = states_in s /\
  option_map msg_heading (message_in r) = option_map msg_heading (message_in s).
Proof. intros O R1 R2 S1 S2 E. apply (f_equal lines) in E. rewrite !record_lines in E by exact O. exact (session_tells T r s O R1 R2 S1 S2 E). Qed.
Print Assumptions C92_tells.
(** and their UPDATE messages the same routes, but for path identifiers, and like attributes. *)
Theorem C92_update_tells T r s u v : rtexts_ok T -> update_in r = Some u -> update_in s = Some v -> update_fine u -> update_fine v -> format_record T r = format_record T s ->
  map p_net (u_withdrawn u ++ flat_map mp_withdrawn (values (u_attrs u))) = map p_net (u_withdrawn v ++ flat_map mp_withdrawn (values (u_attrs v))) /\
  map p_net (u_announced u ++ flat_map mp_announced (values (u_attrs u))) = map p_net (u_announced v ++ flat_map mp_announced (values (u_attrs v))) /\
  flat_map mp_labeled (values (u_attrs u)) = flat_map mp_labeled (values (u_attrs v)) /\
  Forall2 (attr_alike T) (values (u_attrs u)) (values (u_attrs v)) /\ Forall2 (warn_alike T) (at_warnings (u_attrs u)) (at_warnings (u_attrs v)).
Proof. intros O U V F G E. apply (f_equal lines) in E. rewrite !record_lines in E by exact O. exact (update_tells T r s u v O U V F G E). Qed.
Print Assumptions C92_update_tells.

(** Texts that meet what is assumed, and a record with withdrawals, announcements, labelled
    routes, attributes and a warning: its text. *)
Definition ex_rtexts : rtexts := RTexts ex_shows (fun _ => str "error") (fun _ => str "reason") (fun _ => str "value") (fun _ k => dec k).
Example C92_ex_texts : rtexts_ok ex_rtexts.
Proof.
  split; [exact C88_ex_shows|]. repeat match goal with |- _ /\ _ => split end; cbn [rt ex_rtexts ex_shows sh_ip sh_single rt_error rt_reason rt_debug rt_key]; intros; try lit; try apply one_dec.
  - destruct i; cbn [ex_addr]; [apply one_join; [lit|]; repeat (apply Forall_cons; [apply one_dec|]); apply Forall_nil|apply one_app; [lit|apply one_dec]].
  - unfold ex_single. destruct (_ && _); [lit|apply one_dec].
Qed.
Definition ex_net (a b : N) : ipnet := Net (V4 (a * 16777216 + b * 65536)) 16.
Definition ex_change : update_msg :=
  Update [Pfx (ex_net 10 1) None]
    (Attrs (map attr_of_value [AOrigin IGP; AAsPath [Seg KSeq [64500; 64501]]; ANextHop (V4 0x0A000001); ACommunities [CNoExport; CCustom 1 2];
       AMpReach (Nlri AIpv4 SMplsLabel (Some (NH4 0x0A000002)) [Pfx (ex_net 10 4) None] (Some [Labeled (ex_net 10 5) [100; 200] (Some 7)]) None None); AUnknown 99 [1; 2; 3]])
       [WLength 4 (Some 4) 3] 0)
    [Pfx (ex_net 10 2) None; Pfx (ex_net 10 3) (Some 9)].
Definition ex_rec : mrt_record :=
  MrtRecord (Hdr 1700000000 (Some 250) 17 4 0) (MrtBgp4mp (MpMessage (MpMsg 4 64500 65000 3 (V4 0x0A000001) (V4 0x0A000002) (MUpdate ex_change)))).
Example C92_ex : lines (format_record ex_rtexts ex_rec) = map str
  ["TIME: 1700000000.000250"; "TYPE: BGP4MP_ET/MessageAs4"; "FROM: 10.0.0.1 AS64500"; "TO: 10.0.0.2 AS65000"; "UPDATE:";
   "  WITHDRAWN:"; "    10.1.0.0/16"; "  ANNOUNCED:"; "    10.2.0.0/16"; "    10.3.0.0/16"; "    10.4.0.0/16";
   "  ANNOUNCED (labeled):"; "    10.5.0.0/16 labels=[100, 200] path-id 7"; "  ATTRIBUTES:";
   "    ORIGIN: IGP"; "    AS_PATH: 64500 64501"; "    NEXT_HOP: 10.0.0.1"; "    COMMUNITIES: no-export 1:2";
   "    MP_REACH_NLRI: Ipv4/MplsLabel next-hop 10.0.0.2"; "    UNKNOWN (type 99): 3 bytes"; "  WARNINGS:";
   "    Attribute length error for MULTI_EXIT_DISCRIMINATOR: expected 4, got 3"] /\
  update_in ex_rec = Some ex_change /\ update_fine ex_change /\ (exists l, record_to_elems None ex_rec = Ok (l, None) /\ length l = 4%nat) /\
  all_opt (fun x => ip_ok (fst x)) (from_in ex_rec) /\ all_opt (fun x => ip_ok (fst x)) (to_in ex_rec).
Proof.
  assert (K : forall a b, a < 256 -> b < 256 -> net_ok (ex_net a b)) by (intros a b A B; unfold net_ok, ex_net; cbn [net_addr net_len ip_ok]; split; [change (2 ^ 32) with 4294967296; lia|cbn; lia]).
  split; [vm_compute; reflexivity|]. split; [reflexivity|]. split.
  { refine (conj _ (conj _ _)).
    - change (u_withdrawn ex_change ++ u_announced ex_change) with [Pfx (ex_net 10 1) None; Pfx (ex_net 10 2) None; Pfx (ex_net 10 3) (Some 9)].
      repeat (apply Forall_cons; [apply K; reflexivity|]). apply Forall_nil.
    - apply Forall_cons; [exact I|]. apply Forall_cons; [exact I|]. apply Forall_cons; [reflexivity|]. apply Forall_cons; [exact I|].
      apply Forall_cons; [|apply Forall_cons; [exact I|apply Forall_nil]].
      refine (conj _ (conj _ _)); [reflexivity|apply Forall_cons; [apply (K 10 4); reflexivity|apply Forall_nil]|apply Forall_cons; [apply (K 10 5); reflexivity|apply Forall_nil]].
    - apply Forall_cons; [reflexivity|apply Forall_nil]. }
  split; [eexists; split; vm_compute; reflexivity|]. split; reflexivity.
Qed.

(** The other theorems, on records. *)
Example C92_ex_others : exists o s n f t b d,
  message_in o = Some (MOpen (Open 4 64500 180 0x0A000001 false [Param 2 (PvCaps [Cap 65 (CvAs4 70000); Cap 1 (CvMp AIpv6 SUnicast)])])) /\
  lines (format_record ex_rtexts o) = map str ["TIME: 5"; "TYPE: BGP4MP/Message"; "FROM: 0.0.0.1 AS1"; "TO: 0.0.0.2 AS2"; "OPEN:"; "  VERSION: 4"; "  MY_AS: 64500"; "  HOLD_TIME: 180s";
    "  BGP_ID: 10.0.0.1"; "  CAPABILITIES:"; "    SUPPORT_FOR_4_OCTET_AS_NUMBER_CAPABILITY: AS70000"; "    MULTIPROTOCOL_EXTENSIONS_FOR_BGP_4: Ipv6/Unicast"] /\
  states_in s = Some (StIdle, StConnect) /\ skipn 3 (lines (format_record ex_rtexts s)) = map str ["STATE_CHANGE:"; "  OLD_STATE: Idle"; "  NEW_STATE: Connect"] /\
  message_in n = Some (MNotif (Notif (ECease (cease_of 2)) [1; 2])) /\ skipn 4 (lines (format_record ex_rtexts n)) = map str ["NOTIFICATION:"; "  ERROR: error (2 bytes of data)"] /\
  message_in f = Some (MRefresh (Refresh 1 0 1 [])) /\ skipn 4 (lines (format_record ex_rtexts f)) = map str ["ROUTE_REFRESH:"; "  AFI: 1 SAFI: 1 SUBTYPE: 0"] /\
  mr_msg t = MrtV2 (V2Peers (PeerTable 0 [] [(1, Peer 2 0 (V4 1) 64501); (0, Peer 2 0 (V4 2) 64500)] [])) /\
  skipn 2 (lines (format_record ex_rtexts t)) = map str ["PEER_INDEX_TABLE: 2 peers"; "  PEER[0]: 0.0.0.2 AS64500"; "  PEER[1]: 0.0.0.1 AS64501"] /\
  skipn 2 (lines (format_record ex_rtexts b)) = map str ["RIB_AFI: RibIpv4Unicast PREFIX: 10.1.0.0/16 (2 entries)"; "  RIB_ENTRY:"; "    PEER_INDEX: 0"; "    ORIGINATED: 5"; "    ATTRIBUTES:"; "      ORIGIN: EGP";
    "  RIB_ENTRY:"; "    PEER_INDEX: 1"; "    ORIGINATED: 6"] /\
  skipn 2 (lines (format_record ex_rtexts d)) = map str ["TABLE_DUMP: 1 entries"; "RIB_ENTRY:"; "  PREFIX: 10.1.0.0/16"; "  PEER: 0.0.0.4 AS5"; "  ORIGINATED: 3"; "  ATTRIBUTES:"; "    ATOMIC_AGGREGATE"].
Proof.
  exists (MrtRecord (Hdr 5 None 16 1 0) (MrtBgp4mp (MpMessage (MpMsg 1 1 2 0 (V4 1) (V4 2) (MOpen (Open 4 64500 180 0x0A000001 false [Param 2 (PvCaps [Cap 65 (CvAs4 70000); Cap 1 (CvMp AIpv6 SUnicast)])])))))).
  exists (MrtRecord (Hdr 5 None 5 3 0) (MrtLegacy (LgStateChange (LgState 1 (V4 1) StIdle StConnect)))).
  exists (MrtRecord (Hdr 5 None 16 1 0) (MrtBgp4mp (MpMessage (MpMsg 1 1 2 0 (V4 1) (V4 2) (MNotif (Notif (ECease (cease_of 2)) [1; 2])))))).
  exists (MrtRecord (Hdr 5 None 16 1 0) (MrtBgp4mp (MpMessage (MpMsg 1 1 2 0 (V4 1) (V4 2) (MRefresh (Refresh 1 0 1 [])))))).
  exists (MrtRecord (Hdr 5 None 13 1 0) (MrtV2 (V2Peers (PeerTable 0 [] [(1, Peer 2 0 (V4 1) 64501); (0, Peer 2 0 (V4 2) 64500)] [])))).
  exists (MrtRecord (Hdr 5 None 13 2 0) (MrtV2 (V2Rib (Rib 2 0 (Pfx (ex_net 10 1) None) [RibEntry 0 5 None (attrs_of_values [AOrigin EGP]); RibEntry 1 6 None (attrs_of_values [])])))).
  exists (MrtRecord (Hdr 5 None 12 1 0) (MrtDumps [Dump 1 2 (Pfx (ex_net 10 1) None) 1 3 (V4 4) 5 (attrs_of_values [AAtomicAggregate])])).
  repeat match goal with |- _ /\ _ => split end; vm_compute; reflexivity.
Qed.
Example C92_ex_blocks : parts (begins "TIME: ") (lines (format_record_with_hex ex_rtexts ex_rec (str "00FF") ++ format_record ex_rtexts ex_rec)) =
  [tl (lines (format_record ex_rtexts ex_rec)) ++ [str "  HEX: 00FF"]; tl (lines (format_record ex_rtexts ex_rec))].
Proof. vm_compute. reflexivity. Qed.

(** Findings.  Records that differ in what they say may have the same text: path identifiers
    of routes and RIB entries, *)
Definition ex_of (u : update_msg) : mrt_record := MrtRecord (Hdr 5 None 16 4 0) (MrtBgp4mp (MpMessage (MpMsg 4 1 2 0 (V4 1) (V4 2) (MUpdate u)))).
Theorem C92_path_id_refuted T : exists u v, map p_id (u_announced u) <> map p_id (u_announced v) /\ format_record T (ex_of u) = format_record T (ex_of v).
Proof. exists (Update [] (attrs_of_values []) [Pfx (ex_net 10 1) (Some 1)]), (Update [] (attrs_of_values []) [Pfx (ex_net 10 1) (Some 2)]). split; [discriminate|reflexivity]. Qed.
Print Assumptions C92_path_id_refuted.
Theorem C92_rib_path_refuted T h : exists a b, map re_path (rb_entries a) <> map re_path (rb_entries b) /\
  format_record T (MrtRecord h (MrtV2 (V2Rib a))) = format_record T (MrtRecord h (MrtV2 (V2Rib b))).
Proof.
  exists (Rib 8 0 (Pfx (ex_net 10 1) None) [RibEntry 0 5 (Some 1) (attrs_of_values [])]), (Rib 8 0 (Pfx (ex_net 10 1) None) [RibEntry 0 5 (Some 2) (attrs_of_values [])]).
  split; [discriminate|reflexivity].
Qed.
Print Assumptions C92_rib_path_refuted.
(** the link-local address and the route distinguisher of a next hop, *)
Theorem C92_next_hop_refuted T : exists v w, v <> w /\ attr_text T v = attr_text T w /\
  (exists n, v = AMpReach n /\ nl_next n = Some (NH6L 5 1)) /\ (exists n, w = AMpReach n /\ nl_next n = Some (NHVpn 7 5)).
Proof.
  exists (AMpReach (Nlri AIpv6 SUnicast (Some (NH6L 5 1)) [] None None None)), (AMpReach (Nlri AIpv6 SUnicast (Some (NHVpn 7 5)) [] None None None)).
  split; [discriminate|]. split; [reflexivity|]. split; eexists; split; reflexivity.
Qed.
Print Assumptions C92_next_hop_refuted.
(** the octets of unknown attributes and the contents of geographic tables. *)
Theorem C92_octets_refuted T : exists b c, b <> c /\ attr_text T (AUnknown 99 b) = attr_text T (AUnknown 99 c).
Proof. exists [1], [2]. split; [discriminate|reflexivity]. Qed.
Print Assumptions C92_octets_refuted.
Theorem C92_geo_refuted T h : exists a b, gt_peers a <> gt_peers b /\ format_record T (MrtRecord h (MrtV2 (V2Geo a))) = format_record T (MrtRecord h (MrtV2 (V2Geo b))).
Proof. exists (GeoTable 0 [] 0 0 [GeoPeer (Peer 0 1 (V4 1) 1) 0 0]), (GeoTable 0 [] 0 0 [GeoPeer (Peer 0 2 (V4 2) 2) 0 0]). split; [discriminate|reflexivity]. Qed.
Print Assumptions C92_geo_refuted.
(** And one record may have several texts: a BGP-LS attribute is printed in the order its
    hash maps happen to have. *)
Theorem C92_map_order_refuted : exists T a b, rtexts_ok T /\ Permutation (la_node a) (la_node b) /\ la_link a = la_link b /\ la_prefix a = la_prefix b /\ la_unknown a = la_unknown b /\
  attr_text T (ALinkStateAttr a) <> attr_text T (ALinkStateAttr b).
Proof.
  exists ex_rtexts, (LsAttr [(1, [5]); (2, [6])] [] [] []), (LsAttr [(2, [6]); (1, [5])] [] [] []).
  split; [exact C92_ex_texts|]. split; [apply perm_swap|]. do 3 (split; [reflexivity|]). vm_compute. discriminate.
Qed.
Print Assumptions C92_map_order_refuted.
(** A labelled route has a line and no element. *)
Theorem C92_labeled_refuted : exists r l, record_to_elems None r = Ok ([], None) /\ under 1 "ANNOUNCED (labeled):" (lines (format_record ex_rtexts r)) = l /\ l <> [].
Proof.
  exists (ex_of (Update [] (attrs_of_values [AMpReach (Nlri AIpv4 SMplsLabel (Some (NH4 1)) [] (Some [Labeled (ex_net 10 5) [100] None]) None None)]) [])).
  eexists. split; [vm_compute; reflexivity|]. split; [vm_compute; reflexivity|discriminate].
Qed.
Print Assumptions C92_labeled_refuted.
(** The capabilities of an OPEN have a heading also when there are none. *)
Theorem C92_empty_heading_refuted : exists r o, message_in r = Some (MOpen o) /\ caps_in o = [] /\ In (str "  CAPABILITIES:") (lines (format_record ex_rtexts r)).
Proof.
  exists (MrtRecord (Hdr 5 None 16 4 0) (MrtBgp4mp (MpMessage (MpMsg 4 1 2 0 (V4 1) (V4 2) (MOpen (Open 4 1 180 1 false [Param 1 (PvRaw [1])])))))).
  eexists. split; [reflexivity|]. split; [reflexivity|]. vm_compute. tauto.
Qed.
Print Assumptions C92_empty_heading_refuted.
