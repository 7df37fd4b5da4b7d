(** C18-C22, C45, C46, C52: BGP messages and capabilities. *)
From Coq Require Import ZifyBool ZifyN Lia.
From Verif Require Import Base BaseFacts Reader Net NetSpec AsPath AsPathSpec Nlri NlriSpec Attr AttrSpec AttrFacts Cap BgpError BgpMsg MsgSpec CapFacts MsgFacts.

(** ** C18: framing.  Sixteen octets of marker, a length from 19 - at most 4096 for OPEN
    and KEEPALIVE -, a type from 1 to 5, and a body that ends where the length says or
    where the data does. *)
Theorem C18_framing_exact ap al s m r : bytes_ok s ->
  (parse_bgp_message ap al s = Ok (m, r) <->
   exists mk len t body, s = header_wire mk len t ++ body ++ r /\ length mk = 16%nat /\
     19 <= len < 65536 /\ 1 <= t <= 5 /\ ((t = 1 \/ t = 4) -> len <= 4096) /\
     (nlen body = len - 19 \/ (nlen body < len - 19 /\ r = [])) /\ parse_body ap al t body = Ok m).
Proof.
  intros Hs. split; [exact (frame_inv ap al s m r Hs)|].
  intros (mk & len & t & body & -> & H1 & H2 & H3 & H4 & H5 & H6). rewrite frame_eq by auto. rewrite H6. reflexivity.
Qed.
Print Assumptions C18_framing_exact.
Lemma app_eq_len {A} (a b c d : list A) : a ++ b = c ++ d -> length a = length c -> a = c /\ b = d.
Proof.
  revert c. induction a as [|x a IH]; intros [|y c] E H; cbn in *; try discriminate; auto.
  injection E as -> E. injection H as H. destruct (IH c E H) as [-> ->]. auto.
Qed.
(** What follows a complete message has no influence on it and is left. *)
Theorem C18_suffix ap al s m x : bytes_ok s -> bytes_ok x ->
  (exists mk len t body, s = header_wire mk len t ++ body /\ length mk = 16%nat /\ nlen s = len /\ len < 65536) ->
  (parse_bgp_message ap al (s ++ x) = Ok (m, x) <-> parse_bgp_message ap al s = Ok (m, [])).
Proof.
  intros Hs Hx (mk & len & t & body & -> & Hm & Hl & Hl2).
  assert (L : nlen body = len - 19 /\ 19 <= len).
  { unfold nlen in *. rewrite app_length, header_len in Hl by auto. lia. }
  split; intros H; apply frame_inv in H as (mk' & len' & t' & body' & E & H1 & H2 & H3 & H4 & H5 & H6); auto.
  - rewrite app_assoc in E. apply app_inv_tail in E. rewrite E. rewrite <- (app_nil_r body').
    rewrite frame_eq; auto; [rewrite H6; reflexivity|]. destruct H5 as [H5|[H5 ->]]; [left; auto|right; auto].
  - apply bytes_ok_app. auto.
  - rewrite app_nil_r in E. rewrite E, <- app_assoc. rewrite frame_eq; auto; [rewrite H6; reflexivity|].
    apply app_eq_len in E as [X <-]; [|rewrite !header_len; auto].
    unfold header_wire in X. apply app_eq_len in X as [_ X]; [|lia]. apply app_eq_len in X as [X _]; [|rewrite !be_length; auto].
    apply be_inj in X; [|exact Hl2|exact (proj2 H2)]. subst len'.
    left. lia.
Qed.
Print Assumptions C18_suffix.
Theorem C18_no_panic ap al s : parse_bgp_message ap al s <> Panic.
Proof. exact (message_np ap al s). Qed.
Print Assumptions C18_no_panic.
(** Finding: a length above the available data is not rejected, it is cut to the data:
    a NOTIFICATION announcing 4096 octets is read from 21. *)
Theorem C18_length_beyond_data_refuted : exists s, nlen s = 21 /\
  s = header_wire (repeat 255 16) 4096 3 ++ [6; 2] /\
  parse_bgp_message false Bits32 s = Ok (MNotif (Notif (ECease CShutdown) []), []).
Proof. eexists. split; [|split; [reflexivity|]]; reflexivity. Qed.
Print Assumptions C18_length_beyond_data_refuted.
(** Finding: the marker is not checked. *)
Theorem C18_marker_refuted : forall mk, length mk = 16%nat ->
  parse_bgp_message false Bits32 (header_wire mk 19 4) = Ok (MKeepAlive, []).
Proof.
  intros mk H. rewrite <- (app_nil_r (header_wire mk 19 4)). change (@nil N) with (@nil N ++ []) at 1.
  rewrite frame_eq; auto; try lia; try reflexivity; left; reflexivity.
Qed.
Print Assumptions C18_marker_refuted.
Example C18_ex : parse_bgp_message false Bits32 (header_wire (repeat 255 16) 19 4 ++ [1; 2; 3]) = Ok (MKeepAlive, [1; 2; 3]) /\
  (exists e, parse_bgp_message false Bits32 (header_wire (repeat 255 16) 18 4) = Err e) /\
  (exists e, parse_bgp_message false Bits32 (header_wire (repeat 255 16) 4097 4 ++ repeat 0 5000) = Err e) /\
  (exists e, parse_bgp_message false Bits32 (header_wire (repeat 255 16) 19 6) = Err e).
Proof. split; [reflexivity|]. repeat split; eexists; vm_compute; reflexivity. Qed.

(** ** C19: the codec *)
Theorem C19_encode_exact al m b : encode_bgp_message al m = Ok b <->
  exists body, encode_body al m = Ok body /\ nlen b <= 65535 /\
    b = header_wire (repeat 255 16) (nlen b) (msg_type m) ++ body.
Proof.
  rewrite encode_message_iff.
  assert (L : forall n t body, nlen (header_wire (repeat 255 16) n t ++ body) = nlen body + 19).
  { intros. unfold nlen. rewrite app_length, header_len by reflexivity. lia. }
  split; intros (body & H1 & H2 & H3); exists body; split; auto.
  - assert (E : nlen b = nlen body + 19) by (rewrite H3; apply L). rewrite E. auto.
  - assert (E : nlen b = nlen body + 19) by (rewrite H3; apply L). rewrite E in *. auto.
Qed.
Print Assumptions C19_encode_exact.
Theorem C19_roundtrip ap al m b r : message_ok ap al m -> encode_bgp_message al m = Ok b ->
  (msg_type m = 1 -> nlen b <= 4096) ->
  exists m', parse_bgp_message ap al (b ++ r) = Ok (m', r) /\ same_message m m'.
Proof. exact (message_roundtrip ap al m b r). Qed.
Print Assumptions C19_roundtrip.
(** An UPDATE is three sections, two of them with their length; the attributes must fit. *)
Theorem C19_update_encode al m b : encode_update al m = Ok b <->
  exists a, encode_attributes al (at_inner (u_attrs m)) = Ok a /\ nlen (encode_nlri_prefixes (u_withdrawn m)) < 65536 /\ nlen a < 65536 /\
    b = update_sections (encode_nlri_prefixes (u_withdrawn m)) a (encode_nlri_prefixes (u_announced m)).
Proof. exact (encode_update_iff al m b). Qed.
Print Assumptions C19_update_encode.
Theorem C19_refresh_exact s m : bytes_ok s -> (parse_refresh s = Ok m <->
  rf_afi m < 65536 /\ rf_subtype m < 256 /\ rf_safi m < 256 /\ s = be 2 (rf_afi m) ++ [rf_subtype m; rf_safi m] ++ rf_data m).
Proof. exact (refresh_iff s m). Qed.
Print Assumptions C19_refresh_exact.
Theorem C19_notification_exact s m : bytes_ok s -> (parse_notif s = Ok m <->
  exists c u, c < 256 /\ u < 256 /\ nt_error m = error_of c u /\ s = [c; u] ++ nt_data m).
Proof. exact (notif_iff s m). Qed.
Print Assumptions C19_notification_exact.
Definition ex_update := Update
  [Pfx (Net (V4 0x0A000000) 8) None]
  (attrs_of_list [Attr (AOrigin IGP) 0x40; Attr (AAsPath [Seg KSeq [65000; 400000]]) 0x40; Attr (ANextHop (V4 0xC0000201)) 0x40])
  [Pfx (Net (V4 0xC0A80000) 16) None; Pfx (Net (V4 0xCB007100) 24) None].
Definition ex_open := Open 4 65000 180 0x0A000001 false
  [Param 2 (PvCaps [Cap 1 (CvMp AIpv6 SUnicast); Cap 65 (CvAs4 400000); Cap 69 (CvAddPath [ApF AIpv4 SUnicast APBoth]);
                    Cap 64 (CvRestart (Gr true 120 [GrF AIpv4 SUnicast true])); Cap 5 (CvEnh [Enh AIpv4 SUnicast AIpv6]);
                    Cap 9 (CvRole RPeer); Cap 2 CvRefresh; Cap 6 CvExtMsg; Cap 73 (CvRaw [1; 2])]);
   Param 7 (PvRaw [9; 9])].
Lemma ex_raw73 : forall v', cap_code v' = Some 73 -> ~ cap_octets [1; 2] v'.
Proof. intros v' H. destruct v'; discriminate. Qed.
Example C19_ex_ok : message_ok false Bits32 (MUpdate ex_update) /\ message_ok false Bits32 (MOpen ex_open) /\
  message_ok false Bits32 (MNotif (Notif (EUnknown 9 9) [1])) /\ message_ok false Bits32 (MRefresh (Refresh 2 1 128 [7])).
Proof.
  split; [|split; [|split]].
  - split; [|split].
    + split; [|repeat constructor]. repeat split; repeat constructor; intro; discriminate.
    + split; [|repeat constructor]. repeat split; repeat constructor; intro; discriminate.
    + repeat (apply Forall_cons; [unfold attr_ok; cbn [a_flag a_value value_ok ac_asn ac_afi ac_add_path update_cfg];
        (split; [reflexivity|split; [|intros b E; cbn in E; injection E as <-; reflexivity]])|]); [exact I| | |apply Forall_nil].
      * repeat constructor; cbn; lia.
      * split; reflexivity.
  - do 4 (split; [reflexivity|]).
    assert (C : forall c v, c < 256 -> cap_fits v -> cap_code v = Some c -> cap_ok (Cap c v)).
    { intros c v H1 H2 H3. split; auto. split; auto. left. split; auto. apply encode_cap_octets; auto. }
    apply Forall_cons; [|apply Forall_cons; [|apply Forall_nil]].
    + split; [reflexivity|]. split; [reflexivity|].
      repeat (apply Forall_cons; [first [apply C; [reflexivity|cbn; auto; try reflexivity|reflexivity] |
        (split; [reflexivity|]; split; [repeat constructor|]; right; split; [reflexivity|exact ex_raw73])]|]). apply Forall_nil.
    + split; [reflexivity|]. split; [discriminate|repeat constructor].
  - split; [exists 9, 9; repeat split; reflexivity|repeat constructor].
  - repeat split; try reflexivity. repeat constructor.
Qed.
Example C19_ex : exists b m', encode_bgp_message Bits32 (MUpdate ex_update) = Ok b /\ nlen b = 56 /\
  parse_bgp_message false Bits32 (b ++ [1; 2]) = Ok (MUpdate m', [1; 2]) /\ u_announced m' = u_announced ex_update /\
  at_inner (u_attrs m') = at_inner (u_attrs ex_update) /\ at_warnings (u_attrs m') = [].
Proof. do 2 eexists. split; [vm_compute; reflexivity|]. split; [reflexivity|]. split; [vm_compute; reflexivity|]. repeat split. Qed.
(** Finding: an OPEN of more than 4096 octets is written but not read back. *)
Theorem C19_large_open_refuted : exists m b, open_ok m /\ encode_bgp_message Bits32 (MOpen m) = Ok b /\ 4096 < nlen b /\
  exists e, parse_bgp_message false Bits32 b = Err e.
Proof.
  exists (Open 4 65000 180 1 false [Param 7 (PvRaw (repeat 0 4200))]).
  eexists. split; [|split; [vm_compute; reflexivity|split; [vm_compute; reflexivity|eexists; vm_compute; reflexivity]]].
  do 4 (split; [reflexivity|]). apply Forall_cons; [|apply Forall_nil]. split; [reflexivity|]. split; [discriminate|].
  apply bytes_okb_spec. vm_compute. reflexivity.
Qed.
Print Assumptions C19_large_open_refuted.

(** ** C20: OPEN *)
Theorem C20_encode_exact m b : Forall (fun p => op_type p < 256) (o_params m) ->
  (encode_open m = Ok b <->
   exists ps, Forall2 param_item (o_params m) ps /\ Forall (fun p => op_type p <> 255) (o_params m) /\ open_written m ps b).
Proof. exact (encode_open_iff m b). Qed.
Print Assumptions C20_encode_exact.
Theorem C20_roundtrip m b : open_ok m -> encode_open m = Ok b ->
  exists ps, Forall2 param_item (o_params m) ps /\ bytes_ok b /\ parse_open b = Ok (set_extended m (needs_extended m ps)).
Proof. exact (open_roundtrip m b). Qed.
Print Assumptions C20_roundtrip.
Theorem C20_parse_exact s m : bytes_ok s -> (parse_open s = Ok m <->
  o_version m < 256 /\ o_asn m < 65536 /\ o_hold m < 65536 /\ o_id m < 2 ^ 32 /\
  exists opl r, opl < 256 /\ s = open_head m ++ [opl] ++ r /\ open_tail opl r (o_extended m) (o_params m)).
Proof. exact (parse_open_iff s m). Qed.
Print Assumptions C20_parse_exact.
Theorem C20_no_panic s m : parse_open s <> Panic /\ encode_open m <> Panic.
Proof. split; [exact (parse_open_np s)|exact (encode_open_np m)]. Qed.
Print Assumptions C20_no_panic.
(** 255 octets of parameters use the classic format, 256 the extended one. *)
Example C20_ex :
  (exists b, encode_open (Open 4 1 2 3 false [Param 7 (PvRaw (repeat 5 253))]) = Ok b /\
     parse_open b = Ok (Open 4 1 2 3 false [Param 7 (PvRaw (repeat 5 253))])) /\
  (exists b, encode_open (Open 4 1 2 3 false [Param 7 (PvRaw (repeat 5 254))]) = Ok b /\
     parse_open b = Ok (Open 4 1 2 3 true [Param 7 (PvRaw (repeat 5 254))])) /\
  encode_open (Open 4 1 2 3 false [Param 2 (PvCaps [Cap 73 (CvRaw (repeat 0 256))])]) = Err EEncTooLarge /\
  encode_open (Open 4 1 2 3 false [Param 255 (PvRaw [])]) = Err EUnenc.
Proof. split; [|split; [|split; reflexivity]]; eexists; split; vm_compute; reflexivity. Qed.
(** Finding: an AS number above 65535 is cut to its low 16 bits. *)
Theorem C20_asn_truncated_refuted : exists m b m', encode_open m = Ok b /\ parse_open b = Ok m' /\
  o_asn m = 400000 /\ o_asn m' = 6784.
Proof.
  exists (Open 4 400000 180 1 false []). do 2 eexists. split; [reflexivity|]. split; [reflexivity|]. split; reflexivity.
Qed.
Print Assumptions C20_asn_truncated_refuted.
(** Finding: the length of the parameters is not used: parameters beyond it are read. *)
Theorem C20_length_ignored_refuted : exists s m, parse_open s = Ok m /\
  s = be 1 4 ++ be 2 65000 ++ be 2 180 ++ be 4 1 ++ [0] ++ [7; 1; 99] /\ o_params m = [Param 7 (PvRaw [99])].
Proof. do 2 eexists. split; [|split; [reflexivity|]]; reflexivity. Qed.
Print Assumptions C20_length_ignored_refuted.

(** ** C21: error codes *)
Theorem C21_codes_preserved c s : error_codes (error_of c s) = (c, s).
Proof. exact (error_codes_of c s). Qed.
Print Assumptions C21_codes_preserved.
Theorem C21_notification s d m : bytes_ok s -> s = [fst d; snd d] ++ nt_data m ->
  parse_notif s = Ok m -> error_codes (nt_error m) = d /\ encode_notif m = s.
Proof.
  intros Hs E H. apply notif_iff in H as (c & u & Hc & Hu & He & E2); auto. rewrite E in E2. injection E2 as E2 E3.
  unfold encode_notif. rewrite He, error_codes_of. cbn [fst snd]. rewrite !be_1 by auto. destruct d; cbn in *; subst. auto.
Qed.
Print Assumptions C21_notification.
(** The subcodes RFC 4271, 5492, 9234 deprecate: 5 and 8 to 10 of OPEN, 7 of UPDATE. *)
Theorem C21_deprecated n : n < 256 ->
  (open_deprecated (open_error_of n) = true <-> n = 5 \/ n = 8 \/ n = 9 \/ n = 10) /\
  (update_deprecated (update_error_of n) = true <-> n = 7).
Proof.
  intros _. split; code_cases n; cbn; split; intros H; try discriminate; try (repeat destruct H as [H|H]; discriminate); auto;
    exfalso; repeat (destruct H as [H|H]; try discriminate H); discriminate H.
Qed.
Print Assumptions C21_deprecated.
Example C21_ex : error_of 6 9 = ECease CHardReset /\ error_of 6 11 = ECease (CUnknown 11) /\ error_of 200 3 = EUnknown 200 3.
Proof. repeat split. Qed.

(** ** C22: End-of-RIB *)
Theorem C22_exact m : is_end_of_rib m = true <-> u_announced m = [] /\ u_withdrawn m = [] /\
  (at_inner (u_attrs m) = [] \/ exists a n, at_inner (u_attrs m) = [a] /\ a_value a = AMpUnreach n /\ nl_prefixes n = []).
Proof. exact (eor_iff m). Qed.
Print Assumptions C22_exact.
(** The End-of-RIB marker of every family is recognised, and so is that of IPv4 unicast. *)
Theorem C22_markers ap al f a sf : f < 256 -> a <> ALinkState ->
  (exists m, parse_update ap al (update_sections [] [] []) = Ok m /\ is_end_of_rib m = true) /\
  exists m n, parse_update ap al (update_sections [] (attr_wire (RawAttr f 15 (unreach_wire a sf []))) []) = Ok m /\
    at_inner (u_attrs m) = [Attr (AMpUnreach n) f] /\ nl_afi n = a /\ nl_safi n = sf /\ is_end_of_rib m = true.
Proof.
  intros Hf Ha. split; [|exact (eor_family ap al f a sf Hf Ha)].
  eexists. split; [destruct ap, al; vm_compute; reflexivity|destruct ap, al; reflexivity].
Qed.
Print Assumptions C22_markers.
(** Nothing else is, among the messages whose prefixes can be read: both sections are
    empty. *)
Theorem C22_wire ap al s m : bytes_ok s -> parse_update ap al s = Ok m -> is_end_of_rib m = true ->
  exists w a n A, s = update_sections w a n /\ parse_attributes (update_cfg ap al) a = Ok A /\
    (malformed ap w \/ w = []) /\ (malformed ap n \/ n = []) /\
    (at_inner A = [] \/ exists x l, at_inner A = [x] /\ a_value x = AMpUnreach l /\ nl_prefixes l = []).
Proof. exact (eor_wire ap al s m). Qed.
Print Assumptions C22_wire.
(** Finding: an UPDATE whose withdrawn section cannot be read counts as End-of-RIB. *)
Theorem C22_malformed_refuted : exists s m, s = update_sections [77] [] [] /\
  parse_update false Bits32 s = Ok m /\ is_end_of_rib m = true /\ at_warnings (u_attrs m) <> [].
Proof. do 2 eexists. split; [reflexivity|]. split; [vm_compute; reflexivity|]. split; [reflexivity|discriminate]. Qed.
Print Assumptions C22_malformed_refuted.
(** Finding: so does the withdrawal of a BGP-LS node. *)
Theorem C22_link_state_refuted : exists s m n l,
  s = update_sections [] (attr_wire (RawAttr 0x80 15 (unreach_wire ALinkState SLinkState ([0; 1; 0; 9; 2] ++ be 8 7)))) [] /\
  parse_update false Bits32 s = Ok m /\ is_end_of_rib m = true /\
  at_inner (u_attrs m) = [Attr (AMpUnreach n) 0x80] /\ nl_ls n = Some [l].
Proof. do 4 eexists. split; [reflexivity|]. split; [vm_compute; reflexivity|]. repeat split. Qed.
Print Assumptions C22_link_state_refuted.
Example C22_ex : is_end_of_rib ex_update = false. Proof. reflexivity. Qed.

(** ** C45: roles *)
Theorem C45_role_pairs a b : validate_role_pairs a b = true <->
  (a = RProvider /\ b = RCustomer) \/ (a = RCustomer /\ b = RProvider) \/
  (a = RServer /\ b = RServerClient) \/ (a = RServerClient /\ b = RServer) \/ (a = RPeer /\ b = RPeer).
Proof.
  destruct a, b; cbn; split; intros H; try discriminate; auto 7;
    repeat (destruct H as [H|H]; [destruct H; discriminate|]); destruct H; discriminate.
Qed.
Print Assumptions C45_role_pairs.
Theorem C45_symmetric a b : validate_role_pairs a b = validate_role_pairs b a.
Proof. destruct a, b; reflexivity. Qed.
Print Assumptions C45_symmetric.
Theorem C45_role_codes n r : role_of n = Some r <-> n = role_code r.
Proof. exact (role_code_of n r). Qed.
Print Assumptions C45_role_codes.
Example C45_ex : validate_role_pairs RServer RServerClient = true /\ validate_role_pairs RPeer RCustomer = false.
Proof. split; reflexivity. Qed.

(** ** C46: capabilities *)
(** A capability is decoded exactly when its octets are a value of its kind; otherwise -
    wrong length, unknown family or mode - they are kept as they are. *)
Theorem C46_decode c b v : bytes_ok b -> (parse_cap_value c b = Ok v <-> cap_reads c b v).
Proof. exact (parse_cap_iff c b v). Qed.
Print Assumptions C46_decode.
Theorem C46_roundtrip c v : cap_fits v -> cap_code v = Some c -> parse_cap_value c (encode_cap_value v) = Ok v.
Proof.
  intros H1 H2. apply parse_cap_iff; [apply encode_cap_ok; auto|]. left. split; auto. apply encode_cap_octets; auto.
Qed.
Print Assumptions C46_roundtrip.
(** The decoders of the single capabilities, and what they refuse. *)
Theorem C46_decoders s : bytes_ok s ->
  (forall a sf, parse_mp s = Ok (a, sf) <-> exists r, r < 256 /\ s = be 2 (afi_code a) ++ [r; safi_code sf]) /\
  (forall l, parse_enh s = Ok l <-> entries_octets enh_octets s l) /\
  (forall g, parse_restart s = Ok g <-> cap_octets s (CvRestart g)) /\
  (forall l, parse_add_path s = Ok l <-> entries_octets ap_octets s l) /\
  (forall n, parse_as4 s = Ok n <-> n < 2 ^ 32 /\ s = be 4 n) /\
  (forall r, parse_role s = Ok r <-> s = [role_code r]) /\
  (parse_empty s = Ok tt <-> s = []).
Proof.
  intros Hs. split; [intros; apply parse_mp_iff; auto|]. split; [intros; apply parse_enh_iff; auto|].
  split; [intros; apply parse_restart_iff; auto|]. split; [intros; apply parse_add_path_iff; auto|].
  split; [intros; apply parse_as4_iff; auto|]. split; [intros; apply parse_role_iff; auto|apply parse_empty_iff].
Qed.
Print Assumptions C46_decoders.
Theorem C46_no_panic c b : parse_cap_value c b <> Panic /\ parse_mp b <> Panic /\ parse_enh b <> Panic /\
  parse_restart b <> Panic /\ parse_add_path b <> Panic /\ parse_as4 b <> Panic /\ parse_role b <> Panic.
Proof.
  repeat split; [apply parse_cap_np|apply parse_mp_np|apply parse_enh_np|apply parse_restart_np|apply parse_add_path_np|
    apply parse_as4_np|apply parse_role_np].
Qed.
Print Assumptions C46_no_panic.
(** The classes of codes: deprecated, reserved, for experiments; no code is in two of them. *)
Theorem C46_classes c :
  (cap_deprecated c = true <-> In c [4; 66; 128; 129; 130; 131; 184; 185]) /\ (cap_reserved c = true <-> c = 0 \/ c = 255) /\
  (cap_experimental c = true <-> 239 <= c <= 254) /\
  (cap_deprecated c = true -> cap_reserved c = false /\ cap_experimental c = false) /\ (cap_reserved c = true -> cap_experimental c = false).
Proof. unfold cap_deprecated, cap_reserved, cap_experimental. cbn [In]. lia. Qed.
Print Assumptions C46_classes.
Example C46_classes_ex : cap_deprecated 131 = true /\ cap_reserved 255 = true /\ cap_experimental 239 = true /\ cap_deprecated 70 = false.
Proof. repeat split. Qed.
(** Queries on an extended next hop capability. *)
Theorem C46_next_hop_queries l a sf n :
  (enh_supports l a sf n = true <-> In (Enh a sf n) l) /\
  (In (a, sf) (enh_for_nexthop l n) <-> In (Enh a sf n) l).
Proof.
  assert (EA : forall x y, afi_eqb x y = true <-> x = y) by (intros x y; destruct x, y; split; intros; try reflexivity; discriminate).
  assert (ES : forall x y, safi_eqb x y = true <-> x = y) by (intros x y; destruct x, y; split; intros; try reflexivity; discriminate).
  split.
  - unfold enh_supports. rewrite existsb_exists. split.
    + intros (e & He & H). apply andb_prop in H as [H H3]. apply andb_prop in H as [H1 H2].
      apply EA in H1, H3. apply ES in H2. destruct e; cbn in *; subst. auto.
    + intros H. exists (Enh a sf n). split; auto. cbn. rewrite (proj2 (EA a a) eq_refl), (proj2 (ES sf sf) eq_refl), (proj2 (EA n n) eq_refl). reflexivity.
  - unfold enh_for_nexthop. rewrite in_map_iff. split.
    + intros (e & He & H). apply filter_In in H as [H1 H2]. apply EA in H2. destruct e; cbn in *. injection He as -> ->. subst. auto.
    + intros H. exists (Enh a sf n). split; auto. apply filter_In. split; auto. cbn. apply EA. auto.
Qed.
Print Assumptions C46_next_hop_queries.
Example C46_ex : parse_cap_value 64 [0x80; 120; 0; 1; 1; 0x80] = Ok (CvRestart (Gr true 120 [GrF AIpv4 SUnicast true])) /\
  parse_cap_value 64 [0x80; 120; 0; 1; 1] = Ok (CvRaw [0x80; 120; 0; 1; 1]) /\
  parse_cap_value 69 [0; 1; 1; 4] = Ok (CvRaw [0; 1; 1; 4]) /\ parse_cap_value 2 [0] = Ok (CvRaw [0]).
Proof. repeat split. Qed.
(** Finding: the upper octet of the SAFI of an extended next hop entry is ignored. *)
Theorem C46_enh_safi_refuted : exists s, s = [0; 1] ++ [3; 1] ++ [0; 2] /\
  parse_enh s = Ok [Enh AIpv4 SUnicast AIpv6] /\ encode_enh [Enh AIpv4 SUnicast AIpv6] <> s.
Proof. eexists. split; [reflexivity|]. split; [reflexivity|discriminate]. Qed.
Print Assumptions C46_enh_safi_refuted.
(** Finding: a restart time above 4095 is cut, and hence read back differently. *)
Theorem C46_restart_time_refuted : exists g, gr_time g = 4096 /\ gr_time g < 65536 /\
  parse_restart (encode_restart g) = Ok (Gr (gr_state g) 0 (gr_families g)).
Proof. exists (Gr false 4096 []). repeat split. Qed.
Print Assumptions C46_restart_time_refuted.

(** ** C52: UPDATE sections *)
(** An UPDATE is accepted exactly when the two lengths fit and the attribute block is
    accepted; prefixes that cannot be read never refuse it. *)
Theorem C52_accepted ap al s : bytes_ok s ->
  ((exists m, parse_update ap al s = Ok m) <->
   exists w a n A, s = update_sections w a n /\ nlen w < 65536 /\ nlen a < 65536 /\
     parse_attributes (update_cfg ap al) a = Ok A).
Proof.
  intros Hs. split.
  - intros (m & H). destruct (parse_update_inv _ _ _ _ Hs H) as (w & a & n & A & H1 & H2 & H3 & H4 & _). eauto 10.
  - intros (w & a & n & A & -> & H1 & H2 & H3). destruct (parse_update_ok ap al w a n A H1 H2 H3) as (m & H4 & _). eauto.
Qed.
Print Assumptions C52_accepted.
Theorem C52_reported ap al w a n A m : nlen w < 65536 -> nlen a < 65536 -> parse_attributes (update_cfg ap al) a = Ok A ->
  parse_update ap al (update_sections w a n) = Ok m -> update_reads ap A w n m.
Proof.
  intros H1 H2 H3 H. destruct (parse_update_ok ap al w a n A H1 H2 H3) as (m' & H4 & H5). congruence.
Qed.
Print Assumptions C52_reported.
Theorem C52_no_panic ap al s : parse_update ap al s <> Panic.
Proof. exact (parse_update_np ap al s). Qed.
Print Assumptions C52_no_panic.
Example C52_ex : exists m, parse_update false Bits32 (update_sections [77] [] [8; 10]) = Ok m /\
  u_withdrawn m = [] /\ u_announced m = [Pfx (Net (V4 0x0A000000) 8) None] /\
  at_warnings (u_attrs m) = [WMissing 1; WMissing 2; WMissing 3; WMalformedNlri false EParse [77]].
Proof. eexists. split; [vm_compute; reflexivity|]. repeat split. Qed.
(** The warnings of a ROUTE-REFRESH (RFC 7313): subtypes other than 0, 1, 2, and extra
    octets with subtype 1 or 2. *)
Theorem C52_refresh_warnings m : rf_subtype m < 256 ->
  refresh_warnings m =
    if rf_subtype m =? 0 then []
    else if rf_subtype m <=? 2 then (if nlen (rf_data m) =? 0 then [] else [WRefreshLength (rf_subtype m) (4 + nlen (rf_data m))])
    else [WRefreshSubtype (rf_subtype m)].
Proof.
  intros _. unfold refresh_warnings. destruct m as [a t sf d]. cbn [rf_subtype rf_data]. code_cases t; try reflexivity;
    destruct d; reflexivity.
Qed.
Print Assumptions C52_refresh_warnings.
Example C52_ex_refresh : refresh_warnings (Refresh 1 1 1 [0; 0]) = [WRefreshLength 1 6] /\
  refresh_afi (Refresh 1 1 1 []) = Some AIpv4 /\ refresh_safi (Refresh 1 1 7 []) = None.
Proof. repeat split. Qed.
