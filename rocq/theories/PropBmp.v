(** C42, C67-C69: BMP. *)
From Coq Require Import Lia Floats.SpecFloat.
From Verif Require Import Base BaseFacts Reader ReaderFacts Net NetSpec AsPath Attr BgpMsg MsgSpec MsgFacts PropMsg Bgp4mp Bgp4mpSpec Utf8 TableDump Stream Framing FramingFacts MrtRecord MrtRecordSpec MrtRecordFacts Elem
  Bmp BmpSpec BmpFacts F64Real.

(** ** C42: one message is one frame ([bmp_frame], in BmpSpec: version 3, the length of the
    whole, the type, the content), and nothing of what comes after it matters or is taken,
    whether the content can be read or not. *)
Theorem C42_frame t c : t <= 6 -> 6 + nlen c < 2 ^ 32 ->
  exists o, forall rest, parse_bmp_msg (bmp_frame t c ++ rest) = (o, rest).
Proof. intros T L. eexists. intros rest. apply msg_frame; auto. Qed.
Print Assumptions C42_frame.
(** A buffer is either a frame and a rest, or refused, and then at most the six octets of the
    header are taken from it. *)
Theorem C42_only_frames s : bytes_ok s ->
  (exists t c r, t <= 6 /\ 6 + nlen c < 2 ^ 32 /\ s = bmp_frame t c ++ r) \/
  (exists e r z, parse_bmp_msg s = (Err e, r) /\ s = z ++ r /\ nlen z <= 6).
Proof. exact (msg_cases s). Qed.
Print Assumptions C42_only_frames.
Theorem C42_short v n t s : n < 2 ^ 32 -> v < 256 -> t < 256 ->
  v <> 3 \/ 6 < t \/ n < 6 \/ nlen s < n - 6 -> exists e r, parse_bmp_msg ([v] ++ be 4 n ++ [t] ++ s) = (Err e, r).
Proof.
  intros B V T H. cbn [app]. unfold parse_bmp_msg, parse_bmp_common_header, sbind, prim, sret. rewrite read_u8_cons.
  destruct (N.eqb_spec v 3) as [->|Nv]; cbn [negb]; [|eauto]. rewrite read_u32_be by exact B. rewrite read_u8_cons.
  destruct (N.ltb_spec 6 t); [eauto|]. cbn [bh_len]. destruct (N.ltb_spec n 6); [eauto|]. rewrite has_n_short by lia. eauto.
Qed.
Print Assumptions C42_short.
(** Whoever goes on reading where the previous message ended ([read_all]) gets the messages
    one by one, unreadable ones included: each outcome is that of the message alone. *)
Theorem C42_stream (l : list (N * bytes)) fuel : Forall (fun x => fst x <= 6 /\ 6 + nlen (snd x) < 2 ^ 32) l -> (length l <= fuel)%nat ->
  read_all fuel (concat (map (fun x => bmp_frame (fst x) (snd x)) l)) =
  map (fun x => fst (parse_bmp_msg (bmp_frame (fst x) (snd x)))) l.
Proof.
  intros F L. rewrite frames_all by auto. apply map_ext_in. intros [t c] I. rewrite Forall_forall in F. specialize (F _ I) as [T B]. cbn [fst snd] in *.
  rewrite <- (app_nil_r (bmp_frame t c)). rewrite msg_frame by auto. reflexivity.
Qed.
Print Assumptions C42_stream.
Theorem C42_no_panic s : bytes_ok s -> fst (parse_bmp_msg s) <> Panic /\ parse_openbmp_msg s <> Panic.
Proof. intros H. split; [apply msg_np; auto|apply openbmp_np; auto]. Qed.
Print Assumptions C42_no_panic.
Definition ex_peer_octets : bytes := [0; 0] ++ be 8 7 ++ repeat 0 12 ++ be 4 0xC0000201 ++ be 4 65000 ++ be 4 9 ++ be 4 1700000000 ++ be 4 500000.
Definition ex_wire : bytes := match encode_bgp_message Bits32 (MUpdate ex_update) with Ok b => b | _ => [] end.
Example C42_ex : exists a b c, read_all 9 (bmp_frame 0 (ex_peer_octets ++ ex_wire) ++ bmp_frame 2 [9] ++ bmp_frame 4 (be 2 2 ++ be 2 2 ++ [82; 49])) = [a; b; c] /\
  (exists m, a = Ok m /\ option_map pp_ip (bm_peer m) = Some (V4 0xC0000201)) /\ (exists e, b = Err e) /\
  exists h, c = Ok (BmpMsg h None (BInitiation [BmpTlv 2 2 [82; 49]])).
Proof.
  do 3 eexists. split; [vm_compute; reflexivity|]. split; [eexists; split; [reflexivity|vm_compute; reflexivity]|]. split; [eexists; reflexivity|]. eexists. reflexivity.
Qed.

(** ** C67: the content is read by its layout: a message is accepted exactly when its content
    is a per-peer header and a content of its type, with these values.  [bmp_content] is
    in BmpSpec. *)
Theorem C67_content t c rest m : bytes_ok c -> t <= 6 -> 6 + nlen c < 2 ^ 32 ->
  (parse_bmp_msg (bmp_frame t c ++ rest) = (Ok m, rest) <->
   bm_header m = BmpHdr 3 (6 + nlen c) t /\ bmp_content t c (bm_peer m) (bm_body m)).
Proof.
  intros Hc T L. rewrite msg_frame by auto. pose proof (body_iff (BmpHdr 3 (6 + nlen c) t) c m Hc T) as B. rewrite <- B. split; [congruence|intros ->; reflexivity].
Qed.
Print Assumptions C67_content.
(** The per-peer header: exactly the 42 octets of its layout are taken. *)
Theorem C67_peer s h r : bytes_ok s -> (parse_per_peer_header s = Ok (h, r) <-> exists w, s = w ++ r /\ per_peer_octets w h).
Proof. exact (per_peer_reads s h r). Qed.
Print Assumptions C67_peer.
Theorem C67_peer_size w h : per_peer_octets w h -> length w = 42%nat.
Proof. exact (per_peer_len w h). Qed.
Print Assumptions C67_peer_size.
(** An initiation message is never refused. *)
Theorem C67_initiation c rest : bytes_ok c -> 6 + nlen c < 2 ^ 32 -> exists l, parse_bmp_msg (bmp_frame 4 c ++ rest) =
  (Ok (BmpMsg (BmpHdr 3 (6 + nlen c) 4) None (BInitiation l)), rest) /\ init_octets c l.
Proof.
  intros Hc L. destruct (init_ok (S (length c)) c Hc) as (l & E & I); [lia|]. exists l. split; auto. rewrite msg_frame by (auto; lia).
  unfold parse_bmp_body. cbn [bh_type]. unfold parse_initiation. rewrite E. reflexivity.
Qed.
Print Assumptions C67_initiation.
(** Two headers of the same session differ only in their time. *)
Theorem C67_session h h' : strip_timestamp h = strip_timestamp h' <->
  pp_type h = pp_type h' /\ pp_flags h = pp_flags h' /\ pp_dist h = pp_dist h' /\ pp_ip h = pp_ip h' /\ pp_asn h = pp_asn h' /\ pp_id h = pp_id h'.
Proof. unfold strip_timestamp. split; [intros E; injection E; auto 10|]. intros (-> & -> & -> & -> & -> & ->). reflexivity. Qed.
Print Assumptions C67_session.
Example C67_ex : exists h m, bmp_content 0 (ex_peer_octets ++ ex_wire) (Some h) (BMonitoring m) /\ pp_asn h = 65000 /\ pp_time h = bmp_time 1700000000 500000 /\
  exists u, m = MUpdate u /\ u_announced u = u_announced ex_update.
Proof.
  assert (C : exists h m, parse_bmp_body (BmpHdr 3 (6 + nlen (ex_peer_octets ++ ex_wire)) 0) (ex_peer_octets ++ ex_wire) = Ok (BmpMsg (BmpHdr 3 (6 + nlen (ex_peer_octets ++ ex_wire)) 0) (Some h) (BMonitoring (MUpdate m))) /\
    pp_asn h = 65000 /\ pp_time h = bmp_time 1700000000 500000 /\ u_announced m = u_announced ex_update).
  { do 2 eexists. split; [vm_compute; reflexivity|]. repeat split; vm_compute; reflexivity. }
  destruct C as (h & u & C & A & T & U). exists h, (MUpdate u). split; [|eauto]. apply body_iff in C; [|apply bytes_okb_spec; vm_compute; reflexivity|cbn; lia]. exact (proj2 C).
Qed.
(** Finding: an empty TLV at the very end of an initiation or termination is dropped. *)
Theorem C67_last_empty_refuted : exists h m, parse_bmp_msg (bmp_frame 4 (be 2 1 ++ be 2 0)) = (Ok (BmpMsg h None (BInitiation m)), []) /\ m = [].
Proof. do 2 eexists. split; [vm_compute; reflexivity|reflexivity]. Qed.
Print Assumptions C67_last_empty_refuted.
(** Finding: the length of a termination reason is not used: with a length of 4 its last two
    octets are taken for the next TLV. *)
Theorem C67_reason_length_refuted : exists e, fst (parse_bmp_msg (bmp_frame 5 (be 2 1 ++ be 2 4 ++ be 2 1 ++ be 2 9 ++ be 2 0 ++ be 2 1 ++ [65]))) = Err e.
Proof. eexists. vm_compute. reflexivity. Qed.
Print Assumptions C67_reason_length_refuted.
(** Finding: the same holds for the information of a route mirroring message: a correct
    second TLV after an information of four octets is refused. *)
Theorem C67_mirror_length_refuted : exists e, fst (parse_bmp_msg (bmp_frame 6 (ex_peer_octets ++ be 2 1 ++ be 2 4 ++ be 2 1 ++ be 2 9 ++ be 2 1 ++ be 2 2 ++ be 2 0))) = Err e.
Proof. eexists. vm_compute. reflexivity. Qed.
Print Assumptions C67_mirror_length_refuted.
(** Finding: a peer up for a local RIB cannot be told from one of an IPv4 session, and the
    address of a local RIB header is lost. *)
Theorem C67_local_rib_refuted : exists a b h, a <> b /\ length a = 42%nat /\ length b = 42%nat /\
  parse_per_peer_header a = Ok (h, []) /\ parse_per_peer_header b = Ok (h, []) /\ pp_ip h = V4 0.
Proof.
  exists ([3; 0] ++ be 8 7 ++ be 16 1 ++ be 4 65000 ++ be 4 9 ++ be 4 1 ++ be 4 0), ([3; 0] ++ be 8 7 ++ be 16 2 ++ be 4 65000 ++ be 4 9 ++ be 4 1 ++ be 4 0). eexists.
  split; [vm_compute; discriminate|]. split; [reflexivity|]. split; [reflexivity|]. split; [vm_compute; reflexivity|]. split; vm_compute; reflexivity.
Qed.
Print Assumptions C67_local_rib_refuted.

(** ** C68: the OpenBMP header before a message is taken exactly, with these values
    ([openbmp_octets] in BmpSpec), and the message after it is read as it would be alone. *)
Theorem C68_header s h r : bytes_ok s -> (parse_openbmp_header s = Ok (h, r) <-> exists w, s = w ++ r /\ openbmp_octets w h).
Proof. exact (openbmp_reads s h r). Qed.
Print Assumptions C68_header.
Theorem C68_message w h s : bytes_ok (w ++ s) -> openbmp_octets w h -> parse_openbmp_msg (w ++ s) = fst (parse_bmp_msg s).
Proof. intros B W. unfold parse_openbmp_msg. assert (E : parse_openbmp_header (w ++ s) = Ok (h, s)) by (apply openbmp_reads; eauto). rewrite E. reflexivity. Qed.
Print Assumptions C68_message.
Theorem C68_refused s : bytes_ok s -> (forall w r h, s = w ++ r -> ~ openbmp_octets w h) -> exists e, parse_openbmp_msg s = Err e.
Proof.
  intros B N. unfold parse_openbmp_msg. destruct (parse_openbmp_header s) as [[h r]|e|] eqn:E; cbn [rbind]; [|eauto|].
  - apply openbmp_reads in E as (w & E & W); auto. exfalso. exact (N w r h E W).
  - exfalso. exact (npp_openbmp s E).
Qed.
Print Assumptions C68_refused.
Example C68_ex : exists h m, let w := [79; 66; 77; 80; 1; 7] ++ be 2 95 ++ be 4 100 ++ [128; 12] ++ be 4 1 ++ be 4 2 ++ repeat 0 16 ++ be 2 2 ++ [99; 49] ++ repeat 0 16 ++ be 4 0xC0000201 ++ repeat 0 12 ++ be 2 0 ++ be 4 1 in
  openbmp_octets w h /\ ob_router h = V4 0xC0000201 /\ ob_admin h = [99; 49] /\
  parse_openbmp_msg (w ++ bmp_frame 2 (ex_peer_octets ++ [4])) = Ok m /\ bm_body m = BPeerDown (PeerDown 4 None).
Proof.
  cbv zeta. set (w := _ ++ _). assert (E : exists h, parse_openbmp_header w = Ok (h, []) /\ ob_router h = V4 0xC0000201 /\ ob_admin h = [99; 49]) by (eexists; split; [vm_compute; reflexivity|split; reflexivity]).
  destruct E as (h & E & R & A). exists h. eexists. split; [|split; [exact R|split; [exact A|split; [vm_compute; reflexivity|reflexivity]]]].
  apply openbmp_reads in E as (w' & Ew & W); [|apply bytes_okb_spec; vm_compute; reflexivity]. rewrite app_nil_r in Ew. subst w'. exact W.
Qed.

(** ** C69: a route monitoring message converts to a BGP4MP_ET record of the same peer, AS
    number and BGP message at the same time, with an AS number and address of zero for
    the collector; nothing else converts. *)
Definition zero_like (i : ip) : ip := match i with V4 _ => V4 0 | V6 _ => V6 0 end.
Theorem C69_converts b r : mrt_of_bmp b = Ok r <-> exists p m e, bm_peer b = Some p /\ bm_body b = BMonitoring m /\
  let msg := MrtBgp4mp (MpMessage (MpMsg 4 (pp_asn p) 0 0 (pp_ip p) (zero_like (pp_ip p)) m)) in
  encode_mrt_message 4 msg = Ok e /\
  r = MrtRecord (Hdr (fst (convert_timestamp (pp_time p))) (Some (snd (convert_timestamp (pp_time p)))) 17 4 (u32 (nlen e))) msg.
Proof.
  unfold mrt_of_bmp. cbv zeta. split.
  - intros H. destruct (bm_body b) as [|?|?|?|m|?|?] eqn:Eb; try discriminate. destruct (bm_peer b) as [p|] eqn:Ep; [|discriminate].
    destruct (convert_timestamp (pp_time p)) as [s us] eqn:Et. apply rbind_inv in H as (e & E & H). injection H as <-. exists p, m, e. rewrite Et. repeat split; auto.
  - intros (p & m & e & Ep & Eb & E & ->). rewrite Eb, Ep. destruct (convert_timestamp (pp_time p)) as [s us]. unfold zero_like in E. rewrite E. reflexivity.
Qed.
Print Assumptions C69_converts.
Theorem C69_refused b : (forall p m, bm_peer b = Some p -> bm_body b = BMonitoring m -> exists e, encode_bgp_message Bits32 m = Err e) ->
  exists e, mrt_of_bmp b = Err e.
Proof.
  intros N. unfold mrt_of_bmp. destruct (bm_body b) as [|?|?|?|m|?|?] eqn:Eb; eauto. destruct (bm_peer b) as [p|] eqn:Ep; eauto. destruct (convert_timestamp (pp_time p)) as [s us].
  destruct (N p m eq_refl eq_refl) as (e & E). cbn [encode_mrt_message]. unfold encode_bgp4mp, encode_mp_message. cbn. rewrite E. cbn. eauto.
Qed.
Print Assumptions C69_refused.
(** With a valid time in the header, the seconds are those of the header and the microseconds
    too, or one less. *)
Theorem C69_time s us : s < 2 ^ 32 -> us < 1000000 ->
  convert_timestamp (bmp_time s us) = (s, us) \/ 0 < us /\ convert_timestamp (bmp_time s us) = (s, us - 1).
Proof. exact (convert_time s us). Qed.
Print Assumptions C69_time.
(** The record survives encoding and parsing. *)
Theorem C69_survives b r x rest st : mrt_of_bmp b = Ok r -> (forall p, bm_peer b = Some p -> pp_asn p < 2 ^ 32 /\ ip_ok (pp_ip p)) ->
  (forall m, bm_body b = BMonitoring m -> message_ok false Bits32 m /\ exists u, m = MUpdate u) ->
  encode_mrt_record r = Ok x -> nlen x <= 16 + 16777216 -> no_fail st -> sbytes st = x ++ rest ->
  exists r' z st', parse_mrt_record_s st = RRec r' z st' /\ sbytes st' = rest /\ same_record r r'.
Proof.
  intros H P M E L NF S. apply C69_converts in H as (p & m & e & Ep & Eb & Ee & ->). destruct (P p Ep) as [A I]. destruct (M m Eb) as [Mo (u & ->)].
  match type of E with encode_mrt_record ?r = _ => destruct (record_roundtrip r x rest st) as (r' & z & st' & R & Sb & _ & SR & _); [|exact E|exact NF|exact S|exact L|exists r', z, st'; auto] end.
  assert (T : fst (convert_timestamp (pp_time p)) < 2 ^ 32 /\ snd (convert_timestamp (pp_time p)) < 2 ^ 32).
  { unfold convert_timestamp, f64_to_u32. cbn [fst snd]. lia. }
  split; [split; [exact (proj1 T)|split; [reflexivity|split; [reflexivity|exact (proj2 T)]]]|].
  split; [right; reflexivity|]. split; [reflexivity|]. split; [|intros X; discriminate X].
  exists Bits32, false. split; [left; reflexivity|]. split; [|exact Mo]. cbn. repeat split; auto; destruct (pp_ip p); cbn in *; auto; reflexivity.
Qed.
Print Assumptions C69_survives.
Definition ex_monitoring : bmp_msg := BmpMsg (BmpHdr 3 0 0) (Some (PerPeer 0 (PeerFlags 0) 7 (V4 0xC0000201) 65000 9 (bmp_time 1700000000 500000))) (BMonitoring (MUpdate ex_update)).
Example C69_ex : exists r x r' z st', mrt_of_bmp ex_monitoring = Ok r /\ h_ts (mr_hdr r) = 1700000000 /\ h_us (mr_hdr r) = Some 500000 /\
  encode_mrt_record r = Ok x /\ parse_mrt_record_s [Data x] = RRec r' z st' /\ message_ok false Bits32 (MUpdate ex_update) /\
  exists m, mr_msg r' = MrtBgp4mp (MpMessage m) /\ mm_peer_as m = 65000 /\ mm_peer m = V4 0xC0000201.
Proof.
  do 5 eexists. split; [vm_compute; reflexivity|]. split; [reflexivity|]. split; [reflexivity|]. split; [vm_compute; reflexivity|]. split; [vm_compute; reflexivity|].
  split; [exact (proj1 C19_ex_ok)|]. eexists. repeat split.
Qed.
(** Finding: the microseconds are truncated, not rounded: one may be lost. *)
Theorem C69_microsecond_refuted : exists s us, s < 2 ^ 32 /\ us < 1000000 /\ convert_timestamp (bmp_time s us) = (s, us - 1) /\ 0 < us.
Proof. exists 1, 1. repeat split; vm_compute; reflexivity. Qed.
Print Assumptions C69_microsecond_refuted.
