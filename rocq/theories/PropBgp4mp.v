(** C23-C25: BGP4MP and deprecated type-5 records. *)
From Coq Require Import Lia.
From Verif Require Import Base BaseFacts Reader Net NetSpec NetFacts AsPath AsPathSpec Nlri NlriSpec Attr AttrSpec AttrFacts
  BgpError BgpMsg MsgSpec MsgFacts Bgp4mp Bgp4mpSpec Bgp4mpFacts.

(** ** C23: message records. *)
Theorem C23_roundtrip sub al ap m b : message_subtype sub al ap -> mm_type m = sub -> mp_message_ok ap al m ->
  encode_bgp4mp sub (MpMessage m) = Ok b -> (msg_type (mm_bgp m) = 1 -> nlen b <= 4096) ->
  exists m', parse_bgp4mp sub b = Ok (MpMessage m') /\ same_mp_message m m'.
Proof.
  intros Hs Ht Hm E Ho. destruct (bgp4mp_message_sub sub al ap b Hs) as [P C]. rewrite C in E.
  destruct (mp_message_roundtrip ap al m b Hm E Ho) as (m' & R & S). exists m'. split; auto.
  rewrite P, <- Ht, R. reflexivity.
Qed.
Print Assumptions C23_roundtrip.
(** A record encodes exactly when its message does, to the envelope and that message. *)
Theorem C23_encode_exact sub al ap m b : message_subtype sub al ap ->
  (encode_bgp4mp sub (MpMessage m) = Ok b <-> exists x, encode_bgp_message al (mm_bgp m) = Ok x /\
    b = envelope al (mm_peer_as m) (mm_local_as m) (mm_ifindex m) (mm_peer m) (mm_local m) ++ x).
Proof. intros Hs. rewrite (proj2 (bgp4mp_message_sub sub al ap [] Hs)). apply encode_mp_message_eq. Qed.
Print Assumptions C23_encode_exact.
(** What is accepted: an envelope with addresses of one family and a message, or the
    truncated OPEN of old Zebra, which no envelope looks like. *)
Theorem C23_parse_exact sub al ap s m : message_subtype sub al ap -> bytes_ok s ->
  (parse_bgp4mp sub s = Ok (MpMessage m) <->
   mm_type m = sub /\
   ((al = Bits16 /\ zebra_open s /\ mm_ifindex m = 0 /\ mm_peer m = V4 0 /\ mm_local m = V4 0 /\
     exists body r, s = be 2 (mm_peer_as m) ++ be 2 (mm_local_as m) ++ body /\
       mm_peer_as m < 2 ^ 16 /\ mm_local_as m < 2 ^ 16 /\ parse_bgp_message ap al body = Ok (mm_bgp m, r)) \/
    (envelope_ok al (mm_peer_as m) (mm_local_as m) (mm_ifindex m) (mm_peer m) (mm_local m) /\
     exists body r, s = envelope al (mm_peer_as m) (mm_local_as m) (mm_ifindex m) (mm_peer m) (mm_local m) ++ body /\
       parse_bgp_message ap al body = Ok (mm_bgp m, r)))).
Proof.
  intros Hsub Hs. rewrite (proj1 (bgp4mp_message_sub sub al ap s Hsub)). rewrite <- (mp_message_iff ap al sub s m Hs).
  split; intros H.
  - apply rbind_inv in H as (x & E & H). assert (x = m) by congruence. subst. exact E.
  - rewrite H. reflexivity.
Qed.
Print Assumptions C23_parse_exact.
Theorem C23_zebra_distinct al pa la i p l body : al = Bits16 -> ~ zebra_open (envelope al pa la i p l ++ body).
Proof. intros ->. intros Z. apply short_open_iff in Z. rewrite envelope_not_zebra in Z. discriminate. Qed.
Print Assumptions C23_zebra_distinct.
(** Subtypes outside RFC 6396 and RFC 8050 are refused both ways; nothing panics. *)
Theorem C23_unknown_subtype sub s m : (forall al, ~ state_subtype sub al) -> (forall al ap, ~ message_subtype sub al ap) ->
  parse_bgp4mp sub s = Err EParse /\ encode_bgp4mp sub m = Err EUnenc.
Proof. intros H1 H2. destruct (bgp4mp_unknown sub s H1 H2) as [A B]. auto. Qed.
Print Assumptions C23_unknown_subtype.
Theorem C23_no_panic sub s : parse_bgp4mp sub s <> Panic.
Proof. exact (bgp4mp_np sub s). Qed.
Print Assumptions C23_no_panic.
Definition ex_mp : mp_message := MpMsg 9 400000 65000 3 (V6 1) (V6 2) (MUpdate (Update [Pfx (Net (V4 0x0A000000) 8) (Some 7)] (attrs_of_list [Attr (AOrigin IGP) 0x40]) [])).
Example C23_ex : message_subtype 9 Bits32 true /\ exists b, encode_bgp4mp 9 (MpMessage ex_mp) = Ok b /\ nlen b = 77 /\
  exists m', parse_bgp4mp 9 b = Ok (MpMessage m') /\ same_mp_message ex_mp m'.
Proof. split; [left; reflexivity|]. eexists. split; [vm_compute; reflexivity|]. split; [reflexivity|].
  eexists. split; [vm_compute; reflexivity|]. repeat split. Qed.
Example C23_ex_zebra : zebra_open ([0; 1; 0; 2] ++ repeat 255 16 ++ [0; 29; 1; 4; 0; 1; 0; 180; 1; 2; 3; 4; 0]) /\
  exists m, parse_bgp4mp 1 ([0; 1; 0; 2] ++ repeat 255 16 ++ [0; 29; 1; 4; 0; 1; 0; 180; 1; 2; 3; 4; 0]) = Ok (MpMessage m) /\
    mm_peer_as m = 1 /\ mm_local_as m = 2 /\ msg_type (mm_bgp m) = 1.
Proof.
  split; [exists [0; 1; 0; 2], [0; 29]; eexists; split; [reflexivity|split; reflexivity]|].
  eexists. split; [|split; [|split]]; vm_compute; reflexivity.
Qed.
(** Finding: a 2-octet subtype cuts 4-octet AS numbers without an error. *)
Theorem C23_asn_truncated_refuted : exists m b m', encode_bgp4mp 1 (MpMessage m) = Ok b /\
  parse_bgp4mp 1 b = Ok (MpMessage m') /\ mm_peer_as m = 400000 /\ mm_peer_as m' = 6784.
Proof.
  exists (MpMsg 1 400000 1 0 (V4 1) (V4 2) MKeepAlive). do 2 eexists.
  split; [vm_compute; reflexivity|]. split; [vm_compute; reflexivity|]. split; reflexivity.
Qed.
Print Assumptions C23_asn_truncated_refuted.
(** Finding: peer and local addresses of different families encode, but not to a record
    that can be parsed. *)
Theorem C23_mixed_families_refuted : exists m b, encode_bgp4mp 4 (MpMessage m) = Ok b /\
  parse_bgp4mp 4 b = Err EParse.
Proof. exists (MpMsg 4 1 2 0 (V4 1) (V6 2) MKeepAlive). eexists. split; vm_compute; reflexivity. Qed.
Print Assumptions C23_mixed_families_refuted.
(** Finding: octets after the message are dropped. *)
Theorem C23_trailing_refuted : exists m b x, encode_bgp4mp 4 (MpMessage m) = Ok b /\ x <> [] /\
  parse_bgp4mp 4 (b ++ x) = Ok (MpMessage m).
Proof.
  exists (MpMsg 4 1 2 0 (V4 1) (V4 2) MKeepAlive). eexists. exists [1]. split; [vm_compute; reflexivity|].
  split; [discriminate|vm_compute; reflexivity].
Qed.
Print Assumptions C23_trailing_refuted.

(** ** C24: state changes. *)
Theorem C24_roundtrip sub al m : state_subtype sub al -> ms_type m = sub -> mp_state_ok al m ->
  exists b, encode_bgp4mp sub (MpStateChange m) = Ok b /\ parse_bgp4mp sub b = Ok (MpStateChange m).
Proof.
  intros Hs Ht Hm. eexists. split; [rewrite (proj2 (bgp4mp_state_sub sub al [] Hs)); reflexivity|].
  rewrite (proj1 (bgp4mp_state_sub sub al _ Hs)), encode_mp_state_eq. rewrite <- (app_nil_r (be 2 (state_code (ms_new m)))).
  rewrite mp_state_eq by exact Hm. subst sub. destruct m; reflexivity.
Qed.
Print Assumptions C24_roundtrip.
(** What is accepted: two states after an envelope, or the eight octets of old Zebra. *)
Theorem C24_parse_exact sub al s m : state_subtype sub al -> bytes_ok s ->
  (parse_bgp4mp sub s = Ok (MpStateChange m) <->
   ms_type m = sub /\
   ((al = Bits16 /\ ms_ifindex m = 0 /\ ms_peer m = V4 0 /\ ms_local m = V4 0 /\ ms_peer_as m < 2 ^ 16 /\ ms_local_as m < 2 ^ 16 /\
     s = be 2 (ms_peer_as m) ++ be 2 (ms_local_as m) ++ be 2 (state_code (ms_old m)) ++ be 2 (state_code (ms_new m))) \/
    (envelope_ok al (ms_peer_as m) (ms_local_as m) (ms_ifindex m) (ms_peer m) (ms_local m) /\
     exists r, s = envelope al (ms_peer_as m) (ms_local_as m) (ms_ifindex m) (ms_peer m) (ms_local m) ++
       be 2 (state_code (ms_old m)) ++ be 2 (state_code (ms_new m)) ++ r))).
Proof.
  intros Hsub Hs. rewrite (proj1 (bgp4mp_state_sub sub al s Hsub)). rewrite <- (mp_state_iff al sub s m Hs).
  split; intros H.
  - apply rbind_inv in H as (x & E & H). assert (x = m) by congruence. subst. exact E.
  - rewrite H. reflexivity.
Qed.
Print Assumptions C24_parse_exact.
(** The states are exactly the codes 1 to 8: anything else is refused. *)
Theorem C24_states : (forall s, 1 <= state_code s <= 8) /\ (forall s t, state_code s = state_code t -> s = t) /\
  (forall n, 1 <= n <= 8 -> exists s, state_code s = n) /\
  forall al t pa la i p l o n r, envelope_ok al pa la i p l -> o < 2 ^ 16 -> n < 2 ^ 16 ->
    ~ (1 <= o <= 8 /\ 1 <= n <= 8) -> parse_mp_state_change al t (envelope al pa la i p l ++ be 2 o ++ be 2 n ++ r) = Err EParse.
Proof.
  split; [intros []; cbn; lia|]. split; [intros [] [] E; first [reflexivity|discriminate]|].
  split; [intros n H; destruct (proj2 (state_known n) H) as [s E]; exists s; symmetry; apply state_code_of; exact E|].
  intros al t pa la i p l o n r He Ho Hn H. exact (mp_state_bad al t pa la i p l o n r He Ho Hn H).
Qed.
Print Assumptions C24_states.
(** The short form is taken for the eight octets no normal record fits in, and reported
    exactly when it is used. *)
Theorem C24_zebra_exact sub s : uses_zebra_compat sub s = true <->
  (sub = 0 /\ nlen s = 8) \/ ((sub = 1 \/ sub = 6 \/ sub = 8 \/ sub = 10) /\ zebra_open s).
Proof. exact (zebra_compat_iff sub s). Qed.
Print Assumptions C24_zebra_exact.
Theorem C24_normal_longer al pa la i p l r : 8 < nlen (envelope al pa la i p l ++ r).
Proof. rewrite nlen_app, envelope_len. unfold nlen at 1. rewrite octets_length. destruct al, p; cbn [asn_width]; lia. Qed.
Print Assumptions C24_normal_longer.
Example C24_ex :
  (exists b, encode_bgp4mp 5 (MpStateChange (MpState 5 400000 2 3 (V6 4) (V6 5) StActive StDeleted)) = Ok b /\
   parse_bgp4mp 5 b = Ok (MpStateChange (MpState 5 400000 2 3 (V6 4) (V6 5) StActive StDeleted))) /\
  parse_bgp4mp 0 [0; 1; 0; 2; 0; 3; 0; 6] = Ok (MpStateChange (MpState 0 1 2 0 (V4 0) (V4 0) StActive StEstablished)) /\
  parse_bgp4mp 0 [0; 1; 0; 2; 0; 3; 0; 9] = Err EParse.
Proof. split; [eexists; split; vm_compute; reflexivity|]. split; vm_compute; reflexivity. Qed.
(** Finding: octets after the two states are ignored. *)
Theorem C24_trailing_refuted : exists m x, x <> [] /\
  parse_bgp4mp 0 (encode_mp_state_change Bits16 m ++ x) = Ok (MpStateChange m).
Proof. exists (MpState 0 1 2 0 (V4 1) (V4 2) StIdle StConnect), [1; 2; 3]. split; [discriminate|vm_compute; reflexivity]. Qed.
Print Assumptions C24_trailing_refuted.

(** ** C25: type-5 records. *)
Theorem C25_roundtrip sub m b : encode_legacy sub m = Ok b ->
  match m with
  | LgMessage x => ip_ok (lg_peer x) /\ ip_ok (lg_local x) /\ message_ok false Bits16 (lg_bgp x)
  | LgStateChange x => ip_ok (ls_peer x)
  end -> exists m', parse_legacy sub b = Ok m' /\ same_legacy m m'.
Proof. exact (legacy_roundtrip sub m b). Qed.
Print Assumptions C25_roundtrip.
(** The encoder's refusals: the wrong subtype, AS numbers above 16 bits, IPv6 addresses,
    and messages that do not encode themselves. *)
Theorem C25_encode_exact sub m b : encode_legacy sub m = Ok b <->
  match m with
  | LgMessage x => exists p l body, lg_peer x = V4 p /\ lg_local x = V4 l /\ legacy_subtype (lg_bgp x) sub /\
      lg_peer_as x < 2 ^ 16 /\ lg_local_as x < 2 ^ 16 /\
      b = legacy_envelope (lg_peer_as x) p (lg_local_as x) l ++ body /\
      encode_body Bits16 (lg_bgp x) = Ok body
  | LgStateChange x => exists p, sub = 3 /\ ls_peer x = V4 p /\ ls_peer_as x < 2 ^ 16 /\
      b = be 2 (ls_peer_as x) ++ be 4 p ++ be 2 (state_code (ls_old x)) ++ be 2 (state_code (ls_new x))
  end.
Proof. exact (legacy_encode_iff sub m b). Qed.
Print Assumptions C25_encode_exact.
(** What is accepted.  The payload of a message record is a BGP message without its
    header that takes all octets of the record. *)
Theorem C25_parse_exact sub s m : bytes_ok s -> (parse_legacy sub s = Ok m <->
  match m with
  | LgMessage x => exists p l body, lg_peer x = V4 p /\ lg_local x = V4 l /\ legacy_subtype (lg_bgp x) sub /\
      lg_peer_as x < 2 ^ 16 /\ lg_local_as x < 2 ^ 16 /\ p < 2 ^ 32 /\ l < 2 ^ 32 /\
      s = legacy_envelope (lg_peer_as x) p (lg_local_as x) l ++ body /\
      match lg_bgp x with
      | MUpdate u => parse_update false Bits16 body = Ok u
      | MOpen o => parse_open body = Ok o
      | MNotif n => parse_notif body = Ok n
      | MKeepAlive => body = []
      | MRefresh _ => False
      end
  | LgStateChange x => exists p, sub = 3 /\ ls_peer x = V4 p /\ ls_peer_as x < 2 ^ 16 /\ p < 2 ^ 32 /\
      s = be 2 (ls_peer_as x) ++ be 4 p ++ be 2 (state_code (ls_old x)) ++ be 2 (state_code (ls_new x))
  end).
Proof.
  intros Hs. rewrite (legacy_iff sub s m Hs). destruct m as [x|x]; [|reflexivity].
  split; intros (p & l & body & H1 & H2 & H3 & H4 & H5 & H6 & H7 & H8 & H9); exists p, l, body; do 8 (split; [assumption|]);
    apply (legacy_payload_iff sub _ _ H3); exact H9.
Qed.
Print Assumptions C25_parse_exact.
(** Trailing octets: a KEEPALIVE or a state change followed by anything is refused. *)
Theorem C25_trailing sub m s x : bytes_ok (s ++ x) -> parse_legacy sub s = Ok m ->
  match m with LgMessage y => lg_bgp y = MKeepAlive | LgStateChange _ => True end -> x <> [] ->
  forall m', parse_legacy sub (s ++ x) <> Ok m'.
Proof. exact (legacy_trailing sub m s x). Qed.
Print Assumptions C25_trailing.
Theorem C25_no_panic sub s : parse_legacy sub s <> Panic.
Proof. exact (legacy_np sub s). Qed.
Print Assumptions C25_no_panic.
Example C25_ex :
  (exists b, encode_legacy 6 (LgMessage (LgMsg 1 (V4 2) 3 (V4 4) (MNotif (Notif (error_of 6 2) [9; 9])))) = Ok b /\
   parse_legacy 6 b = Ok (LgMessage (LgMsg 1 (V4 2) 3 (V4 4) (MNotif (Notif (error_of 6 2) [9; 9]))))) /\
  parse_legacy 3 [0; 1; 0; 0; 0; 7; 0; 3; 0; 6] = Ok (LgStateChange (LgState 1 (V4 7) StActive StEstablished)) /\
  parse_legacy 3 [0; 1; 0; 0; 0; 7; 0; 3; 0; 6; 0] = Err EParse /\
  encode_legacy 7 (LgMessage (LgMsg 65536 (V4 2) 3 (V4 4) MKeepAlive)) = Err EEncTooLarge.
Proof. split; [eexists; split; vm_compute; reflexivity|]. repeat split; vm_compute; reflexivity. Qed.
