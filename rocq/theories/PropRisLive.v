(** C82, C83, C84: RIS Live messages. *)
From Coq Require Import Reals Lra String Lia Floats.SpecFloat.
From Flocq Require Import Core.Zaux Core.Raux.
From Verif Require Import Tac Base BaseFacts Net AsPath Community Nlri Attr BgpMsg Elem ElemSpec ElemFacts Text Filter Json Bmp RisLive RisLiveSpec RisLiveFacts F64Real RisTime.

(** C82.  An UPDATE document gives one announcement per announced prefix and one withdrawal per
    withdrawn prefix, in order, with the fields the document has, or the error of its first
    fault; nothing else comes of it. *)
Theorem C82_update ps j m u r : update_doc ps j m u -> (parse_ris_live_message ps (Some j) = r <-> outcome ps m u r).
Proof. exact (json_update ps j m u r). Qed.
Print Assumptions C82_update.
(** Messages that are not about an UPDATE give no elements. *)
Theorem C82_other ps j d m : envelope ps j d m -> (forall u, ~ about_update ps d u) -> parse_ris_live_message ps (Some j) = ROk [].
Proof. exact (json_other ps j d m). Qed.
Print Assumptions C82_other.
(** Elements come from UPDATE documents only. *)
Theorem C82_elements ps doc e l : parse_ris_live_message ps doc = ROk (e :: l) -> exists j m u, doc = Some j /\ update_doc ps j m u.
Proof. exact (json_elems ps doc e l). Qed.
Print Assumptions C82_elements.
(** Everything else is an error, or a message of another type; nothing panics. *)
Theorem C82_not_message ps : parse_ris_live_message ps None = RErr RIncorrectJson /\
  forall j, (forall d m, ~ envelope ps j d m) -> parse_ris_live_message ps (Some j) = RErr RIncorrectJson \/ other_doc j /\ parse_ris_live_message ps (Some j) = ROk [].
Proof. split; [reflexivity|exact (json_none ps)]. Qed.
Print Assumptions C82_not_message.
Theorem C82_no_panic ps doc : parse_ris_live_message ps doc <> RPanic.
Proof. exact (json_np ps doc). Qed.
Print Assumptions C82_no_panic.

(** Examples: readers that know a few texts. *)
Definition known {A} (l : list (string * A)) (s : bytes) : option A := match find (fun x => bytes_eqb (str (fst x)) s) l with Some x => Some (snd x) | None => None end.
Definition lo : ip := V6 0x200107f8002400000000000000000082.
Definition ll : ip := V6 0xfe80000000000000768ef8fffea6b2c4.
Definition n40 : ipnet := Net (V6 (0x2602fd9e0f00 * 2 ^ 80)) 40.
Definition ris_ps : parsers :=
  Parsers (known [("2602:fd9e:f00::/40", n40); ("192.0.2.0/24", Net (V4 0xc0000200) 24); ("10.0.0.0/8", Net (V4 0x0a000000) 8)]%string)
    (known [("2001:7f8:24::82", lo); ("fe80::768e:f8ff:fea6:b2c4", ll); ("10.0.0.1", V4 0x0a000001)]%string)
    (known [("8.42.232.1", 0x082ae801)]%string) (fun _ => None) (fun _ => None).
Definition obj (l : list (string * json)) : json := JObject (map (fun x => (str (fst x), snd x)) l).
Definition text (s : string) : json := JText (str s).
Definition ann (h : string) (ps : list string) : json := obj [("next_hop", text h); ("prefixes", JList (map text ps))]%string.
Definition message (peer asn : string) (t : f64) (l : list (string * json)) : json :=
  obj [("type", text "ris_message"); ("data", obj ([("timestamp", JFloat t); ("peer", text peer); ("peer_asn", text asn); ("id", text "20-5761"); ("host", text "rrc20")] ++ l))]%string.
(** The first message of the tests (rislive/mod.rs:255). *)
Definition doc_v6 : json :=
  message "2001:7f8:24::82" "58299" (micros 1636247118760000)
    [("type", text "UPDATE"); ("path", JList [JNum 58299; JNum 49981; JNum 397666]); ("origin", text "igp");
     ("announcements", JList [ann "2001:7f8:24::82" ["2602:fd9e:f00::/40"]; ann "fe80::768e:f8ff:fea6:b2c4" ["2602:fd9e:f00::/40"]]);
     ("raw", text "FFFFFFFFFFFFFFFFFFFFFFFFFFFFFFFF005A02000000434001010040020E02030000E3BB0000C33D00061162800E2B00020120200107F8002400000000000000000082FE80000000000000768EF8FFFEA6B2C400282602FD9E0F")]%string.
Definition doc_v4 (hex : string) (comms : list (N * N)) : json :=
  message "10.0.0.1" "65000" (micros 1636247118760001)
    [("raw", text hex); ("type", text "UPDATE"); ("path", JList [JNum 65000; JNum 70000]); ("med", JNum 100); ("origin", text "EGP"); ("aggregator", text "65001:8.42.232.1");
     ("withdrawals", JList [text "10.0.0.0/8"]); ("announcements", JList [ann "10.0.0.1" ["192.0.2.0/24"; "10.0.0.0/8"]]);
     ("community", JList (map (fun p => JList [JNum (fst p); JNum (snd p)]) comms))]%string.
Definition hex_v4 : string := "ffffffffffffffffffffffffffffffff0054020002080a00354001010140020a02020000fde8000111704003040a00000180040400000064c007080000fde9082ae801c00808fde80001fde8000218c00002080a".
Definition hex_well_known : string := "ffffffffffffffffffffffffffffffff0050020002080a00314001010140020a02020000fde8000111704003040a00000180040400000064c007080000fde9082ae801c00804ffffff0118c00002080a".
Definition hex_two : string := "ffffffffffffffffffffffffffffffff002f0200000014400101004002060202fde8fde94003040a00000118c00002".
Example C82_ex : exists m u e1 e2 e3, update_doc ris_ps (doc_v4 hex_v4 [(65000, 1); (65000, 2)]) m u /\
  parse_ris_live_message ris_ps (Some (doc_v4 hex_v4 [(65000, 1); (65000, 2)])) = ROk [e1; e2; e3] /\
  e_type e1 = Announce /\ e_prefix e2 = Pfx (Net (V4 0x0a000000) 8) None /\ e_origin e2 = Some EGP /\ e_aggr_asn e1 = Some 65001 /\ e_hop e2 = Some (V4 0x0a000001) /\ e_type e3 = Withdraw /\
  exists d m', envelope ris_ps (message "10.0.0.1" "65000" (micros 5) [("type", text "KEEPALIVE")]%string) d m' /\ forall u, ~ about_update ris_ps d u.
Proof.
  assert (R : exists m u, de_ris_live ris_ps (doc_v4 hex_v4 [(65000, 1); (65000, 2)]) = Some (LiveMessage m) /\ rm_body m = Some (BodyUpdate u)) by (do 2 eexists; split; vm_compute; reflexivity).
  destruct R as (m & u & L & B). exists m, u. do 3 eexists. split; [exact (read_doc _ _ _ _ L B)|]. split; [vm_compute; reflexivity|]. do 6 (split; [reflexivity|]).
  assert (R : exists m, de_ris_live ris_ps (message "10.0.0.1" "65000" (micros 5) [("type", text "KEEPALIVE")]%string) = Some (LiveMessage m) /\ rm_body m = Some BodyOther) by (eexists; split; vm_compute; reflexivity).
  destruct R as (m' & L' & B'). apply live_iff in L'. destruct L' as (d & E & X). exists d, m'. split; [exact E|]. intros u' U. apply body_iff in U. congruence.
Qed.
(** An UPDATE with one field that cannot be read (here a community of which the second half
    does not fit in 16 bits) is taken for no UPDATE: its announcements are lost without error. *)
Theorem C82_silent_refuted : exists ps j d m a, envelope ps j d m /\ once d "type" (JText (str "UPDATE")) /\ must (is_list (is_announcement_of ps)) d "announcements" a /\ a <> [] /\
  parse_ris_live_message ps (Some j) = ROk [].
Proof.
  assert (R : exists m, de_ris_live ris_ps (doc_v4 hex_v4 [(65000, 65536)]) = Some (LiveMessage m)) by (eexists; vm_compute; reflexivity).
  destruct R as (m & L). pose proof L as L0. apply live_iff in L. destruct L as (d & E & _). pose proof E as (l & J & _ & D & _).
  apply get_once in D as [_ D]. injection J as J. subst l. change (Some (snd (str "data", match doc_v4 hex_v4 [(65000, 65536)] with JObject (_ :: (_, x) :: _) => x | _ => JNull end)) = Some (JObject d)) in D. injection D as D.
  exists ris_ps, (doc_v4 hex_v4 [(65000, 65536)]), d, m, [Ann (V4 0x0a000001) [str "192.0.2.0/24"; str "10.0.0.0/8"]]. split; [exact E|]. subst d.
  split; [apply get_once; split; vm_compute; [repeat constructor|reflexivity]|].
  split; [|split; [discriminate|vm_compute; reflexivity]].
  apply (must_iff (de_list (de_announcement ris_ps))); [intros; apply list_iff, announcement_iff|]. split; [unfold single; vm_compute; repeat constructor|vm_compute; reflexivity].
Qed.
Print Assumptions C82_silent_refuted.
(** The elements have no origin AS numbers although they have a path, so that no filter on the
    origin AS selects them. *)
Theorem C82_origin_asns_refuted : exists ps j e l, parse_ris_live_message ps (Some j) = ROk (e :: l) /\ e_path e <> None /\ e_origins e = None.
Proof. exists ris_ps, doc_v6. do 2 eexists. split; [vm_compute; reflexivity|]. split; [discriminate|reflexivity]. Qed.
Print Assumptions C82_origin_asns_refuted.

(** C83.  A document with a BGP message in hexadecimal digits gives the elements of that message
    (C29), at the time, of the peer and of the AS of the document. *)
Theorem C83_elements ps j m b s us es : raw_doc ps j m b -> rm_time m = micros (s * 1000000 + us) -> 2 ^ 20 <= s < 2 ^ 32 -> us < 1000000 ->
  (parse_ris_live_message_raw ps (Some j) = ROk es <-> bgp_elems b (rm_time m) (rm_peer m) (rm_asn m) es).
Proof.
  intros R T S U. destruct (raw_doc_elems ps j m b R) as (l & E & B). unfold raw_time in B. pose proof (header_parts s us ltac:(lia) U) as [E1 E2]. rewrite <- T in E1, E2.
  rewrite E1, E2, (time_once s us S U), <- T in B. split; [intros E'; rewrite E in E'; injection E' as <-; exact B|]. intros B'. rewrite E. f_equal. eapply bgp_elems_fun; eauto.
Qed.
Print Assumptions C83_elements.
(** Whatever the time, the elements are those of the message at some time. *)
Theorem C83_any_time ps j m b : raw_doc ps j m b -> exists t es, parse_ris_live_message_raw ps (Some j) = ROk es /\ bgp_elems b t (rm_peer m) (rm_asn m) es.
Proof. intros R. destruct (raw_doc_elems ps j m b R) as (l & E & B). eauto. Qed.
Print Assumptions C83_any_time.
(** Of any time from 1970 on that fits, they have the second, and the rest to two microseconds. *)
Theorem C83_near ps j m b r : raw_doc ps j m b -> is_real (rm_time m) r -> (0 <= r < 4294967296)%R -> exists t rt es,
  parse_ris_live_message_raw ps (Some j) = ROk es /\ bgp_elems b t (rm_peer m) (rm_asn m) es /\ is_real t rt /\ Zfloor rt = Zfloor r /\ (Rabs (rt - r) <= 2 / 1000000)%R.
Proof.
  intros D X R. destruct (raw_doc_elems ps j m b D) as (l & E & B). destruct (header_near _ r X R) as (s & us & t & E1 & E2 & _ & _ & T & F & A). unfold raw_time in B. rewrite E1, E2 in B. exists (bmp_time s us), t, l. auto.
Qed.
Print Assumptions C83_near.
Example C83_ex_near : is_real (f64_of_N 1636247118) (IZR (Z.of_N 1636247118)) /\ (0 <= IZR (Z.of_N 1636247118) < 4294967296)%R.
Proof. split; [apply real_N; reflexivity|]. cbn [Z.of_N]. split; [apply IZR_le|apply IZR_lt]; lia. Qed.
(** Elements come from such documents only; a document without readable message is refused;
    nothing panics. *)
Theorem C83_only ps doc l : parse_ris_live_message_raw ps doc = ROk l -> exists j m b, doc = Some j /\ raw_doc ps j m b.
Proof. exact (raw_is_doc ps doc l). Qed.
Print Assumptions C83_only.
Theorem C83_errors ps j d m : envelope ps j d m -> (forall b, ~ raw_doc ps j m b) -> parse_ris_live_message_raw ps (Some j) = RErr RIncorrectRawBytes.
Proof. exact (raw_errors ps j d m). Qed.
Print Assumptions C83_errors.
Theorem C83_no_panic ps doc : parse_ris_live_message_raw ps doc <> RPanic /\ parse_ris_live_message_raw_full ps doc <> RPanic.
Proof. exact (raw_np ps doc). Qed.
Print Assumptions C83_no_panic.
(** The full reading has the same elements, or the same error, with the fields of the document
    and all attributes of the message with their warnings. *)
Theorem C83_full ps doc f : parse_ris_live_message_raw_full ps doc = ROk f <->
  exists j m b, doc = Some j /\ raw_doc ps j m b /\ parse_ris_live_message_raw ps doc = ROk (rf_elems f) /\
    rf_host f = rm_host m /\ rf_id f = rm_id m /\ rf_peer f = rm_peer m /\ rf_asn f = rm_asn m /\ rf_time f = rm_time m /\ rf_attrs f = attributes_of b.
Proof. exact (full_ok ps doc f). Qed.
Print Assumptions C83_full.
Theorem C83_full_errors ps doc e : parse_ris_live_message_raw_full ps doc = RErr e <-> parse_ris_live_message_raw ps doc = RErr e.
Proof. exact (full_errors ps doc e). Qed.
Print Assumptions C83_full_errors.
Example C83_ex : exists m b e s us, raw_doc ris_ps doc_v6 m b /\ rm_time m = micros (s * 1000000 + us) /\ 2 ^ 20 <= s < 2 ^ 32 /\ us < 1000000 /\
  parse_ris_live_message_raw ris_ps (Some doc_v6) = ROk [e] /\ e_prefix e = Pfx n40 None /\ e_origins e = Some [397666] /\ e_time e = micros 1636247118760000.
Proof.
  assert (R : exists m s raw b, de_ris_live ris_ps doc_v6 = Some (LiveMessage m) /\ rm_raw m = Some s /\ hex_decode s = Some raw /\ run (parse_bgp_message false Bits32) raw = Ok b /\ rm_time m = micros 1636247118760000).
  { do 4 eexists. split; [vm_compute; reflexivity|]. split; [vm_compute; reflexivity|]. split; [vm_compute; reflexivity|]. split; [vm_compute; reflexivity|]. vm_compute. reflexivity. }
  destruct R as (m & s & raw & b & L & S & H & B & T). exists m, b. eexists. exists 1636247118, 760000. split; [exact (read_raw _ _ _ _ _ _ L S H B)|]. split; [exact T|].
  split; [split; [discriminate|reflexivity]|]. split; [reflexivity|]. split; [vm_compute; reflexivity|]. repeat split; vm_compute; reflexivity.
Qed.
(** The second attempt, with AS numbers of two octets, never succeeds: a message with such AS
    numbers is read without its path. *)
Theorem C83_two_octets_refuted : (forall raw e, parse_bgp_message false Bits32 raw = Err e -> parse_bgp_message false Bits16 raw = Err e) /\
  exists ps j m raw v r p e, (exists d s, envelope ps j d m /\ rm_raw m = Some s /\ hex_text s raw) /\
    parse_bgp_message false Bits16 raw = Ok (MUpdate v, r) /\ last_is sel_path (map a_value (at_inner (u_attrs v))) (Some p) /\
    parse_ris_live_message_raw ps (Some j) = ROk [e] /\ e_path e = None.
Proof.
  split; [intros raw e; apply message_err|].
  assert (R : exists m s raw, de_ris_live ris_ps (doc_v4 hex_two []) = Some (LiveMessage m) /\ rm_raw m = Some s /\ hex_decode s = Some raw /\ exists v r, parse_bgp_message false Bits16 raw = Ok (MUpdate v, r) /\
    map a_value (at_inner (u_attrs v)) = [AOrigin IGP; AAsPath [Seg KSeq [65000; 65001]]; ANextHop (V4 0x0a000001)]).
  { do 3 eexists. split; [vm_compute; reflexivity|]. split; [vm_compute; reflexivity|]. split; [vm_compute; reflexivity|]. do 2 eexists. split; [vm_compute; reflexivity|]. reflexivity. }
  destruct R as (m & s & raw & L & S & H & v & r & B & A). apply live_iff in L. destruct L as (d & E & _). exists ris_ps, (doc_v4 hex_two []), m, raw, v, r. do 2 eexists.
  split; [exists d, s; apply hex_iff in H; auto|]. split; [exact B|]. rewrite A. split; [exists [AOrigin IGP]; do 2 eexists; split; [reflexivity|]; split; [reflexivity|]; repeat constructor|].
  split; [vm_compute; reflexivity|]. reflexivity.
Qed.
Print Assumptions C83_two_octets_refuted.
(** In the first hours of 1970 times are rounded twice. *)
Theorem C83_early_refuted : exists ps j m b e s us, raw_doc ps j m b /\ rm_time m = micros (s * 1000000 + us) /\ us < 1000000 /\
  parse_ris_live_message_raw ps (Some j) = ROk [e] /\ e_time e <> rm_time m.
Proof.
  set (j := message "10.0.0.1" "65000" (micros 1003969) [("raw", text hex_two)]%string).
  assert (R : exists m s raw b, de_ris_live ris_ps j = Some (LiveMessage m) /\ rm_raw m = Some s /\ hex_decode s = Some raw /\ run (parse_bgp_message false Bits32) raw = Ok b /\ rm_time m = micros 1003969).
  { do 4 eexists. split; [vm_compute; reflexivity|]. split; [vm_compute; reflexivity|]. split; [vm_compute; reflexivity|]. split; [vm_compute; reflexivity|]. vm_compute. reflexivity. }
  destruct R as (m & s & raw & b & L & S & H & B & T). exists ris_ps, j, m, b. eexists. exists 1, 3969. split; [exact (read_raw _ _ _ _ _ _ L S H B)|]. split; [exact T|].
  split; [reflexivity|]. split; [vm_compute; reflexivity|]. rewrite T. vm_compute. discriminate.
Qed.
Print Assumptions C83_early_refuted.

(** C84.  If the JSON fields of a document show the UPDATE in its raw message, both readings
    give the same routes in the same order. *)
Theorem C84_agree ps j m u v s us : update_doc ps j m u -> raw_doc ps j m (MUpdate v) -> shows ps u v ->
  rm_time m = micros (s * 1000000 + us) -> 2 ^ 20 <= s < 2 ^ 32 -> us < 1000000 ->
  exists es es', parse_ris_live_message ps (Some j) = ROk es /\ parse_ris_live_message_raw ps (Some j) = ROk es' /\ Forall2 same_route es es'.
Proof.
  intros D R H T S U. destruct (C83_any_time ps j m _ R) as (t & es' & E & _). pose proof E as B. apply (C83_elements ps j m _ s us es' R T S U) in B. cbn [bgp_elems] in B.
  destruct (same_routes ps m u v es' (rm_time m) H eq_refl B) as (es & O & F). exists es, es'. split; [apply (C82_update ps j m u _ D), O|auto].
Qed.
Print Assumptions C84_agree.
Example C84_ex : exists m u v s us e1 e2 e3, let j := doc_v4 hex_v4 [(65000, 1); (65000, 2)] in
  update_doc ris_ps j m u /\ raw_doc ris_ps j m (MUpdate v) /\ shows ris_ps u v /\ rm_time m = micros (s * 1000000 + us) /\ 2 ^ 20 <= s < 2 ^ 32 /\ us < 1000000 /\
  parse_ris_live_message_raw ris_ps (Some j) = ROk [e1; e2; e3] /\ e_med e1 = Some 100.
Proof.
  set (j := doc_v4 hex_v4 [(65000, 1); (65000, 2)]).
  set (u := RisUpdate (Some [Seg KSeq [65000; 70000]]) (Some [(65000, 1); (65000, 2)]) (Some (str "EGP")) (Some 100) (Some (str "65001:8.42.232.1")) (Some [Ann (V4 0x0a000001) [str "192.0.2.0/24"; str "10.0.0.0/8"]]) (Some [str "10.0.0.0/8"])).
  assert (R : exists m s raw v, de_ris_live ris_ps j = Some (LiveMessage m) /\ rm_body m = Some (BodyUpdate u) /\ rm_raw m = Some s /\ hex_decode s = Some raw /\ run (parse_bgp_message false Bits32) raw = Ok (MUpdate v) /\ rm_time m = micros 1636247118760001 /\
    map a_value (at_inner (u_attrs v)) = [AOrigin EGP; AAsPath [Seg KSeq [65000; 70000]]; ANextHop (V4 0x0a000001); AMed 100; AAggregator 65001 0x082ae801; ACommunities [CCustom 65000 1; CCustom 65000 2]] /\
    u_announced v = [Pfx (Net (V4 0xc0000200) 24) None; Pfx (Net (V4 0x0a000000) 8) None] /\ u_withdrawn v = [Pfx (Net (V4 0x0a000000) 8) None]).
  { do 4 eexists. do 7 (split; [vm_compute; reflexivity|]). split; reflexivity. }
  destruct R as (m & s & raw & v & L & B & S & H & P & T & A & An & W). exists m, u, v, 1636247118, 760001. do 3 eexists. cbv zeta.
  split; [exact (read_doc _ _ _ _ L B)|]. split; [exact (read_raw _ _ _ _ _ _ L S H P)|]. split.
  - unfold shows. cbv zeta. rewrite A, An, W. set (vs := [AOrigin EGP; _; _; _; _; _]).
    exists None, None, (Some [Seg KSeq [65000; 70000]]), None, (Some EGP), (Some (65001, 0x082ae801)).
    split; [exact (last_sel_is sel_reach vs)|]. split; [exact (last_sel_is sel_unreach vs)|]. split; [exact (last_sel_is sel_path vs)|]. split; [exact (last_sel_is sel_path4 vs)|].
    split; [reflexivity|]. split; [exact (last_sel_is sel_origin vs)|]. split; [apply ot_EGP|]. split; [exact (last_sel_is sel_aggr vs)|].
    split; [exists (str "65001"), (str "8.42.232.1"); repeat split; cbn; intuition discriminate|]. split; [exact (last_sel_is sel_med vs)|]. split; [reflexivity|].
    split; [repeat constructor; exists None, (Some (V4 0x0a000001)); (split; [exact (last_sel_is sel_reach vs)|]; split; [exact (last_sel_is sel_hop vs)|reflexivity])|].
    split; repeat constructor; eexists; split; reflexivity.
  - split; [exact T|]. split; [split; [discriminate|reflexivity]|]. split; [reflexivity|]. split; [vm_compute; reflexivity|reflexivity].
Qed.
(** The documents of the service do not always show the message in this sense: an IPv6
    announcement with a link-local next hop is listed under both next hops, and is two elements
    by its JSON fields but one by its raw message. *)
Theorem C84_ipv6_refuted : exists ps j e1 e2 e, parse_ris_live_message ps (Some j) = ROk [e1; e2] /\ parse_ris_live_message_raw ps (Some j) = ROk [e] /\
  e_prefix e1 = e_prefix e /\ e_prefix e2 = e_prefix e /\ e_hop e1 = e_hop e /\ e_hop e2 <> e_hop e.
Proof. exists ris_ps, doc_v6. do 3 eexists. split; [vm_compute; reflexivity|]. split; [vm_compute; reflexivity|]. do 3 (split; [reflexivity|]). discriminate. Qed.
Print Assumptions C84_ipv6_refuted.
(** A well-known community is a pair of numbers by the JSON fields, its name by the raw message. *)
Theorem C84_well_known_refuted : exists ps j e l e' l', parse_ris_live_message ps (Some j) = ROk (e :: l) /\ parse_ris_live_message_raw ps (Some j) = ROk (e' :: l') /\
  e_comms e = Some [MPlain (CCustom 65535 65281)] /\ e_comms e' = Some [MPlain CNoExport].
Proof. exists ris_ps, (doc_v4 hex_well_known [(65535, 65281)]). do 4 eexists. split; [vm_compute; reflexivity|]. split; [vm_compute; reflexivity|]. split; reflexivity. Qed.
Print Assumptions C84_well_known_refuted.
