(** Proofs about [Bgp4mp]. *)
From Coq Require Import ZifyBool ZifyNat ZifyN Lia.
From Verif Require Import Base BaseFacts Reader ReaderFacts Tac Net NetSpec NetFacts Tlv TlvFacts Nlri NlriFacts Attr AttrSpec AttrFacts
  BgpMsg MsgSpec CapFacts MsgFacts Bgp4mp Bgp4mpSpec.
Ltac Zify.zify_post_hook ::= Z.div_mod_to_equations.

Lemma read_u16_be n r : n < 2 ^ 16 -> read_u16 (be 2 n ++ r) = Ok (n, r).
Proof. intros. apply read_be_be. assumption. Qed.
Lemma state_of_code s : state_of (state_code s) = Some s.
Proof. destruct s; reflexivity. Qed.
Lemma state_code_of n s : state_of n = Some s <-> n = state_code s.
Proof.
  split; [|intros ->; apply state_of_code]. unfold state_of. intros H.
  code_cases n; try discriminate; injection H as <-; reflexivity.
Qed.
Lemma state_known n : (exists s, state_of n = Some s) <-> 1 <= n <= 8.
Proof.
  split.
  - intros [s H]. apply state_code_of in H as ->. destruct s; cbn; lia.
  - intros H. assert (n = 1 \/ n = 2 \/ n = 3 \/ n = 4 \/ n = 5 \/ n = 6 \/ n = 7 \/ n = 8) as D by lia.
    repeat (destruct D as [-> | D]; [eexists; reflexivity|]). subst. eexists; reflexivity.
Qed.
Lemma state_small s : state_code s < 2 ^ 16. Proof. destruct s; reflexivity. Qed.
Lemma read_state_be s r : read_state (be 2 (state_code s) ++ r) = Ok (s, r).
Proof.
  unfold read_state. rewrite (bind_ok _ _ _ _ _ (read_u16_be _ r (state_small s))). rewrite state_of_code. reflexivity.
Qed.
Lemma read_state_inv s x r : read_state s = Ok (x, r) -> bytes_ok s -> s = be 2 (state_code x) ++ r /\ bytes_ok r.
Proof.
  intros H Hs. unfold read_state in H. pstep H. apply lift_inv in H as [H ->]. destruct (state_of a) eqn:E; inv H.
  apply state_code_of in E. subst. auto.
Qed.
Lemma npp_read_state : npp read_state.
Proof. apply npp_bind; [apply npp_read_be|]. intros. apply npp_lift, np_of_opt. Qed.

(** * The short OPEN of old Zebra *)
Lemma short_open_iff s : is_short_zebra_open s Bits16 = true <-> zebra_open s.
Proof.
  unfold is_short_zebra_open. split.
  - intros H. apply andb_prop in H as [H H3]. apply andb_prop in H as [H1 H2].
    apply Nat.leb_le in H1. apply bytes_eqb_eq in H2. apply N.eqb_eq in H3.
    exists (firstn 4 s), (firstn 2 (skipn 20 s)), (skipn 23 s).
    split; [|rewrite !firstn_length, skipn_length; lia].
    rewrite <- H2. do 23 (destruct s as [|? s]; [cbn in H1; lia|]). cbn in H3. subst. reflexivity.
  - intros (a & l & rest & -> & Ha & Hl).
    do 4 (destruct a as [|? a]; [discriminate|]). destruct a; [|discriminate].
    do 2 (destruct l as [|? l]; [discriminate|]). destruct l; [|discriminate]. reflexivity.
Qed.
Lemma envelope_not_zebra al pa la i p l body :
  is_short_zebra_open (envelope al pa la i p l ++ body) al = false.
Proof.
  destruct al; [|reflexivity]. destruct (is_short_zebra_open _ Bits16) eqn:E; auto. exfalso.
  apply short_open_iff in E as (a & x & rest & E & Ha & Hx).
  unfold envelope in E. cbn [asn_width] in E. rewrite <- !app_assoc in E.
  apply (f_equal (fun s => firstn 4 (skipn 4 s))) in E.
  assert (L : forall u v w : bytes, length u = 2%nat -> length v = 2%nat -> skipn 4 (u ++ v ++ w) = w).
  { intros u v w Hu Hv. rewrite app_assoc. replace 4%nat with (length (u ++ v)) by (rewrite app_length; lia). apply skipn_app_len. }
  rewrite L in E by apply be_length.
  assert (L2 : skipn 4 (a ++ repeat 255 16 ++ x ++ [1] ++ rest) = repeat 255 16 ++ x ++ [1] ++ rest) by (rewrite <- Ha; apply skipn_app_len).
  rewrite L2 in E. clear L L2.
  apply (f_equal (fun s => nth 2 s 0)) in E.
  replace (nth 2 (firstn 4 (be 2 i ++ be 2 (family_code p) ++ octets p ++ octets l ++ body)) 0) with 0 in E; [discriminate|].
  cbn [be app firstn nth]. destruct p; reflexivity.
Qed.

(** * Envelopes *)
Lemma asn_limit_fits al a : asn_fits al a <-> a < asn_limit al.
Proof. destruct al; reflexivity. Qed.
Lemma af_code p : be 2 (family_code p) = be 2 (afi_code (afi_of_ip p)).
Proof. destruct p; reflexivity. Qed.
Lemma validate_ip p : validate_mp_afi (afi_of_ip p) = Ok tt. Proof. destruct p; reflexivity. Qed.
Lemma envelope_len al pa la i p l :
  nlen (envelope al pa la i p l) = 2 * N.of_nat (asn_width al) + 4 + nlen (octets p) + nlen (octets l).
Proof. unfold envelope. rewrite !nlen_app, !nlen_be. lia. Qed.
Lemma payload_len al pa la i p l body : afi_of_ip p = afi_of_ip l ->
  mp_payload_len (afi_of_ip p) al (nlen (envelope al pa la i p l ++ body)) = Ok (nlen body).
Proof.
  intros H. unfold mp_payload_len. rewrite validate_ip. cbn [rbind]. f_equal. rewrite nlen_app, envelope_len.
  unfold nlen at 1 2. rewrite !octets_length. destruct p, l; try discriminate; cbn [afi_of_ip]; lia.
Qed.
Definition mp_rest (ap : bool) (al : asn_len) (t : N) (total pa la : N) : P mp_message :=
  i <- read_u16 ;; a <- read_afi ;; n <- lift (mp_payload_len a al total) ;;
  pi <- read_address a ;; li <- read_address a ;;
  r <- remaining ;;
  if negb (n =? N.of_nat r) then fail ETrunc else
  m <- parse_bgp_message ap al ;; ret (MpMsg t pa la i pi li m).
Lemma mp_message_eq ap al t pa la i p l body : envelope_ok al pa la i p l ->
  parse_mp_message ap al t (envelope al pa la i p l ++ body) =
  run (m <- parse_bgp_message ap al ;; ret (MpMsg t pa la i p l m)) body.
Proof.
  intros (H1 & H2 & H3 & H4 & H5 & H6). unfold parse_mp_message.
  rewrite envelope_not_zebra, <- asn_limit_fits in *. 
  set (total := nlen (envelope al pa la i p l ++ body)).
  assert (T : mp_payload_len (afi_of_ip p) al total = Ok (nlen body)) by (apply payload_len; auto).
  clearbody total. unfold envelope, run. rewrite <- !app_assoc.
  rewrite (bind_ok _ _ _ _ _ (read_asn_be al pa _ H1)). rewrite (bind_ok _ _ _ _ _ (read_asn_be al la _ H2)).
  rewrite (bind_ok _ _ _ _ _ (read_u16_be i _ H3)). rewrite af_code. rewrite (bind_ok _ _ _ _ _ (read_afi_be (afi_of_ip p) _)).
  rewrite T. rewrite (bind_ok (lift (Ok (nlen body))) _ _ _ _ eq_refl).
  rewrite (bind_ok _ _ _ _ _ (read_address_octets p _ H4)). rewrite H6.
  rewrite (bind_ok _ _ _ _ _ (read_address_octets l _ H5)).
  rewrite (bind_ok remaining _ _ _ _ eq_refl). unfold nlen. rewrite N.eqb_refl. reflexivity.
Qed.
Lemma mp_message_iff ap al t s m : bytes_ok s -> (parse_mp_message ap al t s = Ok m <->
  mm_type m = t /\
  ((al = Bits16 /\ zebra_open s /\ mm_ifindex m = 0 /\ mm_peer m = V4 0 /\ mm_local m = V4 0 /\
    exists body r, s = be 2 (mm_peer_as m) ++ be 2 (mm_local_as m) ++ body /\
      mm_peer_as m < 2 ^ 16 /\ mm_local_as m < 2 ^ 16 /\ parse_bgp_message ap al body = Ok (mm_bgp m, r)) \/
   (envelope_ok al (mm_peer_as m) (mm_local_as m) (mm_ifindex m) (mm_peer m) (mm_local m) /\
    exists body r, s = envelope al (mm_peer_as m) (mm_local_as m) (mm_ifindex m) (mm_peer m) (mm_local m) ++ body /\
      parse_bgp_message ap al body = Ok (mm_bgp m, r)))).
Proof.
  intros Hs. split.
  - intros H. unfold parse_mp_message in H. apply run_inv in H as [r H]. destruct (is_short_zebra_open s al) eqn:Z.
    + destruct al; [|discriminate Z]. apply short_open_iff in Z.
      apply bind_inv in H as (pa & q1 & E1 & H). apply bind_inv in H as (la & q2 & E2 & H).
      apply bind_inv in H as (b & q3 & E3 & H). apply ret_inv in H as [<- ->].
      assert (X := E1). apply read_asn_inv in E1 as (E1 & B1); auto. subst s. apply bytes_ok_app in Hs as [_ Hs].
      apply read_asn_inv in E2 as (E2 & B2); auto. subst q1.
      split; auto. left. cbn [mm_type mm_peer_as mm_local_as mm_ifindex mm_peer mm_local mm_bgp]. repeat split; auto. exists q2, r. auto.
    + clear Z. set (total := nlen s) in H.
      apply bind_inv in H as (pa & q1 & E1 & H). apply bind_inv in H as (la & q2 & E2 & H).
      apply read_asn_inv in E1 as (E1 & B1); auto. assert (Hs1 := Hs). rewrite E1 in Hs1. apply bytes_ok_app in Hs1 as [_ Hs1].
      apply read_asn_inv in E2 as (E2 & B2); auto. rewrite E2 in Hs1. apply bytes_ok_app in Hs1 as [_ Hs1].
      apply bind_inv in H as (i & q3 & E3 & H). apply read_be_inv_ok in E3 as (E3 & B3 & O3); auto.
      apply bind_inv in H as (a & q4 & E4 & H). apply read_afi_inv in E4 as (E4 & O4); auto.
      apply bind_inv in H as (n & q5 & E5 & H). apply lift_inv in E5 as [E5 <-].
      assert (NL : a <> ALinkState) by (intros ->; discriminate E5).
      apply bind_inv in H as (p & q6 & E6 & H). apply read_address_inv in E6 as (E6 & I6 & F6); auto.
      assert (O6 : bytes_ok q6) by (rewrite E6 in O4; apply bytes_ok_app in O4; tauto).
      apply bind_inv in H as (l & q7 & E7 & H). apply read_address_inv in E7 as (E7 & I7 & F7); auto.
      apply bind_inv in H as (k & q8 & E8 & H). injection E8 as <- <-.
      destruct (n =? N.of_nat (length q7)); [|discriminate H]. cbn [negb] in H.
      apply bind_inv in H as (b & q9 & E9 & H). apply ret_inv in H as [<- ->].
      split; auto. right. cbn [mm_type mm_peer_as mm_local_as mm_ifindex mm_peer mm_local mm_bgp].
      split; [repeat split; auto; try (apply asn_limit_fits; auto); congruence|].
      exists q7, r. split; auto. unfold envelope. rewrite af_code, F6. unfold encode_asn in *. rewrite <- !app_assoc. rewrite E1, E2, E3, E4, E6, E7. reflexivity.
  - destruct m as [t' pa la i p l b]. cbn [mm_type mm_peer_as mm_local_as mm_ifindex mm_peer mm_local mm_bgp].
    intros (-> & [(-> & Z & -> & -> & -> & body & r & E & H1 & H2 & H3) | (E & body & r & -> & H3)]).
    + unfold parse_mp_message. rewrite (proj2 (short_open_iff s) Z). rewrite E. unfold run.
      rewrite (bind_ok _ _ _ _ _ (read_asn_be Bits16 pa _ H1)). rewrite (bind_ok _ _ _ _ _ (read_asn_be Bits16 la _ H2)).
      rewrite (bind_ok _ _ _ _ _ H3). reflexivity.
    + rewrite mp_message_eq by auto. unfold run. rewrite (bind_ok _ _ _ _ _ H3). reflexivity.
Qed.
Lemma np_validate a : np (validate_mp_afi a). Proof. destruct a; intro H; discriminate H. Qed.
Lemma mp_message_np ap al t s : np (parse_mp_message ap al t s).
Proof.
  unfold parse_mp_message. apply np_run. apply npp_bind; [apply npp_read_asn|]. intros pa. apply npp_bind; [apply npp_read_asn|]. intros la.
  destruct (is_short_zebra_open s al).
  - apply npp_bind; [apply message_np|]. intros. apply npp_ret.
  - apply npp_bind; [apply npp_read_be|]. intros i. apply npp_bind; [apply npp_read_afi|]. intros a.
    apply npp_bind; [apply npp_lift; unfold mp_payload_len; apply np_rbind; [apply np_validate|intros; apply np_ok]|]. intros n.
    apply npp_bind; [apply npp_read_address|]. intros p. apply npp_bind; [apply npp_read_address|]. intros l.
    apply npp_bind; [apply npp_remaining|]. intros r. destruct (negb _); [apply npp_fail|].
    apply npp_bind; [apply message_np|]. intros. apply npp_ret.
Qed.
Lemma encode_mp_message_eq al m b : encode_mp_message al m = Ok b <->
  exists x, encode_bgp_message al (mm_bgp m) = Ok x /\
    b = envelope al (mm_peer_as m) (mm_local_as m) (mm_ifindex m) (mm_peer m) (mm_local m) ++ x.
Proof.
  unfold encode_mp_message, envelope. split.
  - intros H. apply rbind_inv in H as (x & E & H). injection H as <-. exists x. split; auto. rewrite <- !app_assoc. reflexivity.
  - intros (x & -> & ->). cbn [rbind]. rewrite <- !app_assoc. reflexivity.
Qed.
Lemma mp_message_roundtrip ap al m b : mp_message_ok ap al m -> encode_mp_message al m = Ok b ->
  (msg_type (mm_bgp m) = 1 -> nlen b <= 4096) ->
  exists m', parse_mp_message ap al (mm_type m) b = Ok m' /\ same_mp_message m m'.
Proof.
  intros [He Hm] H Ho. apply encode_mp_message_eq in H as (x & H & ->).
  destruct (message_roundtrip ap al (mm_bgp m) x [] Hm H) as (bm & E & S).
  { intros T. specialize (Ho T). rewrite nlen_app in Ho. lia. }
  rewrite app_nil_r in E. rewrite mp_message_eq by auto. unfold run. rewrite (bind_ok _ _ _ _ _ E). eexists. split; [reflexivity|].
  repeat split. exact S.
Qed.

(** * State changes *)
Lemma mp_state_eq al t pa la i p l o n r : envelope_ok al pa la i p l ->
  parse_mp_state_change al t (envelope al pa la i p l ++ be 2 (state_code o) ++ be 2 (state_code n) ++ r) =
  Ok (MpState t pa la i p l o n).
Proof.
  intros (H1 & H2 & H3 & H4 & H5 & H6). unfold parse_mp_state_change.
  replace (match al with Bits16 => nlen (envelope al pa la i p l ++ be 2 (state_code o) ++ be 2 (state_code n) ++ r) =? 8 | Bits32 => false end) with false.
  2:{ destruct al; auto. symmetry. apply N.eqb_neq. rewrite nlen_app, envelope_len. unfold nlen at 1. rewrite octets_length. destruct p; cbn [asn_width]; lia. }
  rewrite <- asn_limit_fits in *. unfold envelope, run. rewrite <- !app_assoc.
  rewrite (bind_ok _ _ _ _ _ (read_asn_be al pa _ H1)). rewrite (bind_ok _ _ _ _ _ (read_asn_be al la _ H2)).
  rewrite (bind_ok _ _ _ _ _ (read_u16_be i _ H3)). rewrite af_code. rewrite (bind_ok _ _ _ _ _ (read_afi_be (afi_of_ip p) _)).
  rewrite validate_ip. rewrite (bind_ok (lift (Ok tt)) _ _ _ _ eq_refl).
  rewrite (bind_ok _ _ _ _ _ (read_address_octets p _ H4)). rewrite H6.
  rewrite (bind_ok _ _ _ _ _ (read_address_octets l _ H5)).
  rewrite (bind_ok _ _ _ _ _ (read_state_be o _)). rewrite (bind_ok _ _ _ _ _ (read_state_be n _)). reflexivity.
Qed.
Lemma mp_state_iff al t s m : bytes_ok s -> (parse_mp_state_change al t s = Ok m <->
  ms_type m = t /\
  ((al = Bits16 /\ ms_ifindex m = 0 /\ ms_peer m = V4 0 /\ ms_local m = V4 0 /\ ms_peer_as m < 2 ^ 16 /\ ms_local_as m < 2 ^ 16 /\
    s = be 2 (ms_peer_as m) ++ be 2 (ms_local_as m) ++ be 2 (state_code (ms_old m)) ++ be 2 (state_code (ms_new m))) \/
   (envelope_ok al (ms_peer_as m) (ms_local_as m) (ms_ifindex m) (ms_peer m) (ms_local m) /\
    exists r, s = envelope al (ms_peer_as m) (ms_local_as m) (ms_ifindex m) (ms_peer m) (ms_local m) ++
      be 2 (state_code (ms_old m)) ++ be 2 (state_code (ms_new m)) ++ r))).
Proof.
  intros Hs. split.
  - intros H. unfold parse_mp_state_change in H. apply run_inv in H as [r H].
    destruct (match al with Bits16 => nlen s =? 8 | Bits32 => false end) eqn:Z.
    + destruct al; [|discriminate Z]. apply N.eqb_eq in Z.
      apply bind_inv in H as (pa & q1 & E1 & H). apply read_asn_inv in E1 as (E1 & B1); auto.
      assert (Hs1 := Hs). rewrite E1 in Hs1. apply bytes_ok_app in Hs1 as [_ Hs1].
      apply bind_inv in H as (la & q2 & E2 & H). apply read_asn_inv in E2 as (E2 & B2); auto.
      rewrite E2 in Hs1. apply bytes_ok_app in Hs1 as [_ Hs1].
      apply bind_inv in H as (o & q3 & E3 & H). apply read_state_inv in E3 as (E3 & O3); auto.
      apply bind_inv in H as (n & q4 & E4 & H). apply read_state_inv in E4 as (E4 & O4); auto.
      apply ret_inv in H as [<- ->]. subst.
      assert (r = []) as ->.
      { unfold encode_asn in Z. rewrite !nlen_app, !nlen_be in Z. cbn [asn_width] in Z. destruct r; auto. rewrite nlen_cons in Z. lia. }
      split; auto. left. cbn [ms_type ms_peer_as ms_local_as ms_ifindex ms_peer ms_local ms_old ms_new].
      repeat split; auto. 
    + clear Z.
      apply bind_inv in H as (pa & q1 & E1 & H). apply bind_inv in H as (la & q2 & E2 & H).
      apply read_asn_inv in E1 as (E1 & B1); auto. assert (Hs1 := Hs). rewrite E1 in Hs1. apply bytes_ok_app in Hs1 as [_ Hs1].
      apply read_asn_inv in E2 as (E2 & B2); auto. rewrite E2 in Hs1. apply bytes_ok_app in Hs1 as [_ Hs1].
      apply bind_inv in H as (i & q3 & E3 & H). apply read_be_inv_ok in E3 as (E3 & B3 & O3); auto.
      apply bind_inv in H as (a & q4 & E4 & H). apply read_afi_inv in E4 as (E4 & O4); auto.
      apply bind_inv in H as (u & q5 & E5 & H). apply lift_inv in E5 as [E5 <-].
      assert (NL : a <> ALinkState) by (intros ->; discriminate E5).
      apply bind_inv in H as (p & q6 & E6 & H). apply read_address_inv in E6 as (E6 & I6 & F6); auto.
      assert (O6 : bytes_ok q6) by (rewrite E6 in O4; apply bytes_ok_app in O4; tauto).
      apply bind_inv in H as (l & q7 & E7 & H). apply read_address_inv in E7 as (E7 & I7 & F7); auto.
      assert (O7 : bytes_ok q7) by (rewrite E7 in O6; apply bytes_ok_app in O6; tauto).
      apply bind_inv in H as (o & q8 & E8 & H). apply read_state_inv in E8 as (E8 & O8); auto.
      apply bind_inv in H as (n & q9 & E9 & H). apply read_state_inv in E9 as (E9 & O9); auto.
      apply ret_inv in H as [<- ->].
      split; auto. right. cbn [ms_type ms_peer_as ms_local_as ms_ifindex ms_peer ms_local ms_old ms_new].
      split; [repeat split; auto; try (apply asn_limit_fits; auto); congruence|].
      exists r. unfold envelope. rewrite af_code, F6. unfold encode_asn in *. rewrite <- !app_assoc. rewrite E1, E2, E3, E4, E6, E7, E8, E9. reflexivity.
  - destruct m as [t' pa la i p l o n]. cbn [ms_type ms_peer_as ms_local_as ms_ifindex ms_peer ms_local ms_old ms_new].
    intros (-> & [(-> & -> & -> & -> & H1 & H2 & ->) | (E & r & ->)]); [|apply mp_state_eq; auto].
    unfold parse_mp_state_change.
    replace (nlen _ =? 8) with true by (rewrite !nlen_app, !nlen_be; reflexivity).
    unfold run. rewrite (bind_ok _ _ _ _ _ (read_asn_be Bits16 pa _ H1)). rewrite (bind_ok _ _ _ _ _ (read_asn_be Bits16 la _ H2)).
    rewrite (bind_ok _ _ _ _ _ (read_state_be o _)). rewrite <- (app_nil_r (be 2 (state_code n))).
    rewrite (bind_ok _ _ _ _ _ (read_state_be n _)). reflexivity.
Qed.
Lemma mp_state_np al t s : np (parse_mp_state_change al t s).
Proof.
  unfold parse_mp_state_change. apply np_run. apply npp_bind; [apply npp_read_asn|]. intros pa. apply npp_bind; [apply npp_read_asn|]. intros la.
  destruct (match al with Bits16 => _ | Bits32 => _ end).
  - apply npp_bind; [apply npp_read_state|]. intros. apply npp_bind; [apply npp_read_state|]. intros. apply npp_ret.
  - apply npp_bind; [apply npp_read_be|]. intros i. apply npp_bind; [apply npp_read_afi|]. intros a.
    apply npp_bind; [apply npp_lift, np_validate|]. intros n.
    apply npp_bind; [apply npp_read_address|]. intros p. apply npp_bind; [apply npp_read_address|]. intros l.
    apply npp_bind; [apply npp_read_state|]. intros. apply npp_bind; [apply npp_read_state|]. intros. apply npp_ret.
Qed.
Lemma encode_mp_state_eq al m : encode_mp_state_change al m =
  envelope al (ms_peer_as m) (ms_local_as m) (ms_ifindex m) (ms_peer m) (ms_local m) ++
  be 2 (state_code (ms_old m)) ++ be 2 (state_code (ms_new m)).
Proof. unfold encode_mp_state_change, envelope. rewrite <- !app_assoc. reflexivity. Qed.

(** * Subtypes *)
Lemma bgp4mp_message_sub sub al ap s : message_subtype sub al ap ->
  parse_bgp4mp sub s = (m <~ parse_mp_message ap al sub s ;; Ok (MpMessage m)) /\
  forall m, encode_bgp4mp sub (MpMessage m) = encode_mp_message al m.
Proof. destruct al, ap; cbn [message_subtype]; intros [-> | ->]; split; intros; reflexivity. Qed.
Lemma bgp4mp_state_sub sub al s : state_subtype sub al ->
  parse_bgp4mp sub s = (m <~ parse_mp_state_change al sub s ;; Ok (MpStateChange m)) /\
  forall m, encode_bgp4mp sub (MpStateChange m) = Ok (encode_mp_state_change al m).
Proof. unfold state_subtype; destruct al; intros ->; split; intros; reflexivity. Qed.
Lemma bgp4mp_unknown sub s : (forall al, ~ state_subtype sub al) -> (forall al ap, ~ message_subtype sub al ap) ->
  parse_bgp4mp sub s = Err EParse /\ forall m, encode_bgp4mp sub m = Err EUnenc.
Proof.
  intros H1 H2. assert (A := H1 Bits16). assert (B := H1 Bits32). assert (C := H2 Bits16 false). assert (D := H2 Bits16 true).
  assert (E := H2 Bits32 false). assert (F := H2 Bits32 true). unfold state_subtype in *; cbn [message_subtype] in *.
  assert (K : mp_known sub = false) by (unfold mp_known; cbn [existsb]; lia).
  split; [|intros m; unfold encode_bgp4mp; rewrite K; reflexivity].
  unfold parse_bgp4mp. code_cases sub; try reflexivity; exfalso; lia.
Qed.
Lemma bgp4mp_np sub s : np (parse_bgp4mp sub s).
Proof.
  assert (M : forall ap al t, np (parse_mp_message ap al t s)) by (intros; apply mp_message_np).
  assert (S : forall al t, np (parse_mp_state_change al t s)) by (intros; apply mp_state_np).
  unfold parse_bgp4mp. code_cases sub; try apply np_err; apply np_rbind; auto; intros; apply np_ok.
Qed.
Lemma zebra_compat_iff sub s : uses_zebra_compat sub s = true <->
  (sub = 0 /\ nlen s = 8) \/ ((sub = 1 \/ sub = 6 \/ sub = 8 \/ sub = 10) /\ zebra_open s).
Proof.
  rewrite <- short_open_iff, <- (N.eqb_eq (nlen s)). unfold uses_zebra_compat.
  code_cases sub; split; intros H; try discriminate; auto 6;
    repeat match goal with H : _ \/ _ |- _ => destruct H as [H|H] | H : _ /\ _ |- _ => destruct H end; try discriminate; auto.
Qed.

(** * Type 5 *)
Lemma ipv4_ok_lt n : ip_ok (V4 n) <-> n < 2 ^ 32. Proof. reflexivity. Qed.
Lemma legacy_message_eq sub pa p la l body : In sub [1; 5; 6; 7] -> pa < 2 ^ 16 -> la < 2 ^ 16 -> p < 2 ^ 32 -> l < 2 ^ 32 ->
  parse_legacy sub (legacy_envelope pa p la l ++ body) =
  (m <~ parse_legacy_payload sub body ;; Ok (LgMessage (LgMsg pa (V4 p) la (V4 l) m))).
Proof.
  intros Hsub H1 H2 H3 H4. unfold parse_legacy.
  assert (G : run (pa <- read_u16 ;; pi <- read_ipv4 ;; la <- read_u16 ;; li <- read_ipv4 ;;
           r <- peek ;; m <- lift (parse_legacy_payload sub r) ;;
           ret (LgMessage (LgMsg pa (V4 pi) la (V4 li) m))) (legacy_envelope pa p la l ++ body) =
           (m <~ parse_legacy_payload sub body ;; Ok (LgMessage (LgMsg pa (V4 p) la (V4 l) m)))).
  { unfold run, legacy_envelope, read_ipv4. rewrite <- !app_assoc.
    rewrite (bind_ok _ _ _ _ _ (read_u16_be pa _ H1)), (bind_ok _ _ _ _ _ (read_be_be 4 p _ H3)).
    rewrite (bind_ok _ _ _ _ _ (read_u16_be la _ H2)), (bind_ok _ _ _ _ _ (read_be_be 4 l _ H4)).
    rewrite (bind_ok peek _ _ _ _ eq_refl). unfold bind, lift. destruct (parse_legacy_payload sub body); reflexivity. }
  destruct Hsub as [<- | [<- | [<- | [<- | []]]]]; exact G.
Qed.
Lemma legacy_state_eq pa p o n : pa < 2 ^ 16 -> p < 2 ^ 32 ->
  parse_legacy 3 (be 2 pa ++ be 4 p ++ be 2 (state_code o) ++ be 2 (state_code n)) = Ok (LgStateChange (LgState pa (V4 p) o n)).
Proof.
  intros H1 H2. unfold parse_legacy, run, read_ipv4.
  rewrite (bind_ok _ _ _ _ _ (read_u16_be pa _ H1)), (bind_ok _ _ _ _ _ (read_be_be 4 p _ H2)). rewrite (bind_ok _ _ _ _ _ (read_state_be o _)).
  rewrite <- (app_nil_r (be 2 (state_code n))). rewrite (bind_ok _ _ _ _ _ (read_state_be n _)). reflexivity.
Qed.
Lemma payload_subtype sub s m : In sub [1; 5; 6; 7] -> parse_legacy_payload sub s = Ok m -> legacy_subtype m sub.
Proof.
  intros Hsub H. destruct Hsub as [<- | [<- | [<- | [<- | []]]]]; cbn [parse_legacy_payload] in H;
    try (apply rbind_inv in H as (x & _ & H); injection H as <-; reflexivity).
  destruct s; [injection H as <-; reflexivity|discriminate].
Qed.
Lemma legacy_iff sub s m : bytes_ok s -> (parse_legacy sub s = Ok m <->
  match m with
  | LgMessage x => exists p l body, lg_peer x = V4 p /\ lg_local x = V4 l /\ legacy_subtype (lg_bgp x) sub /\
      lg_peer_as x < 2 ^ 16 /\ lg_local_as x < 2 ^ 16 /\ p < 2 ^ 32 /\ l < 2 ^ 32 /\
      s = legacy_envelope (lg_peer_as x) p (lg_local_as x) l ++ body /\
      parse_legacy_payload sub body = Ok (lg_bgp x)
  | LgStateChange x => exists p, sub = 3 /\ ls_peer x = V4 p /\ ls_peer_as x < 2 ^ 16 /\ p < 2 ^ 32 /\
      s = be 2 (ls_peer_as x) ++ be 4 p ++ be 2 (state_code (ls_old x)) ++ be 2 (state_code (ls_new x))
  end).
Proof.
  intros Hs. split.
  - intros H. assert (D : In sub [1; 5; 6; 7] \/ sub = 3).
    { unfold parse_legacy in H. revert H. code_cases sub; intros H; try discriminate H; cbn [In]; auto 8. }
    destruct D as [D | ->].
    + assert (H' : run (pa <- read_u16 ;; pi <- read_ipv4 ;; la <- read_u16 ;; li <- read_ipv4 ;;
           r <- peek ;; m <- lift (parse_legacy_payload sub r) ;;
           ret (LgMessage (LgMsg pa (V4 pi) la (V4 li) m))) s = Ok m).
      { destruct D as [<- | [<- | [<- | [<- | []]]]]; exact H. }
      apply run_inv in H' as [r H']. unfold read_ipv4 in H'.
      apply bind_inv in H' as (pa & q1 & E1 & H'). apply read_be_inv_ok in E1 as (E1 & B1 & O1); auto.
      apply bind_inv in H' as (p & q2 & E2 & H'). apply read_be_inv_ok in E2 as (E2 & B2 & O2); auto.
      apply bind_inv in H' as (la & q3 & E3 & H'). apply read_be_inv_ok in E3 as (E3 & B3 & O3); auto.
      apply bind_inv in H' as (l & q4 & E4 & H'). apply read_be_inv_ok in E4 as (E4 & B4 & O4); auto.
      apply bind_inv in H' as (x & q5 & E5 & H'). injection E5 as <- <-.
      apply bind_inv in H' as (bm & q6 & E6 & H'). apply lift_inv in E6 as [E6 <-]. apply ret_inv in H' as [<- ->].
      exists p, l, r. cbn [lg_peer lg_local lg_bgp lg_peer_as lg_local_as].
      split; auto. split; auto. split; [eapply payload_subtype; eauto|]. do 4 (split; [assumption|]).
      split; auto. unfold legacy_envelope. rewrite <- !app_assoc. congruence.
    + cbn [parse_legacy] in H. apply run_inv in H as [r H]. unfold read_ipv4 in H.
      apply bind_inv in H as (pa & q1 & E1 & H). apply read_be_inv_ok in E1 as (E1 & B1 & O1); auto.
      apply bind_inv in H as (p & q2 & E2 & H). apply read_be_inv_ok in E2 as (E2 & B2 & O2); auto.
      apply bind_inv in H as (o & q3 & E3 & H). apply read_state_inv in E3 as (E3 & O3); auto.
      apply bind_inv in H as (n & q4 & E4 & H). apply read_state_inv in E4 as (E4 & O4); auto.
      apply bind_inv in H as (x & q5 & E5 & H). injection E5 as <- <-.
      destruct q4; [|discriminate H]. apply ret_inv in H as [<- <-].
      exists p. cbn [ls_peer ls_peer_as ls_old ls_new]. do 4 (split; [first [reflexivity|assumption]|]).
      rewrite app_nil_r in E4. congruence.
  - destruct m as [x | x].
    + destruct x as [pa pp la ll bm]. cbn [lg_peer lg_local lg_bgp lg_peer_as lg_local_as].
      intros (p & l & body & -> & -> & S & H1 & H2 & H3 & H4 & -> & H5).
      rewrite legacy_message_eq; auto. { rewrite H5. reflexivity. }
      destruct bm; cbn [legacy_subtype] in S; subst; cbn [In]; tauto.
    + destruct x as [pa pp o n]. cbn [ls_peer ls_peer_as ls_old ls_new]. intros (p & -> & -> & H1 & H2 & ->).
      apply legacy_state_eq; auto.
Qed.
Lemma legacy_np sub s : np (parse_legacy sub s).
Proof.
  assert (G : forall k, np (parse_legacy_payload k s)).
  { intros k. unfold parse_legacy_payload. assert (O := parse_open_np s). assert (U := parse_update_np false Bits16 s). assert (Nt := notif_np s).
    code_cases k; try (destruct s; [apply np_ok|apply np_err]); apply np_rbind; auto; intros; apply np_ok. }
  assert (G2 : forall k x, np (parse_legacy_payload k x)).
  { intros k x. unfold parse_legacy_payload. assert (O := parse_open_np x). assert (U := parse_update_np false Bits16 x). assert (Nt := notif_np x).
    code_cases k; try (destruct x; [apply np_ok|apply np_err]); apply np_rbind; auto; intros; apply np_ok. }
  assert (M : np (run (pa <- read_u16 ;; pi <- read_ipv4 ;; la <- read_u16 ;; li <- read_ipv4 ;;
           r <- peek ;; m <- lift (parse_legacy_payload sub r) ;;
           ret (LgMessage (LgMsg pa (V4 pi) la (V4 li) m))) s)).
  { apply np_run. unfold read_ipv4. repeat (apply npp_bind; [apply npp_read_be|]; intros).
    apply npp_bind; [apply npp_peek|]; intros. apply npp_bind; [apply npp_lift, G2|]; intros. apply npp_ret. }
  assert (S : np (run (pa <- read_u16 ;; pi <- read_ipv4 ;; o <- read_state ;; n <- read_state ;;
           r <- peek ;; match r with [] => ret (LgStateChange (LgState pa (V4 pi) o n)) | _ => fail EParse end) s)).
  { apply np_run. unfold read_ipv4. repeat (apply npp_bind; [apply npp_read_be|]; intros).
    repeat (apply npp_bind; [apply npp_read_state|]; intros). apply npp_bind; [apply npp_peek|]; intros x.
    destruct x; [apply npp_ret|apply npp_fail]. }
  unfold parse_legacy. revert M. code_cases sub; intros M; try apply np_err; try exact M; exact S.
Qed.
Lemma asn16_iff a b : asn16 a = Ok b <-> a < 2 ^ 16 /\ b = be 2 a.
Proof.
  unfold asn16. destruct (N.leb_spec a 65535); split; intros H'; try discriminate.
  - injection H' as <-. split; auto. change (2 ^ 16) with 65536. lia.
  - destruct H' as [_ ->]. reflexivity.
  - destruct H' as [H' _]. change (2 ^ 16) with 65536 in H'. lia.
Qed.
Lemma only_ipv4_iff i b : only_ipv4 i = Ok b <-> exists n, i = V4 n /\ b = be 4 n.
Proof.
  destruct i; cbn [only_ipv4]; split; intros H; try discriminate.
  - injection H as <-. eauto.
  - destruct H as (n' & E & ->). injection E as <-. reflexivity.
  - destruct H as (n' & E & _). discriminate.
Qed.
Lemma legacy_encode_iff sub m b : encode_legacy sub m = Ok b <->
  match m with
  | LgMessage x => exists p l body, lg_peer x = V4 p /\ lg_local x = V4 l /\ legacy_subtype (lg_bgp x) sub /\
      lg_peer_as x < 2 ^ 16 /\ lg_local_as x < 2 ^ 16 /\
      b = legacy_envelope (lg_peer_as x) p (lg_local_as x) l ++ body /\
      encode_body Bits16 (lg_bgp x) = Ok body
  | LgStateChange x => exists p, sub = 3 /\ ls_peer x = V4 p /\ ls_peer_as x < 2 ^ 16 /\
      b = be 2 (ls_peer_as x) ++ be 4 p ++ be 2 (state_code (ls_old x)) ++ be 2 (state_code (ls_new x))
  end.
Proof.
  destruct m as [x | x]; cbn [encode_legacy].
  - assert (P : forall bm body, encode_legacy_payload sub bm = Ok body <-> legacy_subtype bm sub /\ encode_body Bits16 bm = Ok body).
    { intros bm body. unfold encode_legacy_payload. destruct bm; cbn [legacy_subtype encode_body]; code_cases sub;
        split; try (intros H; discriminate H); try (intros [H _]; first [discriminate H|contradiction H]); try tauto; auto. }
    split.
    + destruct (existsb (N.eqb sub) [1; 5; 6; 7]) eqn:E; [|discriminate]. intros H. apply rbind_inv in H as (e & H1 & H).
      apply rbind_inv in H as (pl & H2 & H). injection H as <-. apply P in H2 as [H2 H3].
      unfold encode_envelope in H1. apply rbind_inv in H1 as (a1 & A1 & H1). apply rbind_inv in H1 as (a2 & A2 & H1).
      apply rbind_inv in H1 as (a3 & A3 & H1). apply rbind_inv in H1 as (a4 & A4 & H1). injection H1 as <-.
      apply asn16_iff in A1 as [L1 ->]. apply only_ipv4_iff in A2 as (p & A2 & ->). apply asn16_iff in A3 as [L3 ->].
      apply only_ipv4_iff in A4 as (l & A4 & ->). exists p, l, pl. repeat split; auto.
    + intros (p & l & body & E1 & E2 & S & L1 & L2 & -> & E3).
      replace (existsb (N.eqb sub) [1; 5; 6; 7]) with true by (destruct (lg_bgp x); cbn [legacy_subtype] in S; subst; tauto).
      unfold encode_envelope. rewrite (proj2 (asn16_iff _ _) (conj L1 eq_refl)), E1. cbn [only_ipv4 rbind].
      rewrite (proj2 (asn16_iff _ _) (conj L2 eq_refl)), E2. cbn [only_ipv4 rbind].
      rewrite (proj2 (P _ _) (conj S E3)). reflexivity.
  - split.
    + destruct (N.eqb_spec sub 3); [|discriminate]. intros H. apply rbind_inv in H as (a & H1 & H). apply rbind_inv in H as (c & H2 & H).
      injection H as <-. apply asn16_iff in H1 as [L ->]. apply only_ipv4_iff in H2 as (p & H2 & ->). exists p. auto.
    + intros (p & -> & E & L & ->). cbn [N.eqb Pos.eqb]. rewrite (proj2 (asn16_iff _ _) (conj L eq_refl)), E. reflexivity.
Qed.
Lemma legacy_roundtrip sub m b : encode_legacy sub m = Ok b ->
  match m with
  | LgMessage x => ip_ok (lg_peer x) /\ ip_ok (lg_local x) /\ message_ok false Bits16 (lg_bgp x)
  | LgStateChange x => ip_ok (ls_peer x)
  end -> exists m', parse_legacy sub b = Ok m' /\ same_legacy m m'.
Proof.
  intros H Hm. apply legacy_encode_iff in H. destruct m as [x | x].
  - destruct H as (p & l & body & E1 & E2 & S & L1 & L2 & -> & E3). destruct Hm as (I1 & I2 & Hm). rewrite E1 in I1. rewrite E2 in I2.
    assert (D : In sub [1; 5; 6; 7]) by (destruct (lg_bgp x); cbn [legacy_subtype] in S; subst; cbn [In]; tauto).
    rewrite legacy_message_eq by auto.
    destruct (body_roundtrip false Bits16 _ _ Hm E3) as (m' & E & Sm).
    assert (P : parse_legacy_payload sub body = Ok m').
    { destruct (lg_bgp x); cbn [legacy_subtype] in S; try contradiction S; subst sub; cbn [msg_type parse_body] in E; try exact E.
      cbn [encode_body] in E3. injection E3 as <-. exact E. }
    rewrite P. eexists. split; [reflexivity|]. cbn [same_legacy lg_peer lg_local lg_bgp lg_peer_as lg_local_as]. auto.
  - destruct H as (p & -> & E & L & ->). rewrite E in Hm. rewrite legacy_state_eq by auto. eexists. split; [reflexivity|].
    destruct x; cbn in *. subst. reflexivity.
Qed.
Lemma legacy_payload_iff sub m body : legacy_subtype m sub -> (parse_legacy_payload sub body = Ok m <->
  match m with
  | MUpdate u => parse_update false Bits16 body = Ok u
  | MOpen o => parse_open body = Ok o
  | MNotif n => parse_notif body = Ok n
  | MKeepAlive => body = []
  | MRefresh _ => False
  end).
Proof.
  intros S. assert (G : forall A (r : res A) (f : A -> bgp_msg) x, (forall a b, f a = f b -> a = b) ->
    (m <~ r ;; Ok (f m)) = Ok (f x) <-> r = Ok x).
  { intros A r f x Hf. split; intros H; [|rewrite H; reflexivity]. apply rbind_inv in H as (y & E & H).
    assert (f y = f x) by congruence. apply Hf in H0. congruence. }
  destruct m; cbn [legacy_subtype] in S; try contradiction S; subst sub; cbn [parse_legacy_payload].
  - apply G. intros a b E. congruence.
  - apply G. intros a b E. congruence.
  - apply G. intros a b E. congruence.
  - destruct body; split; intros H; try discriminate; reflexivity.
Qed.
Lemma read_state_bad n r : n < 2 ^ 16 -> ~ 1 <= n <= 8 -> read_state (be 2 n ++ r) = Err EParse.
Proof.
  intros H1 H2. unfold read_state. rewrite (bind_ok _ _ _ _ _ (read_u16_be n r H1)).
  destruct (state_of n) as [s|] eqn:E; [|reflexivity]. exfalso. apply H2, state_known. eauto.
Qed.
Lemma mp_state_bad al t pa la i p l o n r : envelope_ok al pa la i p l -> o < 2 ^ 16 -> n < 2 ^ 16 ->
  ~ (1 <= o <= 8 /\ 1 <= n <= 8) -> parse_mp_state_change al t (envelope al pa la i p l ++ be 2 o ++ be 2 n ++ r) = Err EParse.
Proof.
  intros (H1 & H2 & H3 & H4 & H5 & H6) Ho Hn H. unfold parse_mp_state_change.
  replace (match al with Bits16 => nlen (envelope al pa la i p l ++ be 2 o ++ be 2 n ++ r) =? 8 | Bits32 => false end) with false.
  2:{ destruct al; auto. symmetry. apply N.eqb_neq. rewrite nlen_app, envelope_len. unfold nlen at 1. rewrite octets_length. destruct p; cbn [asn_width]; lia. }
  rewrite <- asn_limit_fits in *. unfold envelope, run. rewrite <- !app_assoc.
  rewrite (bind_ok _ _ _ _ _ (read_asn_be al pa _ H1)). rewrite (bind_ok _ _ _ _ _ (read_asn_be al la _ H2)).
  rewrite (bind_ok _ _ _ _ _ (read_u16_be i _ H3)). rewrite af_code. rewrite (bind_ok _ _ _ _ _ (read_afi_be (afi_of_ip p) _)).
  rewrite validate_ip. rewrite (bind_ok (lift (Ok tt)) _ _ _ _ eq_refl).
  rewrite (bind_ok _ _ _ _ _ (read_address_octets p _ H4)). rewrite H6.
  rewrite (bind_ok _ _ _ _ _ (read_address_octets l _ H5)).
  assert (D : (exists x, state_of o = Some x) \/ ~ 1 <= o <= 8).
  { destruct (state_of o) as [x|] eqn:E; [left; eauto|right]. intros K. apply state_known in K as [x K]. congruence. }
  destruct D as [[x E]|D]; [apply state_code_of in E; subst o|].
  - rewrite (bind_ok _ _ _ _ _ (read_state_be x _)). unfold bind. rewrite read_state_bad; auto.
    intros K. apply H. split; auto. apply state_known. exists x. apply state_of_code.
  - unfold bind. rewrite read_state_bad by auto. reflexivity.
Qed.
Lemma legacy_trailing sub m s x : bytes_ok (s ++ x) -> parse_legacy sub s = Ok m ->
  match m with LgMessage y => lg_bgp y = MKeepAlive | LgStateChange _ => True end -> x <> [] ->
  forall m', parse_legacy sub (s ++ x) <> Ok m'.
Proof.
  intros Hs H Hm Hx m' H'. assert (Hs1 := Hs). apply bytes_ok_app in Hs1 as [Hs1 _].
  apply legacy_iff in H; auto. apply legacy_iff in H'; auto. destruct m as [y|y].
  - destruct H as (p & l & body & _ & _ & S & _ & _ & _ & _ & -> & H). rewrite Hm in S, H. cbn [legacy_subtype] in S. subst sub.
    apply (legacy_payload_iff 7 MKeepAlive body eq_refl) in H. subst body.
    destruct m' as [y'|y'].
    + destruct H' as (p' & l' & body' & _ & _ & S' & _ & _ & _ & _ & E & H').
      apply (legacy_payload_iff 7 _ body' S') in H'. destruct (lg_bgp y'); cbn [legacy_subtype] in S'; try discriminate; try contradiction.
      subst body'. apply (f_equal nlen) in E. unfold legacy_envelope in E. rewrite !nlen_app, !nlen_be in E. destruct x; [congruence|].
      rewrite !nlen_cons in E. unfold nlen in E. lia.
    + destruct H' as (p' & S' & _). discriminate.
  - destruct H as (p & -> & _ & _ & _ & ->). destruct m' as [y'|y'].
    + destruct H' as (p' & l' & body' & _ & _ & S' & _). destruct (lg_bgp y'); cbn [legacy_subtype] in S'; try discriminate; contradiction.
    + destruct H' as (p' & _ & _ & _ & _ & E). apply (f_equal nlen) in E. rewrite !nlen_app, !nlen_be in E. destruct x; [congruence|].
      rewrite !nlen_cons in E. unfold nlen in E. lia.
Qed.
