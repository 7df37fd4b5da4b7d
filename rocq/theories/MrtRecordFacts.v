(** Proofs about whole records. *)
From Coq Require Import ZifyBool ZifyNat ZifyN Lia.
From Verif Require Import Base BaseFacts Reader ReaderFacts Tac Net NetSpec NetFacts AsPath AsPathSpec AsPathFacts Tlv TlvFacts
  FlowSpec FlowSpecFacts LinkState Mpls Nlri NlriSpec NlriFacts Attr AttrFacts Cap BgpError BgpMsg MsgSpec MsgFacts Bgp4mp Bgp4mpSpec Bgp4mpFacts
  TableDump TableDumpSpec TableDumpFacts Stream Framing FramingFacts MrtRecord MrtRecordSpec.
Ltac Zify.zify_post_hook ::= Z.div_mod_to_equations.

(** * Parsing does not panic *)
Lemma dump_v2_np sub s : np (parse_dump_v2 sub s).
Proof.
  assert (np (run parse_peer_table s)) by (apply np_run, npp_table).
  assert (np (run parse_geo_table s)) by (apply np_run, npp_geo).
  pose proof (parse_rib_np sub s) as N3. unfold parse_dump_v2.
  code_cases sub; first [discriminate | apply np_rbind; [assumption|intros; discriminate]].
Qed.
Lemma body_np ty sub s : np (parse_mrt_body ty sub s).
Proof.
  pose proof (parse_dumps_np sub s) as N1. pose proof (dump_v2_np sub s) as N2. pose proof (bgp4mp_np sub s) as N3.
  pose proof (legacy_np sub s) as N4. unfold parse_mrt_body. destruct (negb (etype_known ty)); [discriminate|].
  code_cases ty; first [discriminate | apply np_rbind; [assumption|intros; discriminate]].
Qed.
Lemma raw_np r : np (parse_raw r).
Proof. unfold parse_raw. apply np_rbind; [apply body_np|intros; discriminate]. Qed.
Lemma record_np s : parse_mrt_record_s s <> RPanic.
Proof.
  unfold parse_mrt_record_s. destruct (chunk_mrt_record_s s) as [r s'|]; [|discriminate].
  pose proof (raw_np r) as N. destruct (parse_raw r); try discriminate. elim N. reflexivity.
Qed.

(** * Encoding *)
Lemma np_with_len w r : np r -> np (with_len w r).
Proof. intros H. unfold with_len. apply np_rbind; auto. intros. apply np_put_len. Qed.
Lemma np_write_value v n : n <= 8 -> np (write_value v n).
Proof. intros H. unfold write_value. destruct (N.ltb_spec 8 n); [lia|discriminate]. Qed.
Lemma np_numops l : Forall (fun o => no_len o <= 8) l -> np (encode_numops l).
Proof.
  intros H. unfold encode_numops. apply np_rbind; [|intros; discriminate]. apply np_rmap. intros o Ho.
  unfold encode_numop. apply np_rbind; [|intros; discriminate]. apply np_write_value. rewrite Forall_forall in H. exact (H o Ho).
Qed.
Lemma np_bitops l : Forall (fun o => bo_len o <= 8) l -> np (encode_bitops l).
Proof.
  intros H. unfold encode_bitops. apply np_rbind; [|intros; discriminate]. apply np_rmap. intros o Ho.
  unfold encode_bitop. apply np_rbind; [|intros; discriminate]. apply np_write_value. rewrite Forall_forall in H. exact (H o Ho).
Qed.
Lemma np_component c : comp_lengths_ok c -> np (encode_component c).
Proof.
  intros H. unfold encode_component. apply np_rbind; [|intros; discriminate].
  destruct c; cbn in H; first [discriminate | apply np_numops; exact H | apply np_bitops; exact H].
Qed.
Lemma np_flowspec l : Forall comp_lengths_ok l -> np (encode_flowspec_nlri l).
Proof.
  intros H. unfold encode_flowspec_nlri. apply np_rbind.
  - apply np_rmap. intros c Hc. apply np_component. rewrite Forall_forall in H. auto.
  - intros bs. destruct (_ <? _); discriminate.
Qed.
Lemma np_labeled p m ap o : np (encode_labeled_prefix p m ap o).
Proof.
  unfold encode_labeled_prefix. destruct (lp_labels p); [discriminate|]. destruct (_ && _); [discriminate|].
  destruct (_ <? _); [discriminate|]. apply np_rbind; [|intros; discriminate].
  destruct m; [destruct (_ <? _); discriminate|]. destruct o; [destruct (_ <? _); discriminate|discriminate].
Qed.
Lemma np_encode_nlri n re ap : match nl_fs n with Some l => Forall (Forall comp_lengths_ok) l | None => True end -> np (encode_nlri n re ap).
Proof.
  intros H. unfold encode_nlri. apply np_rbind; [destruct (nl_next n); [apply np_put_len|discriminate]|]. intros nh _.
  apply np_rbind; [|intros; discriminate]. destruct (safi_eqb _ _).
  - apply np_rbind; [|intros; discriminate]. apply np_rmap. intros p _. unfold encode_nlri_labeled.
    pose proof (np_labeled p (if nlen (lp_labels p) <=? 1 then SingleLabel else MultiLabel) ap None) as N.
    destruct (encode_labeled_prefix _ _ _ _); try discriminate. elim N; reflexivity.
  - destruct (afi_eqb _ _); [discriminate|]. apply np_rbind; [|intros; discriminate]. apply np_rmap. intros l Hl.
    apply np_flowspec. destruct (nl_fs n); [|elim Hl]. cbn in Hl. rewrite Forall_forall in H. auto.
Qed.
Lemma np_tlvs tw lw l : np (encode_tlvs tw lw l).
Proof.
  unfold encode_tlvs. apply np_rbind; [|intros; discriminate]. apply np_rmap. intros t _. unfold encode_tlv.
  apply np_rbind; [apply np_put_len|intros; discriminate].
Qed.
Lemma np_tunnels l : np (encode_tunnel_encap l).
Proof.
  unfold encode_tunnel_encap. apply np_rbind; [|intros; discriminate]. apply np_rmap. intros t _. unfold encode_tunnel.
  apply np_rbind; [|intros; discriminate]. apply np_with_len. apply np_rbind; [|intros; discriminate]. apply np_rmap. intros u _.
  unfold encode_sub_tlv. apply np_rbind; [|intros; discriminate]. apply np_put_len.
Qed.
Lemma np_encode_attr l a : attr_lengths_ok a -> np (encode_attribute l a).
Proof.
  intros H. unfold encode_attribute. apply np_rbind; [|intros; discriminate]. apply np_with_len. unfold attr_lengths_ok in H.
  destruct (a_value a) as []; cbn [encode_attr_value];
    try discriminate; try (apply np_encode_nlri; assumption); try apply np_tunnels; try apply encode_path_np; try apply np_tlvs.
  - unfold encode_aggregator. destruct l; [|discriminate]. apply np_rbind; [apply np_check_max|intros; discriminate].
  - unfold encode_bfd. apply np_rbind; [apply np_tlvs|intros; discriminate].
Qed.

Lemma np_encode_attrs l a : Forall attr_lengths_ok a -> np (encode_attributes l a).
Proof.
  intros H. unfold encode_attributes. apply np_rbind; [|intros; discriminate]. apply np_rmap. intros x Hx.
  apply np_encode_attr. rewrite Forall_forall in H. auto.
Qed.
Lemma np_encode_update al u : Forall attr_lengths_ok (at_inner (u_attrs u)) -> np (encode_update al u).
Proof.
  intros H. unfold encode_update. apply np_rbind; [apply np_put_len|]. intros w _.
  apply np_rbind; [|intros; discriminate]. apply np_with_len. apply np_encode_attrs. auto.
Qed.
Lemma np_encode_message al m : Forall attr_lengths_ok (bgp_attrs m) -> np (encode_bgp_message al m).
Proof.
  intros H. unfold encode_bgp_message. apply np_rbind.
  - destruct m; cbn [encode_body]; try discriminate; [apply encode_open_np|apply np_encode_update; exact H].
  - intros b _. apply np_rbind; [apply np_check_max|intros; discriminate].
Qed.
Lemma np_encode_mp sub m : Forall attr_lengths_ok (mrt_attrs (MrtBgp4mp m)) -> np (encode_bgp4mp sub m).
Proof.
  intros H. unfold encode_bgp4mp. destruct (negb _); [discriminate|]. destruct m as [x|x]; [discriminate|].
  unfold encode_mp_message. apply np_rbind; [apply np_encode_message; exact H|intros; discriminate].
Qed.
Lemma np_asn16 a : np (asn16 a). Proof. unfold asn16. destruct (_ <=? _); discriminate. Qed.
Lemma np_only_ipv4 i : np (only_ipv4 i). Proof. destruct i; discriminate. Qed.
Lemma np_encode_legacy sub m : Forall attr_lengths_ok (mrt_attrs (MrtLegacy m)) -> np (encode_legacy sub m).
Proof.
  intros H. unfold encode_legacy. destruct m as [x|x].
  - destruct (existsb _ _); [|discriminate]. apply np_rbind.
    { unfold encode_envelope. repeat (apply np_rbind; [first [apply np_asn16|apply np_only_ipv4]|intros ? _]). discriminate. }
    intros e _. apply np_rbind; [|intros; discriminate]. cbn in H. unfold encode_legacy_payload.
    code_cases sub; destruct (lg_bgp x); first [discriminate|apply encode_open_np|apply np_encode_update; exact H].
  - destruct (sub =? 3); [|discriminate]. repeat (apply np_rbind; [first [apply np_asn16|apply np_only_ipv4]|intros ? _]). discriminate.
Qed.
Lemma np_dump_entry m : Forall attr_lengths_ok (at_inner (td_attrs m)) -> np (encode_dump_entry m).
Proof. intros H. apply np_encode_dump_entry. apply np_encode_attrs. auto. Qed.
Lemma forall_flat {A B} (f : A -> list B) Q l : Forall Q (flat_map f l) -> forall a, In a l -> Forall Q (f a).
Proof. intros H a Ha. rewrite Forall_forall in *. intros b Hb. apply H. apply in_flat_map. eauto. Qed.
Lemma np_encode_dumps sub l : Forall attr_lengths_ok (mrt_attrs (MrtDumps l)) -> np (encode_dumps sub l).
Proof.
  intros H. unfold encode_dumps. destruct l as [|f t]; [discriminate|]. destruct (dump_afi sub); [|discriminate].
  apply np_rbind; [|intros; discriminate]. apply np_rmap. intros m Hm.
  destruct (negb _); [discriminate|]. destruct (_ || _); [discriminate|]. apply np_dump_entry. exact (forall_flat _ _ _ H m Hm).
Qed.
Lemma np_encode_rib r : Forall attr_lengths_ok (mrt_attrs (MrtV2 (V2Rib r))) -> np (encode_rib r).
Proof.
  intros H. unfold encode_rib. apply np_rbind; [apply np_check_max|]. intros _ _. apply np_rbind; [|intros; discriminate].
  apply np_rmap. intros e He. unfold encode_rib_entry. apply np_rbind; [|intros; discriminate]. apply np_with_len, np_encode_attrs.
  exact (forall_flat _ _ _ H e He).
Qed.
Lemma np_encode_body sub m : maps_ok m -> Forall attr_lengths_ok (mrt_attrs m) -> np (encode_mrt_message sub m).
Proof.
  intros Hm H. destruct m as [d|l|v|m|m]; cbn [encode_mrt_message].
  - unfold encode_dump. apply np_rbind; [apply np_dump_entry; exact H|intros; discriminate].
  - apply np_encode_dumps. exact H.
  - destruct v; cbn [encode_dump_v2]; [apply np_encode_table; exact Hm|apply np_encode_rib; exact H|discriminate|apply np_encode_geo].
  - apply np_encode_mp. exact H.
  - apply np_encode_legacy. exact H.
Qed.
(** The one panic left is the length of a header with microseconds. *)
Lemma encode_record_panic r : maps_ok (mr_msg r) -> Forall attr_lengths_ok (mrt_attrs (mr_msg r)) ->
  (encode_mrt_record r = Panic <-> exists us b, h_us (mr_hdr r) = Some us /\
     encode_mrt_message (h_sub (mr_hdr r)) (mr_msg r) = Ok b /\ 2 ^ 32 - 4 <= nlen b < 2 ^ 32).
Proof.
  intros Hm H. pose proof (np_encode_body (h_sub (mr_hdr r)) (mr_msg r) Hm H) as N. unfold encode_mrt_record.
  destruct (encode_mrt_message _ _) as [b|e|]; [|split; [discriminate|intros (us & b & _ & X & _); discriminate]|elim N; reflexivity].
  cbn [rbind]. change (2 ^ 32) with 4294967296. unfold check_max. destruct (N.ltb_spec 4294967295 (nlen b)) as [L|L]; cbn [rbind].
  { split; [discriminate|]. intros (us & b0 & _ & X & Y). apply ok_inj in X. subst. lia. }
  unfold encode_header, with_length. cbn [h_us h_len]. destruct (h_us (mr_hdr r)) as [us|]; cbn [rbind].
  2:{ split; [discriminate|]. intros (us & b0 & X & _). discriminate. }
  destruct (N.ltb_spec 4294967295 (nlen b + 4)) as [L1|L1]; cbn [rbind].
  - split; auto. intros _. exists us, b. split; auto. split; auto. lia.
  - split; [discriminate|]. intros (us0 & b0 & _ & X & Y). apply ok_inj in X. subst. lia.
Qed.

(** * Parsed records *)
Lemma nlri_no_fs s a sf ps re ap n : parse_nlri s a sf ps re ap = Ok n -> nl_fs n = None.
Proof.
  unfold parse_nlri. intros H. apply run_inv in H as (z & H). do 3 (apply bind_inv in H as (? & ? & _ & H)).
  destruct (_ && _).
  { do 2 (apply bind_inv in H as (? & ? & _ & H)). apply ret_inv in H as [<- _]. reflexivity. }
  destruct (safi_eqb _ _); [destruct re|].
  - do 2 (apply bind_inv in H as (? & ? & _ & H)). apply ret_inv in H as [<- _]. reflexivity.
  - apply bind_inv in H as (? & ? & _ & H). apply ret_inv in H as [<- _]. reflexivity.
  - apply bind_inv in H as (? & ? & _ & H). apply ret_inv in H as [<- _]. reflexivity.
Qed.
Lemma res_map_ok {A B} (f : A -> B) r b : res_map f r = Ok b -> exists a, r = Ok a /\ b = f a.
Proof. destruct r; try discriminate. intros H. apply ok_inj in H. eauto. Qed.
Lemma value_lengths k c s v f : parse_attr_value k c s = Ok v -> attr_lengths_ok (Attr v f).
Proof.
  unfold parse_attr_value. intros H. unfold attr_lengths_ok. cbn [a_value].
  revert H. code_cases c; intros H;
    first [discriminate H
          | apply ok_inj in H; subst v; exact I
          | apply res_map_ok in H as (x & H & E); first [destruct x; subst v; exact I | subst v; first [exact I | apply nlri_no_fs in H; rewrite H; exact I]]].
Qed.
Lemma raw_lengths k c f v a w : attr_of_raw k c f v = Ok (a, w) -> attr_lengths_ok a.
Proof.
  unfold attr_of_raw. destruct (mem c deprecated_codes); [intros H; apply ok_inj in H; injection H as <- _; exact I|].
  destruct (negb _); [intros H; apply ok_inj in H; injection H as <- _; exact I|].
  destruct (mem c raw_retained_codes); [intros H; apply ok_inj in H; injection H as <- _; exact I|].
  destruct (parse_attr_value k c v) as [x|e|] eqn:E.
  - destruct (_ =? _); [|discriminate]. intros H. apply ok_inj in H. injection H as <- _. exact (value_lengths _ _ _ _ _ E).
  - intros H. apply ok_inj in H. injection H as <- _. exact I.
  - discriminate.
Qed.
Lemma attrs_lengths k s A : parse_attributes k s = Ok A -> Forall attr_lengths_ok (at_inner A).
Proof.
  unfold parse_attributes. intros H. apply rbind_inv in H as ([[l w] m] & H & E). apply ok_inj in E. subst A.
  cbn [at_inner]. revert H. generalize 0 as mask. generalize (length s) as fuel. intros fuel. revert s l w m.
  induction fuel as [|fuel IH]; intros s l w m mask; cbn [attrs_loop].
  - destruct (Nat.leb 3 _); [discriminate|]. intros H. apply ok_inj in H. injection H as <- _ _. constructor.
  - destruct (Nat.leb 3 _); [|intros H; apply ok_inj in H; injection H as <- _ _; constructor]. intros H.
    apply rbind_inv in H as ([[[f c] n] s1] & _ & H). destruct (_ <? _).
    { apply ok_inj in H. injection H as <- _ _. constructor. }
    apply rbind_inv in H as ([v s2] & _ & H). apply rbind_inv in H as ([a we] & E & H).
    apply rbind_inv in H as ([[l' w'] m'] & H & E2). apply ok_inj in E2. injection E2 as <- _ _. constructor; eauto using raw_lengths.
Qed.
Lemma warnings_inner l : forall A, at_inner (fold_left add_warning l A) = at_inner A.
Proof. induction l; intros A; cbn [fold_left]; auto. rewrite IHl. reflexivity. Qed.
Lemma update_lengths ap al s u : parse_update ap al s = Ok u -> Forall attr_lengths_ok (at_inner (u_attrs u)).
Proof.
  unfold parse_update. intros H. apply run_inv in H as (z & H). do 3 (apply bind_inv in H as (? & ? & _ & H)).
  apply bind_inv in H as ([wd ww] & ? & _ & H). do 3 (apply bind_inv in H as (? & ? & _ & H)).
  apply bind_inv in H as (A & ? & E & H). apply lift_inv in E as (E & _). apply bind_inv in H as (? & ? & _ & H).
  apply bind_inv in H as ([an aw] & ? & _ & H). apply ret_inv in H as [<- _]. cbn [u_attrs]. rewrite warnings_inner.
  rewrite (proj1 (check_mandatory_same _ _ _)). exact (attrs_lengths _ _ _ E).
Qed.
Lemma pbody_lengths ap al t d m : parse_body ap al t d = Ok m -> Forall attr_lengths_ok (bgp_attrs m).
Proof.
  unfold parse_body. intros H.
  assert (G : forall {A} (r : res A) (f : A -> bgp_msg), rbind r (fun a => Ok (f a)) = Ok m -> exists a, r = Ok a /\ m = f a).
  { intros A r f E. apply rbind_inv in E as (a & E1 & E2). apply ok_inj in E2. eauto. }
  destruct (N.eqb_spec t 2) as [->|Hn].
  - apply G in H as (u & H & ->). exact (update_lengths _ _ _ _ H).
  - revert H Hn. code_cases t; intros H Hn; try (elim Hn; reflexivity);
      first [apply ok_inj in H; subst m; constructor | apply G in H as (u & H & ->); constructor].
Qed.
Lemma message_lengths ap al s m r : parse_bgp_message ap al s = Ok (m, r) -> Forall attr_lengths_ok (bgp_attrs m).
Proof.
  unfold parse_bgp_message. intros H. do 4 (apply bind_inv in H as (? & ? & _ & H)). destruct (_ <? 19); [discriminate|].
  apply bind_inv in H as (t & ? & _ & H). destruct (_ || _); [discriminate|]. destruct (_ && _); [discriminate|].
  do 2 (apply bind_inv in H as (? & ? & _ & H)). apply lift_inv in H as (H & _). exact (pbody_lengths _ _ _ _ _ H).
Qed.
Lemma mp_lengths sub s m : parse_bgp4mp sub s = Ok m -> Forall attr_lengths_ok (mrt_attrs (MrtBgp4mp m)).
Proof.
  assert (G : forall ap al t x, parse_mp_message ap al t s = Ok x -> Forall attr_lengths_ok (bgp_attrs (mm_bgp x))).
  { intros ap al t x H. unfold parse_mp_message in H. apply run_inv in H as (z & H). do 2 (apply bind_inv in H as (? & ? & _ & H)).
    destruct (is_short_zebra_open _ _).
    - apply bind_inv in H as (y & ? & E & H). apply ret_inv in H as [<- _]. exact (message_lengths _ _ _ _ _ E).
    - do 6 (apply bind_inv in H as (? & ? & _ & H)). destruct (negb _); [discriminate|].
      apply bind_inv in H as (y & ? & E & H). apply ret_inv in H as [<- _]. exact (message_lengths _ _ _ _ _ E). }
  unfold parse_bgp4mp. code_cases sub; intros H; first [discriminate H |
    apply rbind_inv in H as (x & E & H); apply ok_inj in H; subst m; first [exact (G _ _ _ _ E)|constructor]].
Qed.
Lemma legacy_lengths sub s m : parse_legacy sub s = Ok m -> Forall attr_lengths_ok (mrt_attrs (MrtLegacy m)).
Proof.
  assert (G : forall sub s x, parse_legacy_payload sub s = Ok x -> Forall attr_lengths_ok (bgp_attrs x)).
  { clear. intros sub s x H. unfold parse_legacy_payload in H. destruct (N.eqb_spec sub 1) as [->|Hn].
    - apply rbind_inv in H as (u & H & E). apply ok_inj in E. subst x. exact (update_lengths _ _ _ _ H).
    - revert H Hn. code_cases sub; intros H Hn; try (elim Hn; reflexivity);
        first [apply rbind_inv in H as (u & H & E); apply ok_inj in E; subst x; constructor
              | destruct s; [apply ok_inj in H; subst x; constructor|discriminate]]. }
  assert (K : run (pa <- read_u16 ;; pi <- read_ipv4 ;; la <- read_u16 ;; li <- read_ipv4 ;;
           r <- peek ;; x <- lift (parse_legacy_payload sub r) ;;
           ret (LgMessage (LgMsg pa (V4 pi) la (V4 li) x))) s = Ok m -> Forall attr_lengths_ok (mrt_attrs (MrtLegacy m))).
  { intros H. apply run_inv in H as (z & H). do 5 (apply bind_inv in H as (? & ? & _ & H)).
    apply bind_inv in H as (pl & ? & E & H). apply lift_inv in E as (E & _). apply ret_inv in H as [<- _]. exact (G _ _ _ E). }
  unfold parse_legacy. code_cases sub; intros H; first [discriminate H | exact (K H) | clear K].
  apply run_inv in H as (z & H). do 5 (apply bind_inv in H as (? & ? & _ & H)).
  match type of H with context [match ?r with _ => _ end] => destruct r end; [|discriminate]. apply ret_inv in H as [<- _]. constructor.
Qed.
Lemma dumps_lengths sub s l : parse_dumps sub s = Ok l -> Forall (fun d => Forall attr_lengths_ok (at_inner (td_attrs d))) l.
Proof.
  unfold parse_dumps. destruct (dump_afi sub) as [a|]; [|discriminate]. intros H. apply run_inv in H as (z & H).
  apply bind_inv in H as (v & ? & _ & H). apply bind_inv in H as (q & ? & _ & H). apply bind_inv in H as (r & ? & _ & H).
  apply bind_inv in H as (l0 & ? & E & H). apply lift_inv in E as (E & _).
  assert (l0 = l) as -> by (destruct l0; [discriminate|]; apply ret_inv in H as [-> _]; reflexivity). clear H.
  revert E. generalize (length r) as fuel. intros fuel. revert r l. induction fuel as [|fuel IH]; intros r l; cbn [many_p].
  - destruct r; [|discriminate]. intros H. apply ok_inj in H. subst l. constructor.
  - destruct r as [|b r]; [intros H; apply ok_inj in H; subst l; constructor|]. intros H.
    apply rbind_inv in H as ([d s1] & H1 & H). apply rbind_inv in H as (t & H2 & H). apply ok_inj in H. subst l. constructor; [|eauto].
    unfold read_dump_entry in H1. do 8 (apply bind_inv in H1 as (? & ? & _ & H1)).
    apply bind_inv in H1 as (A & ? & E & H1). apply lift_inv in E as (E & _). apply ret_inv in H1 as [<- _]. cbn [td_attrs].
    rewrite (proj1 (check_mandatory_same _ _ _)). exact (attrs_lengths _ _ _ E).
Qed.
Lemma rib_lengths t s r : parse_rib t s = Ok r -> Forall attr_lengths_ok (flat_map (fun e => at_inner (re_attrs e)) (rb_entries r)).
Proof.
  unfold parse_rib. destruct (rib_family t) as [[a sf]|]; [|discriminate]. intros H. apply run_inv in H as (z & H).
  do 4 (apply bind_inv in H as (? & ? & _ & H)). apply bind_inv in H as (l & ? & E & H). apply lift_inv in E as (E & _).
  apply ret_inv in H as [<- _]. cbn [rb_entries]. revert E. match goal with |- upto_p ?n _ ?s = _ -> _ => generalize n; generalize s end.
  intros s0 n. revert s0 l. induction n as [|n IH]; intros s0 l; cbn [upto_p].
  - intros E. apply ok_inj in E. subst l. constructor.
  - destruct (read_rib_entry _ _ _ _ s0) as [[e s1]| |] eqn:E; [| |discriminate].
    + intros H. apply rbind_inv in H as (l' & H & E2). apply ok_inj in E2. subst l. cbn [flat_map]. apply Forall_app. split; [|eauto].
      unfold read_rib_entry in E. destruct (Nat.ltb _ _); [discriminate|]. do 6 (apply bind_inv in E as (? & ? & _ & E)).
      apply bind_inv in E as (A & ? & E1 & E). apply lift_inv in E1 as (E1 & _). apply ret_inv in E as [<- _]. cbn [re_attrs].
      rewrite (proj1 (check_mandatory_same _ _ _)). exact (attrs_lengths _ _ _ E1).
    + intros H. apply ok_inj in H. subst l. constructor.
Qed.
Lemma dump_v2_lengths sub s m : parse_dump_v2 sub s = Ok m -> Forall attr_lengths_ok (mrt_attrs (MrtV2 m)) /\ maps_ok (MrtV2 m).
Proof.
  unfold parse_dump_v2. intros H.
  assert (G : r <~ parse_rib sub s;; Ok (V2Rib r) = Ok m -> Forall attr_lengths_ok (mrt_attrs (MrtV2 m)) /\ maps_ok (MrtV2 m)).
  { intros E. apply rbind_inv in E as (r & E & E2). apply ok_inj in E2. subst m. split; [exact (rib_lengths _ _ _ E)|exact I]. }
  revert H. code_cases sub; intros H; first [discriminate H | exact (G H) | clear G];
    apply rbind_inv in H as (t & E & H); apply ok_inj in H; subst m; (split; [constructor|]); cbn; auto.
  apply run_inv in E as (z & E). unfold parse_peer_table in E. do 5 (apply bind_inv in E as (? & ? & _ & E)).
  apply ret_inv in E as [<- _]. apply number_ok. constructor.
Qed.
Lemma parsed_lengths ty sub s m : parse_mrt_body ty sub s = Ok m -> Forall attr_lengths_ok (mrt_attrs m) /\ maps_ok m.
Proof.
  unfold parse_mrt_body. destruct (negb _); [discriminate|]. code_cases ty; intros H; try discriminate H;
    apply rbind_inv in H as (x & E & H); apply ok_inj in H; subst m.
  all: try (split; [first [exact (mp_lengths _ _ _ E)|exact (legacy_lengths _ _ _ E)]|exact I]).
  all: try exact (dump_v2_lengths _ _ _ E).
  apply dumps_lengths in E. split; [|destruct x as [|? [|]]; exact I].
  assert (F : Forall attr_lengths_ok (flat_map (fun d => at_inner (td_attrs d)) x)).
  { clear - E. induction E; cbn [flat_map]; [constructor|]. apply Forall_app. split; auto. }
  destruct x as [|d [|]]; try exact F. cbn [flat_map] in F. rewrite app_nil_r in F. exact F.
Qed.
Lemma mp_size sub m b : encode_bgp4mp sub m = Ok b -> nlen b <= 65535 + 48.
Proof.
  unfold encode_bgp4mp. destruct (negb _); [discriminate|].
  assert (O : forall i, nlen (octets i) <= 16) by (intros i; unfold nlen; rewrite octets_length; destruct i; cbn; lia).
  assert (B : forall k n, nlen (be k n) = N.of_nat k) by (intros; unfold nlen; rewrite be_length; lia).
  assert (A : forall al a, nlen (encode_asn al a) <= 4) by (intros [] a; unfold encode_asn; rewrite B; cbn; lia).
  destruct m as [x|x].
  - intros H. apply ok_inj in H. subst b. unfold encode_mp_state_change. rewrite !nlen_app, !B.
    pose proof (A (if sub =? 5 then Bits32 else Bits16) (ms_peer_as x)). pose proof (A (if sub =? 5 then Bits32 else Bits16) (ms_local_as x)).
    pose proof (O (ms_peer x)). pose proof (O (ms_local x)). lia.
  - unfold encode_mp_message. generalize (if existsb (N.eqb sub) [4; 9; 11; 7] then Bits32 else Bits16) as al. intros al H.
    apply rbind_inv in H as (y & E & H). apply ok_inj in H. subst b. unfold encode_bgp_message in E.
    apply rbind_inv in E as (z & _ & E). apply rbind_inv in E as (u & C & E). apply check_max_iff in C. apply ok_inj in E. subst y.
    rewrite !nlen_app, !B. change (nlen (repeat 255 16)) with 16.
    pose proof (A al (mm_peer_as x)). pose proof (A al (mm_local_as x)). pose proof (O (mm_peer x)). pose proof (O (mm_local x)). 
    lia.
Qed.
(** The type of a header decides on the kind of the message. *)
Lemma et_message sub s m : parse_mrt_body 17 sub s = Ok m -> exists x, m = MrtBgp4mp x.
Proof. unfold parse_mrt_body. cbn [negb etype_known]. intros H. apply rbind_inv in H as (x & _ & H). apply ok_inj in H. eauto. Qed.
Lemma reencode_np r x : (h_us (r_hdr r) <> None -> h_type (r_hdr r) = 17) -> parse_raw r = Ok x -> encode_mrt_record x <> Panic.
Proof.
  intros Ht H P. unfold parse_raw in H. apply rbind_inv in H as (m & E & H). apply ok_inj in H. subst x.
  pose proof (parsed_lengths _ _ _ _ E) as [L M]. apply encode_record_panic in P as (us & b & U & B & S); auto. cbn [mr_hdr mr_msg] in *.
  rewrite Ht in E by congruence. apply et_message in E as (y & ->). cbn [encode_mrt_message] in B. apply mp_size in B. lia.
Qed.

(** * The length correction of old table dumps *)
Lemma entry_length_app al w r : (al * 2 + 10 <= length w)%nat -> entry_length al (w ++ r) = entry_length al w.
Proof.
  intros H. unfold entry_length. rewrite skipn_app. rewrite firstn_app. rewrite skipn_length.
  replace (2 - (length w - (al * 2 + 8)))%nat with 0%nat by lia. rewrite app_nil_r. reflexivity.
Qed.
Lemma legacy_step fuel al s : s <> [] -> legacy_loop (S fuel) al s =
  if Nat.leb (al * 2 + 10) (length s) then
    if entry_length al s =? nlen s + 4 then true
    else if nlen s <? entry_length al s then false
    else legacy_loop fuel al (skipn (N.to_nat (entry_length al s)) s)
  else false.
Proof.
  intros Hs. cbn [legacy_loop]. destruct s as [|b s]; [congruence|]. set (t := b :: s). clearbody t.
  replace (al * 2 + 10 - 2)%nat with (al * 2 + 8)%nat by lia.
  destruct (Nat.leb_spec (al * 2 + 10) (length t)) as [L|L].
  - rewrite splitn_ge by lia. rewrite splitn_ge by (rewrite skipn_length; lia). reflexivity.
  - destruct (splitn (al * 2 + 8) t) as [[g r]|] eqn:E; auto. apply splitn_some in E as [-> E].
    rewrite app_length in L. rewrite (proj2 (splitn_none 2 r)) by lia. reflexivity.
Qed.
Lemma legacy_loop_iff al fuel : forall s, (length s <= fuel)%nat ->
  (legacy_loop fuel al s = true <-> exists ws c, s = concat ws ++ c /\ Forall (whole_entry al) ws /\ entry_but_four al c).
Proof.
  induction fuel as [|fuel IH]; intros s Hf.
  { destruct s; [|cbn in Hf; lia]. cbn. split; [discriminate|]. intros (ws & c & E & _ & [H _]).
    symmetry in E. apply app_eq_nil in E as [_ ->]. cbn in H. lia. }
  destruct (list_eq_dec N.eq_dec s []) as [->|Hs].
  { cbn. split; [discriminate|]. intros (ws & c & E & _ & [H _]). symmetry in E. apply app_eq_nil in E as [_ ->]. cbn in H. lia. }
  rewrite legacy_step by auto. destruct (Nat.leb_spec (al * 2 + 10) (length s)) as [L|L].
  2:{ split; [discriminate|]. intros (ws & c & -> & F & [H _]). rewrite app_length in L. lia. }
  destruct (N.eqb_spec (entry_length al s) (nlen s + 4)) as [E|E].
  { split; auto. intros _. exists [], s. split; auto. split; [constructor|]. split; auto. }
  destruct (N.ltb_spec (nlen s) (entry_length al s)) as [E2|E2].
  - split; [discriminate|]. intros (ws & c & -> & F & [H H']). exfalso. destruct ws as [|w ws].
    + cbn in *. contradiction.
    + inversion F as [|? ? [F1 F2] _]; subst. cbn [concat] in *. rewrite <- app_assoc in E2. rewrite entry_length_app in E2 by auto.
      rewrite nlen_app in E2. lia.
  - set (n := N.to_nat (entry_length al s)) in *.
    assert (P : (al * 2 + 10 <= n)%nat) by (unfold n, entry_length; lia).
    assert (Q : (n <= length s)%nat) by (unfold n, nlen in *; lia).
    rewrite IH by (rewrite skipn_length; lia). split.
    + intros (ws & c & E3 & F & C). exists (firstn n s :: ws), c. cbn [concat]. rewrite <- app_assoc, <- E3.
      split; [symmetry; apply firstn_skipn|]. split; auto. constructor; auto.
      assert (LW : length (firstn n s) = n) by (rewrite firstn_length; lia).
      split; [lia|]. rewrite <- (entry_length_app al (firstn n s) (skipn n s)) by lia. rewrite firstn_skipn.
      unfold nlen. rewrite LW. unfold n. lia.
    + intros (ws & c & -> & F & C). destruct ws as [|w ws].
      * cbn in *. destruct C. contradiction.
      * inversion F as [|? ? [F1 F2] F3]; subst. cbn [concat] in *. exists ws, c.
        assert (n = length w). { unfold n. rewrite <- app_assoc, entry_length_app by auto. rewrite F2. unfold nlen. lia. }
        rewrite H, <- app_assoc, skipn_app, skipn_all, Nat.sub_diag. auto.
Qed.
Lemma four_short_iff sub s : needs_legacy_length_correction sub s = true <-> four_short sub s.
Proof.
  unfold needs_legacy_length_correction, four_short. split.
  - intros H. assert (exists a, dump_subtype sub a /\ (if Nat.ltb (length s) 4 then false else legacy_loop (length s) (addr_octets a) (skipn 4 s)) = true) as (a & Ha & H').
    { destruct (N.eqb_spec sub 1) as [->|]; [exists AIpv4; split; [left; auto|exact H]|].
      destruct (N.eqb_spec sub 2) as [->|]; [exists AIpv6; split; [right; auto|exact H]|]. discriminate. }
    clear H. destruct (Nat.ltb_spec (length s) 4) as [|L]; [discriminate|].
    apply legacy_loop_iff in H' as (ws & c & E & F & C); [|rewrite skipn_length; lia].
    exists a, (firstn 4 s), ws, c. split; auto. rewrite <- E, firstn_skipn. split; auto. split; auto. rewrite firstn_length; lia.
  - intros (a & head & ws & c & Ha & -> & L & F & C).
    assert (G : legacy_loop (length (head ++ concat ws ++ c)) (addr_octets a) (skipn 4 (head ++ concat ws ++ c)) = true).
    { apply legacy_loop_iff; [rewrite skipn_length; lia|]. exists ws, c. split; auto. rewrite skipn_app, L, skipn_all2 by lia. reflexivity. }
    assert (L4 : Nat.ltb (length (head ++ concat ws ++ c)) 4 = false) by (apply Nat.ltb_ge; rewrite app_length; lia).
    destruct Ha as [[-> ->]|[-> ->]]; cbn [N.eqb Pos.eqb]; rewrite L4; exact G.
Qed.
Lemma app_same_len {A} (a b c d : list A) : a ++ b = c ++ d -> length a = length c -> a = c /\ b = d.
Proof.
  revert c. induction a as [|x a IH]; intros [|y c] E L; try discriminate; auto. cbn in *. injection E as -> E.
  injection L as L. destruct (IH c E L) as [-> ->]. auto.
Qed.
(** Complete bodies are not. *)
Lemma whole_not_short al ws : Forall (whole_entry al) ws -> forall ws' c, concat ws = concat ws' ++ c -> Forall (whole_entry al) ws' ->
  ~ entry_but_four al c.
Proof.
  intros F. induction F as [|w ws [W1 W2] F IH]; intros ws' c E F' [C1 C2].
  - cbn in E. symmetry in E. apply app_eq_nil in E as [_ ->]. cbn in C1. lia.
  - destruct ws' as [|w' ws'].
    + cbn in E. subst c. cbn [concat] in *. rewrite entry_length_app in C2 by auto. rewrite nlen_app in C2. lia.
    + inversion F' as [|? ? [W1' W2'] F'']; subst. cbn [concat] in E. rewrite <- app_assoc in E.
      assert (nlen w = nlen w').
      { rewrite <- W2, <- W2', <- (entry_length_app al w (concat ws)), <- (entry_length_app al w' (concat ws' ++ c)) by auto. rewrite E. reflexivity. }
      apply app_same_len in E as [<- E]; [|unfold nlen in *; lia]. exact (IH _ _ E F'' (conj C1 C2)).
Qed.

Lemma dump_entry_whole a m x : afi_of_ip (net_addr (p_net (td_prefix m))) = a -> afi_of_ip (td_peer m) = a ->
  encode_dump_entry m = Ok x -> whole_entry (addr_octets a) x.
Proof.
  intros H1 H2 H. apply encode_dump_entry_iff in H as (y & _ & L & ->).
  assert (O : forall i, afi_of_ip i = a -> length (octets i) = addr_octets a).
  { intros i <-. rewrite octets_length. destruct i; reflexivity. }
  set (u := octets (net_addr (p_net (td_prefix m))) ++ be 1 (net_len (p_net (td_prefix m))) ++ be 1 (td_status m) ++
            be 4 (td_time m) ++ octets (td_peer m) ++ be 2 (td_asn m)).
  assert (LU : length u = (addr_octets a * 2 + 8)%nat).
  { unfold u. rewrite !app_length, !be_length, !O by auto. lia. }
  match goal with |- whole_entry _ ?z => replace z with (u ++ be 2 (nlen y) ++ y) by (unfold u; rewrite <- !app_assoc; reflexivity) end.
  split; [rewrite !app_length, LU, be_length; lia|]. unfold entry_length. rewrite skipn_app, <- LU, skipn_all, Nat.sub_diag.
  change (skipn 0 (be 2 (nlen y) ++ y)) with (be 2 (nlen y) ++ y). change ([] ++ be 2 (nlen y) ++ y) with (be 2 (nlen y) ++ y).
  rewrite firstn_app, be_length, Nat.sub_diag. rewrite (firstn_all2 (be 2 (nlen y))) by (rewrite be_length; lia). cbn [firstn]. rewrite app_nil_r.
  rewrite be_val_be_small by exact L. unfold nlen. rewrite !app_length, LU, be_length. lia.
Qed.
Lemma dumps_not_short sub l b : encode_dumps sub l = Ok b -> needs_legacy_length_correction sub b = false.
Proof.
  intros H. destruct (needs_legacy_length_correction sub b) eqn:E; auto. exfalso. apply four_short_iff in E as (a & head & ws & c & Ha & -> & L & F & C).
  apply encode_dumps_iff in H as (a' & first & rest & bs & Ha' & El & Fm & F2 & Eb).
  assert (a' = a) as -> by (apply dump_subtype_iff in Ha; apply dump_subtype_iff in Ha'; congruence).
  rewrite (app_assoc (be 2 (td_view first))) in Eb. apply app_same_len in Eb as [_ Eb]; [|rewrite app_length, !be_length; auto].
  assert (W : Forall (whole_entry (addr_octets a)) bs).
  { clear - F2 Fm. induction F2; constructor; inversion Fm; subst; auto. eapply dump_entry_whole; eauto; tauto. }
  exact (whole_not_short _ _ W _ _ (eq_sym Eb) F C).
Qed.
Lemma dump_as_batch sub a m b : dump_subtype sub a -> dump_ok a m -> encode_dump m = Ok b -> encode_dumps sub [m] = Ok b.
Proof.
  intros Hsub Hm H. unfold encode_dump in H. apply rbind_inv in H as (x & H1 & H). apply ok_inj in H. subst b.
  pose proof Hm as [(P1 & P2 & P3 & P4 & P5 & P6 & P7 & P8) _].
  apply encode_dumps_iff. exists a, m, [], [x]. split; auto. split; auto. split; [repeat constructor; auto|].
  split; [repeat constructor; auto|]. cbn [concat]. rewrite app_nil_r. reflexivity.
Qed.

(** * Round trip *)
Lemma body_roundtrip ty sub m b : body_ok ty sub m b -> encode_mrt_message sub m = Ok b ->
  exists m', parse_mrt_body ty sub b = Ok m' /\ same_body m m'.
Proof.
  intros H E. destruct m as [d|l|v|m|m]; cbn [body_ok encode_mrt_message] in *.
  - destruct H as (-> & a & Ha & Hd & Hv & Hq). apply (dump_as_batch sub a) in E; auto.
    destruct (dumps_roundtrip sub a [d] b Ha (Forall_cons _ Hd (Forall_nil _)) (Forall_cons _ (conj Hv Hq) (Forall_nil _)) E) as (l' & R & F).
    inversion F as [|? d' ? l0 S F0]; subst. inversion F0; subst. exists (MrtDump d'). split; auto.
    change (parse_mrt_body 12 sub b) with (l <~ parse_dumps sub b ;; Ok (match l with [m] => MrtDump m | _ => MrtDumps l end)).
    rewrite R. reflexivity.
  - destruct H as (-> & Hl & a & Ha & F).
    assert (F1 : Forall (dump_ok a) l) by (eapply Forall_impl; [|exact F]; cbn; tauto).
    assert (F2 : Forall (fun d => td_view d < 2 ^ 16 /\ td_seq d < 2 ^ 16) l) by (eapply Forall_impl; [|exact F]; cbn; tauto).
    destruct (dumps_roundtrip sub a l b Ha F1 F2 E) as (l' & R & S).
    change (parse_mrt_body 12 sub b) with (l <~ parse_dumps sub b ;; Ok (match l with [m] => MrtDump m | _ => MrtDumps l end)).
    rewrite R. cbn [rbind]. pose proof (forall2_length _ _ _ S) as L. exists (MrtDumps l'). split; auto.
    destruct l' as [|x [|y t]]; auto. rewrite L in Hl. elim Hl. reflexivity.
  - destruct v as [t|r| |t]; cbn [encode_dump_v2] in E.
    + destruct H as (-> & -> & l & Hm & Hn & Hc & Hnm & Hu & Hl & Hp).
      rewrite (table_roundtrip t l) in E by auto. apply ok_inj in E.
      pose proof (table_parse (pt_collector t) (pt_name t) l [] Hc Hnm Hl Hp) as R. rewrite app_nil_r in R. subst b.
      eexists (MrtV2 (V2Peers _)). split.
      { change (parse_mrt_body 13 1 ?s) with (m <~ (t <~ run parse_peer_table s ;; Ok (V2Peers t)) ;; Ok (MrtV2 m)).
        rewrite (run_ok _ _ _ _ R). reflexivity. }
      rewrite (proj2 (utf8_ok_iff _) Hu). cbn [same_body].
      destruct (number_head 0 l (PeerTable (pt_collector t) (pt_name t) [] [])) as [-> ->]. split; auto. split; auto.
      exists l. split; auto. apply number_numbered; auto. change (2 ^ 16) with 65536 in Hl. lia.
    + destruct H as (-> & -> & a & sf & ap & Ht & H1 & H2 & H3 & H4 & H5 & H6).
      destruct (rib_roundtrip _ a sf ap r b Ht eq_refl H1 H2 H3 H4 H5 H6 E) as (r' & R & S).
      exists (MrtV2 (V2Rib r')). split; [|cbn; intuition].
      change (parse_mrt_body 13 ?s ?x) with (m <~ parse_dump_v2 s x ;; Ok (MrtV2 m)).
      assert (D : parse_dump_v2 (rb_type r) b = (q <~ parse_rib (rb_type r) b ;; Ok (V2Rib q))).
      { destruct Ht as (-> & Ha & Hf). destruct Ha as [-> | ->], Hf as [-> | ->], ap; reflexivity. }
      rewrite D, R. reflexivity.
    + elim H.
    + destruct H as (-> & -> & H1 & H2 & H3 & H4 & H5). exists (MrtV2 (V2Geo t)). split; [|reflexivity].
      apply encode_geo_iff in E as (L1 & L2 & ->). rewrite flat_map_geo by auto.
      pose proof (geo_parse (gt_collector t) (gt_name t) (gt_lat t) (gt_lon t) (gt_peers t) [] H1 L1 H2 H3 L2 H4) as R.
      unfold geo_table_wire in R. rewrite app_nil_r in R. rewrite latin1_ascii in R by auto.
      change (parse_mrt_body 13 7 ?s) with (m <~ (t <~ run parse_geo_table s ;; Ok (V2Geo t)) ;; Ok (MrtV2 m)).
      rewrite (run_ok _ _ _ _ R). destruct t; reflexivity.
  - assert (PB : ty = 16 \/ ty = 17 -> parse_mrt_body ty sub b = (m <~ parse_bgp4mp sub b ;; Ok (MrtBgp4mp m))) by (intros [-> | ->]; reflexivity).
    destruct m as [m|m].
    + destruct H as (Ht & Hm & al & Hs & Ho). rewrite PB by auto. exists (MrtBgp4mp (MpStateChange m)). split; [|reflexivity].
      rewrite (proj2 (bgp4mp_state_sub sub al [] Hs)) in E. apply ok_inj in E. subst b.
      rewrite (proj1 (bgp4mp_state_sub sub al _ Hs)), encode_mp_state_eq. rewrite <- (app_nil_r (be 2 (state_code (ms_new m)))).
      rewrite mp_state_eq by exact Ho. subst sub. destruct m; reflexivity.
    + destruct H as (Ht & Hm & (al & ap & Hs & Ho) & Hl). rewrite PB by auto.
      destruct (bgp4mp_message_sub sub al ap b Hs) as [P C]. rewrite C in E.
      destruct (mp_message_roundtrip ap al m b Ho E Hl) as (m' & R & S). exists (MrtBgp4mp (MpMessage m')). split; auto.
      rewrite P, <- Hm, R. reflexivity.
  - assert (Ht : ty = 5) by (destruct m; tauto). subst ty.
    destruct (legacy_roundtrip sub m b E) as (m' & R & S); [destruct m; tauto|]. exists (MrtLegacy m'). split; [|exact S].
    change (parse_mrt_body 5 sub b) with (m <~ parse_legacy sub b ;; Ok (MrtLegacy m)). rewrite R. reflexivity.
Qed.
Lemma body_type ty sub m b : body_ok ty sub m b -> ty = 5 \/ ty = 12 \/ ty = 13 \/ ty = 16 \/ ty = 17.
Proof. destruct m as [d|l|[]|[]|[]]; cbn; intuition. Qed.
Lemma body_dump_type sub m b : body_ok 12 sub m b -> encode_mrt_message sub m = Ok b -> needs_legacy_length_correction sub b = false.
Proof.
  destruct m as [d|l|[]|[]|[]]; cbn [body_ok encode_mrt_message]; intros H E; try (exfalso; intuition discriminate).
  - destruct H as (_ & a & Ha & Hd & _). exact (dumps_not_short _ _ _ (dump_as_batch _ _ _ _ Ha Hd E)).
  - exact (dumps_not_short _ _ _ E).
Qed.
Lemma encode_record_inv r x : encode_mrt_record r = Ok x -> exists b hb, encode_mrt_message (h_sub (mr_hdr r)) (mr_msg r) = Ok b /\
  nlen b <= 4294967295 /\ encode_header (with_length (mr_hdr r) (nlen b)) = Ok hb /\ x = hb ++ b.
Proof.
  unfold encode_mrt_record. intros H. apply rbind_inv in H as (b & E & H). apply rbind_inv in H as (u & C & H). apply check_max_iff in C.
  apply rbind_inv in H as (hb & E2 & H). apply ok_inj in H. exists b, hb. auto.
Qed.
Lemma header_size_len h hb : encode_header h = Ok hb -> nlen hb = header_size h.
Proof.
  unfold encode_header, header_size. destruct (h_us h); [destruct (_ <? _); [discriminate|]|]; intros H; apply ok_inj in H; subst hb;
    unfold nlen; rewrite !app_length, !be_length; reflexivity.
Qed.
(** What the encoder writes is cut out of a stream as it was written. *)
Lemma record_chunk r x rest s : record_ok r x -> encode_mrt_record r = Ok x -> no_fail s -> sbytes s = x ++ rest ->
  nlen x <= header_size (mr_hdr r) + 16777216 ->
  exists b hb s', x = hb ++ b /\ encode_mrt_message (h_sub (mr_hdr r)) (mr_msg r) = Ok b /\
    chunk_mrt_record_s s = CRec (Raw (with_length (mr_hdr r) (nlen b)) hb b) s' /\ sbytes s' = rest /\ no_fail s' /\
    body_ok (h_type (mr_hdr r)) (h_sub (mr_hdr r)) (mr_msg r) b.
Proof.
  intros [Hh Hb] E Hn Hs Hl. apply encode_record_inv in E as (b & hb & E1 & L & E2 & ->).
  pose proof (header_size_len _ _ E2) as LH. change (header_size (with_length (mr_hdr r) (nlen b))) with (header_size (mr_hdr r)) in LH.
  rewrite <- LH, to_nat_nlen, skipn_app, skipn_all, Nat.sub_diag in Hb. cbn [skipn app] in Hb.
  rewrite nlen_app in Hl. exists b, hb.
  assert (HO : header_ok (with_length (mr_hdr r) (nlen b))).
  { destruct Hh as (H1 & H2 & H3). unfold header_ok, with_length. cbn [h_ts h_us h_type h_sub h_len].
    split; auto. split; [apply body_type in Hb as [-> |[-> |[-> |[-> | ->]]]]; reflexivity|]. split; auto.
    change (2 ^ 32) with 4294967296. destruct (h_us (mr_hdr r)); [|split; [exact H3|lia]]. destruct H3. split; auto. split; auto. lia. }
  pose proof (flat_header_encode _ hb (b ++ rest) HO E2) as FH.
  assert (C : chunk_mrt_record (sbytes s) = FRec (Raw (with_length (mr_hdr r) (nlen b)) hb b) rest).
  { rewrite Hs, <- app_assoc, chunk_flat. unfold flat_chunk. rewrite FH. cbn [h_len with_length h_type h_sub].
    unfold MAX_MRT_MESSAGE_LEN. destruct (N.ltb_spec 16777216 (nlen b)); [lia|].
    rewrite to_nat_nlen, splitn_app by reflexivity. unfold ET_TABLE_DUMP. destruct (N.eqb_spec (h_type (mr_hdr r)) 12) as [Et|]; [|reflexivity].
    rewrite Et in Hb. rewrite (body_dump_type _ _ _ Hb E1). reflexivity. }
  pose proof (chunk_agree s [Data (sbytes s)] Hn (no_fail_data _) (eq_sym (sbytes_data _))) as A.
  pose proof (chunk_stream_flat s Hn) as F. rewrite C in F.
  destruct (chunk_mrt_record_s s) as [r0 s'|]; [|discriminate]. cbn [to_frame] in F. injection F as -> F.
  exists s'. split; auto. split; auto. split; auto. split; auto. split; auto.
  destruct (chunk_mrt_record_s [Data (sbytes s)]); [|elim A]. destruct A as (_ & A & _). exact A.
Qed.
Lemma record_roundtrip r x rest s : record_ok r x -> encode_mrt_record r = Ok x -> no_fail s -> sbytes s = x ++ rest ->
  nlen x <= header_size (mr_hdr r) + 16777216 ->
  exists r' z s', parse_mrt_record_s s = RRec r' z s' /\ sbytes s' = rest /\ no_fail s' /\ same_record r r' /\
    header_size (mr_hdr r) + h_len (mr_hdr r') = nlen x.
Proof.
  intros Hr E Hn Hs Hl. destruct (record_chunk r x rest s Hr E Hn Hs Hl) as (b & hb & s' & -> & E1 & C & R & N & Hb).
  destruct (body_roundtrip _ _ _ _ Hb E1) as (m' & P & S). exists (MrtRecord (with_length (mr_hdr r) (nlen b)) m'). eexists. exists s'.
  unfold parse_mrt_record_s. rewrite C. unfold parse_raw. cbn [r_hdr r_body with_length h_type h_sub]. rewrite P. cbn [rbind].
  split; [reflexivity|]. split; auto. split; auto. split; [split; [repeat split|exact S]|].
  cbn [mr_hdr with_length h_len]. apply encode_record_inv in E as (b1 & hb1 & E1' & _ & E2 & Ex). assert (b1 = b) by congruence. subst b1.
  apply app_inv_tail in Ex. subst hb1. apply header_size_len in E2. rewrite nlen_app, E2. reflexivity.
Qed.
Lemma legacy_kind sub s m : parse_legacy sub s = Ok m ->
  match m with LgMessage x => legacy_subtype (lg_bgp x) sub | LgStateChange _ => sub = 3 end.
Proof.
  assert (K : run (pa <- read_u16 ;; pi <- read_ipv4 ;; la <- read_u16 ;; li <- read_ipv4 ;;
           r <- peek ;; x <- lift (parse_legacy_payload sub r) ;;
           ret (LgMessage (LgMsg pa (V4 pi) la (V4 li) x))) s = Ok m -> exists x r, m = LgMessage x /\ parse_legacy_payload sub r = Ok (lg_bgp x)).
  { intros H. apply run_inv in H as (z & H). do 5 (apply bind_inv in H as (? & ? & _ & H)).
    apply bind_inv in H as (pl & ? & E & H). apply lift_inv in E as (E & _). apply ret_inv in H as [<- _]. eauto. }
  unfold parse_legacy. code_cases sub; intros H; first [discriminate H | apply K in H as (x & r & -> & H) | clear K];
    try (unfold parse_legacy_payload in H; first [apply rbind_inv in H as (u & _ & H); apply ok_inj in H; rewrite <- H; reflexivity
         | destruct r; [apply ok_inj in H; rewrite <- H; reflexivity|discriminate]]).
  apply run_inv in H as (z & H). do 5 (apply bind_inv in H as (? & ? & _ & H)).
  match type of H with context [match ?r with _ => _ end] => destruct r end; [|discriminate]. apply ret_inv in H as [<- _]. reflexivity.
Qed.
Lemma mp_kind sub s m : parse_bgp4mp sub s = Ok m -> mp_type m = sub.
Proof.
  assert (G : forall ap al t x, parse_mp_message ap al t s = Ok x -> mm_type x = t).
  { intros ap al t x H. unfold parse_mp_message in H. apply run_inv in H as (z & H). do 2 (apply bind_inv in H as (? & ? & _ & H)).
    destruct (is_short_zebra_open _ _).
    - apply bind_inv in H as (y & ? & E & H). apply ret_inv in H as [<- _]. reflexivity.
    - do 6 (apply bind_inv in H as (? & ? & _ & H)). destruct (negb _); [discriminate|].
      apply bind_inv in H as (y & ? & E & H). apply ret_inv in H as [<- _]. reflexivity. }
  assert (K : forall al t x, parse_mp_state_change al t s = Ok x -> ms_type x = t).
  { intros al t x H. unfold parse_mp_state_change in H. apply run_inv in H as (z & H). do 2 (apply bind_inv in H as (? & ? & _ & H)).
    destruct (match al with Bits16 => _ | Bits32 => _ end).
    - do 2 (apply bind_inv in H as (? & ? & _ & H)). apply ret_inv in H as [<- _]. reflexivity.
    - do 7 (apply bind_inv in H as (? & ? & _ & H)). apply ret_inv in H as [<- _]. reflexivity. }
  unfold parse_bgp4mp. code_cases sub; intros H; first [discriminate H |
    apply rbind_inv in H as (x & E & H); apply ok_inj in H; subst m; first [exact (G _ _ _ _ E)|exact (K _ _ _ E)]].
Qed.
Lemma rib_kind t s r : parse_rib t s = Ok r -> rb_type r = t.
Proof.
  unfold parse_rib. destruct (rib_family t) as [[a sf]|]; [|discriminate]. intros H. apply run_inv in H as (z & H).
  do 5 (apply bind_inv in H as (? & ? & _ & H)). apply ret_inv in H as [<- _]. reflexivity.
Qed.
Lemma dump_v2_kind sub s m : parse_dump_v2 sub s = Ok m -> dump_type m = sub.
Proof.
  assert (G : r <~ parse_rib sub s;; Ok (V2Rib r) = Ok m -> dump_type m = sub).
  { intros E. apply rbind_inv in E as (r & E & E2). apply ok_inj in E2. subst m. exact (rib_kind _ _ _ E). }
  unfold parse_dump_v2. code_cases sub; intros H; first [discriminate H | exact (G H) | clear G];
    apply rbind_inv in H as (t & E & H); apply ok_inj in H; subst m; reflexivity.
Qed.
Lemma dumps_nonempty sub s l : parse_dumps sub s = Ok l -> l <> [].
Proof.
  unfold parse_dumps. destruct (dump_afi sub); [|discriminate]. intros H. apply run_inv in H as (z & H).
  do 3 (apply bind_inv in H as (? & ? & _ & H)). apply bind_inv in H as (l0 & ? & _ & H). destruct l0; [discriminate|].
  apply ret_inv in H as [<- _]. discriminate.
Qed.
Lemma body_kind ty sub s m : parse_mrt_body ty sub s = Ok m ->
  match m with
  | MrtDump _ => ty = 12 | MrtDumps l => ty = 12 /\ (2 <= length l)%nat
  | MrtV2 v => ty = 13 /\ dump_type v = sub
  | MrtBgp4mp x => (ty = 16 \/ ty = 17) /\ mp_type x = sub
  | MrtLegacy (LgMessage x) => ty = 5 /\ legacy_subtype (lg_bgp x) sub
  | MrtLegacy (LgStateChange _) => ty = 5 /\ sub = 3
  end.
Proof.
  unfold parse_mrt_body. destruct (negb _); [discriminate|]. code_cases ty; intros H; try discriminate H;
    apply rbind_inv in H as (x & E & H); apply ok_inj in H; subst m.
  all: try (split; [auto|first [exact (mp_kind _ _ _ E)|exact (dump_v2_kind _ _ _ E)]]).
  all: try (apply legacy_kind in E; destruct x; auto; fail).
  apply dumps_nonempty in E. destruct x as [|d [|e l]]; [congruence|auto|]. split; auto. cbn. lia.
Qed.
Lemma record_oversize r x rest s : record_ok r x -> encode_mrt_record r = Ok x -> no_fail s -> sbytes s = x ++ rest ->
  header_size (mr_hdr r) + 16777216 < nlen x -> exists c s', parse_mrt_record_s s = RErr EUnsup (Some c) s'.
Proof.
  intros [Hh Hb] E Hn Hs Hl. apply encode_record_inv in E as (b & hb & E1 & L & E2 & ->).
  pose proof (header_size_len _ _ E2) as LH. change (header_size (with_length (mr_hdr r) (nlen b))) with (header_size (mr_hdr r)) in LH.
  rewrite nlen_app in Hl. apply body_type in Hb.
  assert (HO : header_ok (with_length (mr_hdr r) (nlen b))).
  { destruct Hh as (H1 & H2 & H3). unfold header_ok, with_length. cbn [h_ts h_us h_type h_sub h_len].
    split; auto. split; [destruct Hb as [-> |[-> |[-> |[-> | ->]]]]; reflexivity|]. split; auto.
    change (2 ^ 32) with 4294967296. unfold encode_header in E2. cbn [with_length h_us h_len] in E2.
    destruct (h_us (mr_hdr r)); [|split; [exact H3|lia]]. destruct H3. split; auto. split; auto.
    destruct (N.ltb_spec 4294967295 (nlen b + 4)); [discriminate|lia]. }
  pose proof (flat_header_encode _ hb (b ++ rest) HO E2) as FH. pose proof (chunk_stream_flat s Hn) as F.
  rewrite Hs, <- app_assoc, chunk_flat in F. unfold flat_chunk in F. rewrite FH in F. cbn [h_len with_length] in F.
  unfold MAX_MRT_MESSAGE_LEN in F. destruct (N.ltb_spec 16777216 (nlen b)); [|lia].
  unfold parse_mrt_record_s. destruct (chunk_mrt_record_s s) as [|e h c s']; [discriminate|]. cbn [to_frame] in F. injection F as -> _ -> _. eauto.
Qed.
Lemma parsed_reencode s r z s' : parse_mrt_record_s s = RRec r z s' -> bytes_ok (sbytes s) -> no_fail s -> encode_mrt_record r <> Panic.
Proof.
  intros H Hb Hn. unfold parse_mrt_record_s in H. pose proof (chunk_stream_flat s Hn) as F. rewrite chunk_flat in F.
  destruct (chunk_mrt_record_s s) as [w s1|]; [|discriminate]. destruct (parse_raw w) as [x|e|] eqn:E; try discriminate.
  assert (x = r) as -> by congruence. apply (reencode_np w r); auto. intros U. cbn [to_frame] in F. unfold flat_chunk in F.
  destruct (flat_header (sbytes s)) as [[[h hb] rr]|[[e c] rr]] eqn:FH.
  2:{ destruct e; try discriminate. destruct c; discriminate. }
  assert (r_hdr w = h). { repeat match type of F with context [if ?c then _ else _] => destruct c | context [match splitn ?a ?b with _ => _ end] => destruct (splitn a b) as [[? ?]|] end; try discriminate; injection F as -> _; reflexivity. }
  subst h. apply flat_header_inv in FH as [_ HO]; auto. destruct HO as (_ & _ & _ & HO). destruct (h_us (r_hdr w)); [apply HO|congruence].
Qed.
Lemma correction_exact s h hb body rest : header_ok h -> encode_header h = Ok hb -> no_fail s -> sbytes s = hb ++ body ++ rest ->
  h_len h = nlen body -> nlen body <= 16777216 ->
  (h_type h = 12 /\ four_short (h_sub h) body ->
     forall more rest', rest = more ++ rest' -> length more = 4%nat ->
     exists s', chunk_mrt_record_s s = CRec (Raw h hb (body ++ more)) s' /\ sbytes s' = rest') /\
  (~ (h_type h = 12 /\ four_short (h_sub h) body) ->
     exists s', chunk_mrt_record_s s = CRec (Raw h hb body) s' /\ sbytes s' = rest).
Proof.
  intros HO E Hn Hs Hl Hm. pose proof (flat_header_encode _ hb (body ++ rest) HO E) as FH. pose proof (chunk_stream_flat s Hn) as F.
  rewrite Hs, chunk_flat in F. unfold flat_chunk in F. rewrite FH, Hl in F. unfold MAX_MRT_MESSAGE_LEN in F.
  destruct (N.ltb_spec 16777216 (nlen body)); [lia|]. rewrite to_nat_nlen, splitn_app in F by reflexivity.
  assert (T : (h_type h =? ET_TABLE_DUMP) && needs_legacy_length_correction (h_sub h) body = true <-> h_type h = 12 /\ four_short (h_sub h) body).
  { rewrite andb_true_iff, N.eqb_eq, four_short_iff. reflexivity. }
  split.
  - intros C more rest' -> Lm. rewrite (proj2 T C), splitn_app in F by auto.
    destruct (chunk_mrt_record_s s) as [w s'|]; [|discriminate]. cbn [to_frame] in F. injection F as -> F. eauto.
  - intros C. destruct ((h_type h =? ET_TABLE_DUMP) && _); [elim C; apply T; reflexivity|].
    destruct (chunk_mrt_record_s s) as [w s'|]; [|discriminate]. cbn [to_frame] in F. injection F as -> F. eauto.
Qed.
Lemma cut_short sub a l b cut more : dump_subtype sub a -> encode_dumps sub l = Ok b -> b = cut ++ more -> length more = 4%nat ->
  (exists l0 d x, l = l0 ++ [d] /\ encode_attributes Bits16 (at_inner (td_attrs d)) = Ok x /\ 4 <= nlen x) -> four_short sub cut.
Proof.
  intros Ha H Eb Lm (l0 & d & x & -> & Ex & Lx). apply encode_dumps_iff in H as (a' & first & rest & bs & Ha' & El & Fm & F2 & Eb').
  rewrite Eb in Eb'. clear b Eb.
  assert (a' = a) as -> by (apply dump_subtype_iff in Ha; apply dump_subtype_iff in Ha'; congruence).
  apply Forall2_app_inv_l in F2 as (b1 & b2 & F1 & F2 & ->). inversion F2 as [|? w ? ? Hw F3]; subst. inversion F3; subst.
  apply Forall_app in Fm as [Fm1 Fm2]. apply Forall_inv in Fm2 as (_ & _ & A1 & A2).
  pose proof (dump_entry_whole _ _ _ A1 A2 Hw) as [W1 W2].
  assert (W3 : (addr_octets a * 2 + 14 <= length w)%nat).
  { apply encode_dump_entry_iff in Hw as (y & Ey & _ & ->). assert (y = x) by congruence. subst y.
    assert (O : forall i, afi_of_ip i = a -> length (octets i) = addr_octets a).
    { intros i <-. rewrite octets_length. destruct i; reflexivity. }
    rewrite !app_length, !be_length, !O by auto. unfold nlen in Lx. lia. }
  rewrite concat_app in Eb'. cbn [concat] in Eb'. rewrite app_nil_r in Eb'. set (c := firstn (length w - 4) w).
  assert (Ec : w = c ++ skipn (length w - 4) w) by (symmetry; apply firstn_skipn).
  assert (Lc : length c = (length w - 4)%nat) by (unfold c; rewrite firstn_length; lia).
  assert (Ls : length (skipn (length w - 4) w) = 4%nat) by (rewrite skipn_length; lia).
  exists a, (be 2 (td_view first) ++ be 2 (td_seq first)), b1, c. split; auto.
  assert (cut = (be 2 (td_view first) ++ be 2 (td_seq first)) ++ concat b1 ++ c) as ->.
  { rewrite Ec in Eb'. rewrite !app_assoc in Eb'. apply (f_equal (@rev N)) in Eb'. rewrite !rev_app_distr in Eb'.
    apply app_same_len in Eb' as [_ Eb']; [|rewrite !rev_length; lia]. apply (f_equal (@rev N)) in Eb'.
    rewrite !rev_app_distr, !rev_involutive in Eb'. rewrite Eb', <- !app_assoc. reflexivity. }
  split; auto. split; [rewrite app_length, !be_length; reflexivity|]. split.
  - clear - F1 Fm1. induction F1; constructor; inversion Fm1; subst; auto. eapply dump_entry_whole; eauto; tauto.
  - split; [lia|]. rewrite <- (entry_length_app (addr_octets a) c (skipn (length w - 4) w)) by lia. rewrite <- Ec, W2. unfold nlen. lia.
Qed.
