(** Proofs about route-level iteration. *)
From Coq Require Import ZifyBool ZifyNat ZifyN Lia.
From Verif Require Import Tac Base BaseFacts Reader ReaderFacts Net NetFacts AsPath AsPathSpec AsPathFacts Community Nlri Attr AttrSpec AttrFacts BgpMsg MsgFacts Bgp4mp Bgp4mpFacts TableDump TableDumpFacts Stream Framing FramingFacts MrtRecord MrtRecordFacts Elem ElemSpec ElemFacts Filter FilterSpec FilterFacts Iter IterSpec IterFacts Route RouteSpec.

(** ** Attributes *)
Definition rstep (r : rattrs) (v : attr_value) : rattrs :=
  match v with
  | AAsPath p => RAttrs (Some p) (ra_path4 r) (ra_ann r) (ra_wd r)
  | AAs4Path p => RAttrs (ra_path r) (Some p) (ra_ann r) (ra_wd r)
  | AMpReach n => RAttrs (ra_path r) (ra_path4 r) (nl_prefixes n) (ra_wd r)
  | AMpUnreach n => RAttrs (ra_path r) (ra_path4 r) (ra_ann r) (nl_prefixes n)
  | _ => r
  end.
Lemma rstep_other r v : attr_code v <> 2 -> attr_code v <> 17 -> attr_code v <> 14 -> attr_code v <> 15 -> rstep r v = r.
Proof. destruct v; cbn [attr_code rstep]; intros; try reflexivity; congruence. Qed.
Lemma step_attr k c f v a we r : attr_of_raw k c f v = Ok (a, we) -> rattr_step k c v r = Ok (rstep r (a_value a)).
Proof.
  assert (D : c = 2 \/ c = 17 \/ c = 14 \/ c = 15 \/ (c <> 2 /\ c <> 17 /\ c <> 14 /\ c <> 15)) by lia.
  destruct D as [->|[->|[->|[->|(N1 & N2 & N3 & N4)]]]].
  - unfold attr_of_raw. cbn [mem existsb deprecated_codes known_codes raw_retained_codes negb N.eqb Pos.eqb orb parse_attr_value rattr_step].
    destruct (parse_as_path v (ac_asn k)) as [p|e|]; cbn [res_map rbind attr_code N.eqb Pos.eqb]; intros H; try discriminate H; apply ok_inj in H; injection H as <- _; reflexivity.
  - unfold attr_of_raw. cbn [mem existsb deprecated_codes known_codes raw_retained_codes negb N.eqb Pos.eqb orb parse_attr_value rattr_step].
    destruct (parse_as_path v Bits32) as [p|e|]; cbn [res_map rbind attr_code N.eqb Pos.eqb]; intros H; try discriminate H; apply ok_inj in H; injection H as <- _; reflexivity.
  - unfold attr_of_raw. cbn [mem existsb deprecated_codes known_codes raw_retained_codes negb N.eqb Pos.eqb orb parse_attr_value rattr_step].
    destruct (parse_nlri v (ac_afi k) (ac_safi k) (ac_prefixes k) true (ac_add_path k)) as [p|e|]; cbn [res_map rbind attr_code N.eqb Pos.eqb]; intros H; try discriminate H; apply ok_inj in H; injection H as <- _; reflexivity.
  - unfold attr_of_raw. cbn [mem existsb deprecated_codes known_codes raw_retained_codes negb N.eqb Pos.eqb orb parse_attr_value rattr_step].
    destruct (parse_nlri v (ac_afi k) (ac_safi k) (ac_prefixes k) false (ac_add_path k)) as [p|e|]; cbn [res_map rbind attr_code N.eqb Pos.eqb]; intros H; try discriminate H; apply ok_inj in H; injection H as <- _; reflexivity.
  - intros H. assert (C : attr_code (a_value a) = c).
    { revert H. unfold attr_of_raw. destruct (mem c deprecated_codes); [intros H; apply ok_inj in H; injection H as <- _; reflexivity|].
      destruct (negb _); [intros H; apply ok_inj in H; injection H as <- _; reflexivity|].
      destruct (mem c raw_retained_codes); [intros H; apply ok_inj in H; injection H as <- _; reflexivity|].
      destruct (parse_attr_value k c v) as [x|e|]; [|intros H; apply ok_inj in H; injection H as <- _; reflexivity|discriminate].
      destruct (attr_code x =? c) eqn:E; [|discriminate]. intros H. apply ok_inj in H. injection H as <- _. cbn [a_value]. lia. }
    rewrite rstep_other by lia. clear - N1 N2 N3 N4. unfold rattr_step. revert N1 N2 N3 N4. code_cases c; intros; congruence || reflexivity.
Qed.
Lemma attr_raw_ok k c f v : exists x, attr_of_raw k c f v = Ok x.
Proof.
  pose proof (parse_value_np k c v) as NP. unfold attr_of_raw. destruct (mem c deprecated_codes); [eauto|]. destruct (negb _); [eauto|]. destruct (mem c raw_retained_codes); [eauto|].
  destruct (parse_attr_value k c v) as [x|e|] eqn:E; [|eauto|exfalso; apply NP; reflexivity]. apply parse_value_code in E. rewrite E, N.eqb_refl. eauto.
Qed.
Lemma rloop_attrs k fuel : forall mask r s, rattrs_loop fuel k r s =
  match attrs_loop fuel k mask s with Ok (l, _, _) => Ok (fold_left rstep (map a_value l) r) | Err e => Err e | Panic => Panic end.
Proof.
  induction fuel as [|fuel IH]; intros mask r s; cbn [rattrs_loop attrs_loop]; (destruct (Nat.leb 3 (length s)); [|reflexivity]); [reflexivity|].
  destruct (read_attr_header s) as [[[[f c] len] s1]|e|]; cbn [rbind]; try reflexivity.
  destruct (nlen s1 <? len); [reflexivity|]. destruct (split_to (N.to_nat len) s1) as [[v s2]|e|]; cbn [rbind]; try reflexivity.
  destruct (attr_raw_ok k c f v) as ([a we] & E). rewrite E, (step_attr _ _ _ _ _ _ r E). cbn [rbind]. rewrite (IH (N.setbit mask c)).
  destruct (attrs_loop fuel k (N.setbit mask c) s2) as [[[l ws] m]|e|]; cbn [rbind fst snd map fold_left]; reflexivity.
Qed.
Lemma fold_rstep l r : fold_left rstep l r =
  RAttrs (last_sel sel_path (ra_path r) l) (last_sel sel_path4 (ra_path4 r) l)
    (match last_sel sel_reach None l with Some n => nl_prefixes n | None => ra_ann r end)
    (match last_sel sel_unreach None l with Some n => nl_prefixes n | None => ra_wd r end).
Proof.
  revert r. induction l as [|v l IH]; intros r; cbn [fold_left last_sel]; [destruct r; reflexivity|].
  rewrite IH. rewrite (last_sel_or sel_reach (match sel_reach v with Some a => Some a | None => None end)), (last_sel_or sel_unreach (match sel_unreach v with Some a => Some a | None => None end)).
  destruct v; cbn [rstep ra_path ra_path4 ra_ann ra_wd sel_path sel_path4 sel_reach sel_unreach]; destruct (last_sel sel_reach None l), (last_sel sel_unreach None l); reflexivity.
Qed.
Lemma merge_same p p4 : merge_as_path p p4 = merge_paths p p4. Proof. reflexivity. Qed.
(** The path and the prefixes are those of the full attributes. *)
Lemma route_attrs k s : match parse_attributes k s with
  | Ok A => exists path, parse_route_attributes k s = Ok (path, prefixes_of (last_sel sel_reach None (map a_value (at_inner A))), prefixes_of (last_sel sel_unreach None (map a_value (at_inner A)))) /\
      effective (last_sel sel_path None (map a_value (at_inner A))) (last_sel sel_path4 None (map a_value (at_inner A))) path
  | Err e => parse_route_attributes k s = Err e
  | Panic => False
  end.
Proof.
  pose proof (parse_attributes_np k s) as NP. unfold parse_attributes, parse_route_attributes in *. rewrite (rloop_attrs k (length s) 0).
  destruct (attrs_loop (length s) k 0 s) as [[[l ws] m]|e|]; cbn [rbind fst snd] in *; [|reflexivity|apply NP; reflexivity].
  cbn [at_inner]. rewrite fold_rstep. cbn [ra_path ra_path4 ra_ann ra_wd]. rewrite merge_same.
  destruct (merge_paths_ok (last_sel sel_path None (map a_value l)) (last_sel sel_path4 None (map a_value l))) as (path & -> & E). cbn [rbind].
  exists path. split; [reflexivity|exact E].
Qed.

(** ** UPDATE messages *)
Definition ann_route t pi pa path p := Route t Announce pi pa p path.
Definition wd_route t pi pa p := Route t Withdraw pi pa p None.
Lemma project_update m t pi pa l : update_elems m t pi pa l -> forall path,
  effective (last_sel sel_path None (map a_value (at_inner (u_attrs m)))) (last_sel sel_path4 None (map a_value (at_inner (u_attrs m)))) path ->
  map project l = map (ann_route t pi pa path) (u_announced m ++ prefixes_of (last_sel sel_reach None (map a_value (at_inner (u_attrs m))))) ++
                  map (wd_route t pi pa) (u_withdrawn m ++ prefixes_of (last_sel sel_unreach None (map a_value (at_inner (u_attrs m))))).
Proof.
  unfold update_elems. set (vs := map a_value (at_inner (u_attrs m))). cbn zeta. intros (reach & unreach & p & p4 & path' & H1 & H2 & H3 & H4 & H5 & H6 & H7) path E.
  rewrite (last_is_fun _ _ _ _ H1 (last_sel_is sel_reach vs)) in *. rewrite (last_is_fun _ _ _ _ H2 (last_sel_is sel_unreach vs)) in *.
  rewrite (last_is_fun _ _ _ _ H3 (last_sel_is sel_path vs)) in *. rewrite (last_is_fun _ _ _ _ H4 (last_sel_is sel_path4 vs)) in *.
  rewrite (effective_fun _ _ _ _ E H5) in *. clear - H6 H7.
  set (A := u_announced m ++ _) in *. set (W := u_withdrawn m ++ _) in *. clearbody A W. revert l H6 H7. induction A as [|a A IH]; intros l H6 H7.
  - cbn [map app] in *. revert l H6 H7. induction W as [|w W IH]; intros [|e l] H6 H7; try discriminate H6; [reflexivity|].
    cbn [map] in *. injection H6 as K1 K2 K3. inversion H7 as [|? ? F1 F2]; subst. rewrite (IH _ K3 F2). f_equal.
    destruct F1 as (T1 & T2 & T3 & _ & T4). rewrite K1 in T4. destruct T4 as (_ & T4 & _). unfold project, wd_route. congruence.
  - destruct l as [|e l]; [discriminate H6|]. cbn [map app] in *. injection H6 as K1 K2 K3. inversion H7 as [|? ? F1 F2]; subst. rewrite (IH _ K3 F2). f_equal.
    destruct F1 as (T1 & T2 & T3 & _ & T4). rewrite K1 in T4. destruct T4 as (T4 & _). unfold project, ann_route. congruence.
Qed.
Lemma warnings_app l : forall A, at_warnings (fold_left add_warning l A) = at_warnings A ++ l.
Proof. induction l as [|w l IH]; intros A; cbn [fold_left]; [rewrite app_nil_r; reflexivity|]. rewrite IH. cbn [add_warning at_warnings]. rewrite <- app_assoc. reflexivity. Qed.
Lemma section_sound b ap s l ws : nlri_section b ap s = Ok (l, ws) -> Forall (fun w => match w with WMalformedNlri _ _ _ => False | _ => True end) ws -> parse_nlri_list s ap AIpv4 = Ok l.
Proof.
  unfold nlri_section. destruct (read_nlri s ap) as [l'|e|] eqn:R; intros H F; try discriminate H; apply ok_inj in H; injection H as <- <-.
  - destruct s as [|x [|y s]]; cbn [read_nlri] in R; [apply ok_inj in R; subst; reflexivity| |exact R]. destruct (x =? 0); [exact R|discriminate R].
  - inversion F; contradiction.
Qed.
Lemma update_routes ap al t pi pa s u : parse_update ap al s = Ok u -> sound_nlri u -> exists path,
  effective (last_sel sel_path None (map a_value (at_inner (u_attrs u)))) (last_sel sel_path4 None (map a_value (at_inner (u_attrs u)))) path /\
  parse_update_routes ap al t pi pa s = Ok (RtUpd t pi pa path
    (u_announced u ++ prefixes_of (last_sel sel_reach None (map a_value (at_inner (u_attrs u)))))
    (u_withdrawn u ++ prefixes_of (last_sel sel_unreach None (map a_value (at_inner (u_attrs u))))) false).
Proof.
  unfold parse_update. intros H Snd. apply run_inv in H as (z & H).
  apply bind_inv in H as (n & s1 & Q1 & H). apply bind_inv in H as (n1 & s2 & Q2 & H). apply bind_inv in H as (w & s3 & Q3 & H).
  apply bind_inv in H as ([wd ww] & s4 & Q4 & H). apply bind_inv in H as (k & s5 & Q5 & H). apply bind_inv in H as (n2 & s6 & Q6 & H). apply bind_inv in H as (b & s7 & Q7 & H).
  apply bind_inv in H as (A & s8 & Q8 & H). apply bind_inv in H as (r & s9 & Q9 & H). apply bind_inv in H as ([an aw] & s10 & Q10 & H).
  apply ret_inv in H as [<- _]. cbn [u_announced u_withdrawn u_attrs] in *.
  unfold sound_nlri in Snd. cbn [u_attrs] in Snd. rewrite warnings_app in Snd. apply Forall_app in Snd as (_ & Snd). apply Forall_app in Snd as (Sw & Sa).
  apply lift_inv in Q4 as (Q4 & <-). apply lift_inv in Q8 as (Q8 & <-). apply lift_inv in Q10 as (Q10 & <-). apply section_sound in Q4; auto. apply section_sound in Q10; auto.
  rewrite warnings_inner, (proj1 (check_mandatory_same _ _ _)).
  pose proof (route_attrs (ACfg al ap None None None) b) as RA. rewrite Q8 in RA. destruct RA as (path & RA & E). exists path. split; [exact E|].
  unfold parse_update_routes. eapply run_ok.
  rewrite (bind_ok _ _ _ _ _ Q1), (bind_ok _ _ _ _ _ Q2), (bind_ok _ _ _ _ _ Q3). rewrite (bind_ok _ _ s3 wd s3) by (rewrite Q4; reflexivity).
  rewrite (bind_ok _ _ _ _ _ Q5), (bind_ok _ _ _ _ _ Q6), (bind_ok _ _ _ _ _ Q7). rewrite (bind_ok _ _ _ _ _ Q9).
  rewrite (bind_ok _ _ s9 an s9) by (rewrite Q10; reflexivity). rewrite RA. reflexivity.
Qed.
Lemma update_drains t pi pa path ann wd : drains (RtUpdate (RtUpd t pi pa path ann wd false)) (map (ann_route t pi pa path) ann ++ map (wd_route t pi pa) wd) None.
Proof.
  assert (W : forall ann wd, drains (RtUpdate (RtUpd t pi pa path ann wd true)) (map (wd_route t pi pa) wd) None).
  { clear. intros ann wd. induction wd as [|p wd IH]; cbn [map]; [eapply dr_end; reflexivity|]. eapply dr_some; [reflexivity|exact IH]. }
  induction ann as [|p ann IH]; cbn [map app]; [|eapply dr_some; [reflexivity|exact IH]].
  destruct wd as [|p wd]; cbn [map]; [eapply dr_end; reflexivity|]. eapply dr_some; [reflexivity|apply W].
Qed.
(** The routes of an UPDATE, for the elements [l] of the same message. *)
Lemma update_agrees ap al t pi pa s u l : parse_update ap al s = Ok u -> sound_nlri u -> update_elems u t pi pa l ->
  exists i, parse_update_routes ap al t pi pa s = Ok i /\ drains (RtUpdate i) (map project l) None.
Proof.
  intros H Snd U. destruct (update_routes ap al t pi pa s u H Snd) as (path & E & R). eexists. split; [exact R|].
  rewrite (project_update _ _ _ _ _ U path E). apply update_drains.
Qed.
Lemma empty_drains : drains RtEmpty [] None. Proof. eapply dr_end. reflexivity. Qed.
Lemma message_agrees ap al t pi pa s m z l : parse_bgp_message ap al s = Ok (m, z) -> sound_bgp m -> bgp_elems m t pi pa l ->
  exists i, parse_message_routes ap al t pi pa s = Ok i /\ drains i (map project l) None.
Proof.
  unfold parse_bgp_message. intros H Snd U.
  apply bind_inv in H as (n & s1 & Q1 & H). apply bind_inv in H as (n1 & s2 & Q2 & H). apply bind_inv in H as (mk & s3 & Q3 & H).
  apply bind_inv in H as (len & s4 & Q4 & H). destruct (len <? 19) eqn:C1; [discriminate H|]. apply bind_inv in H as (ty & s5 & Q5 & H).
  destruct ((ty <? 1) || (5 <? ty)) eqn:C2; [discriminate H|]. destruct (((ty =? 1) || (ty =? 4)) && (4096 <? len)) eqn:C3; [discriminate H|].
  apply bind_inv in H as (n2 & s6 & Q6 & H). apply bind_inv in H as (d & s7 & Q7 & H). apply lift_inv in H as (H & _).
  assert (X : forall i, (if ty =? 2 then u <- lift (parse_update_routes ap al t pi pa d) ;; ret (RtUpdate u) else ret RtEmpty) s7 = Ok (i, s7) ->
    parse_message_routes ap al t pi pa s = Ok i).
  { intros i X. unfold parse_message_routes. eapply run_ok. 
    rewrite (bind_ok _ _ _ _ _ Q1), (bind_ok _ _ _ _ _ Q2), (bind_ok _ _ _ _ _ Q3), (bind_ok _ _ _ _ _ Q4), C1. rewrite (bind_ok _ _ _ _ _ Q5), C2, C3.
    cbv zeta. assert (Le : (if nlen s <? len then nlen s - 19 else len - 19) = (if nlen s <? len then nlen s else len) - 19) by (destruct (nlen s <? len); reflexivity). rewrite Le.
    rewrite (bind_ok _ _ _ _ _ Q6), (bind_ok _ _ _ _ _ Q7). exact X. }
  destruct (ty =? 2) eqn:T2.
  - assert (ty = 2) by lia. subst ty. cbn [parse_body] in H. apply rbind_inv in H as (u & H & E). apply ok_inj in E. subst m. cbn [sound_bgp bgp_elems] in *.
    destruct (update_agrees ap al t pi pa d u l H Snd U) as (i & I1 & I2). exists (RtUpdate i). split; [|exact I2]. apply X. rewrite I1. reflexivity.
  - assert (M : match m with MUpdate _ => False | _ => True end).
    { revert H. unfold parse_body. assert (ty <> 2) by lia. assert (D : ty = 1 \/ ty = 3 \/ ty = 4 \/ ty = 5) by lia.
      destruct D as [->|[->|[->| ->]]]; intros H1; try (apply rbind_inv in H1 as (? & _ & E); apply ok_inj in E; subst m; exact I). apply ok_inj in H1. subst m. exact I. }
    exists RtEmpty. split; [apply X; reflexivity|]. destruct m; cbn [bgp_elems] in U; try contradiction; subst l; apply empty_drains.
Qed.

(** ** BGP4MP and the deprecated type *)
Lemma mp_message_agrees ap al ty t s m l : parse_mp_message ap al ty s = Ok m -> sound_bgp (mm_bgp m) -> bgp_elems (mm_bgp m) t (mm_peer m) (mm_peer_as m) l ->
  exists i, run (pa <- read_asn al ;; read_asn al ;;;
           if is_short_zebra_open s al then r <- peek ;; lift (parse_message_routes ap al t (V4 0) pa r)
           else
             read_u16 ;;; a <- read_afi ;; n <- lift (mp_payload_len a al (nlen s)) ;;
             pi <- read_address a ;; read_address a ;;;
             r <- peek ;;
             if negb (n =? nlen r) then fail ETrunc else
             lift (parse_message_routes ap al t pi pa r)) s = Ok i /\ drains i (map project l) None.
Proof.
  unfold parse_mp_message. intros H Snd U. apply run_inv in H as (z & H).
  apply bind_inv in H as (pa & s1 & Q1 & H). apply bind_inv in H as (la & s2 & Q2 & H). destruct (is_short_zebra_open s al) eqn:Z.
  - apply bind_inv in H as (b & s3 & Q3 & H). apply ret_inv in H as [<- _]. cbn [mm_bgp mm_peer mm_peer_as] in *.
    destruct (message_agrees ap al t (V4 0) pa s2 b s3 l Q3 Snd U) as (i & I1 & I2). exists i. split; [|exact I2].
    eapply run_ok. rewrite (bind_ok _ _ _ _ _ Q1), (bind_ok _ _ _ _ _ Q2), (bind_ok peek _ s2 s2 s2 eq_refl), I1. reflexivity.
  - apply bind_inv in H as (x & s3 & Q3 & H). apply bind_inv in H as (a & s4 & Q4 & H). apply bind_inv in H as (n & s5 & Q5 & H).
    apply bind_inv in H as (pi & s6 & Q6 & H). apply bind_inv in H as (li & s7 & Q7 & H). apply bind_inv in H as (rm & s8 & Q8 & H).
    unfold remaining in Q8. apply ok_inj in Q8. injection Q8 as <- <-. destruct (negb (n =? N.of_nat (length s7))) eqn:Ck; [discriminate H|].
    apply bind_inv in H as (b & s9 & Q9 & H). apply ret_inv in H as [<- _]. cbn [mm_bgp mm_peer mm_peer_as] in *.
    destruct (message_agrees ap al t pi pa s7 b s9 l Q9 Snd U) as (i & I1 & I2). exists i. split; [|exact I2].
    eapply run_ok. rewrite (bind_ok _ _ _ _ _ Q1), (bind_ok _ _ _ _ _ Q2), (bind_ok _ _ _ _ _ Q3), (bind_ok _ _ _ _ _ Q4), (bind_ok _ _ _ _ _ Q5), (bind_ok _ _ _ _ _ Q6), (bind_ok _ _ _ _ _ Q7).
    rewrite (bind_ok peek _ s7 s7 s7 eq_refl). unfold nlen at 1. rewrite Ck, I1. reflexivity.
Qed.
Lemma bgp4mp_agrees sub t s m l : parse_bgp4mp sub s = Ok m ->
  match m with MpStateChange _ => l = [] | MpMessage x => sound_bgp (mm_bgp x) /\ bgp_elems (mm_bgp x) t (mm_peer x) (mm_peer_as x) l end ->
  exists i, parse_bgp4mp_routes sub t s = Ok i /\ drains i (map project l) None.
Proof.
  unfold parse_bgp4mp, parse_bgp4mp_routes. intros H U.
  assert (D : sub = 0 \/ sub = 1 \/ sub = 4 \/ sub = 5 \/ sub = 6 \/ sub = 7 \/ sub = 8 \/ sub = 9 \/ sub = 10 \/ sub = 11).
  { revert H. code_cases sub; intros H; try discriminate H; lia. }
  destruct D as [->|[->|[->|[->|[->|[->|[->|[->|[->| ->]]]]]]]]]; apply rbind_inv in H as (x & H & E); apply ok_inj in E; subst m;
    cbn [mp_known existsb N.eqb Pos.eqb orb negb mp_modes];
    try (subst l; exists RtEmpty; split; [reflexivity|apply empty_drains]);
    destruct U as (U1 & U2); eapply mp_message_agrees; eauto.
Qed.
Lemma legacy_agrees sub t s m l : parse_legacy sub s = Ok m ->
  match m with LgStateChange _ => l = [] | LgMessage x => sound_bgp (lg_bgp x) /\ bgp_elems (lg_bgp x) t (lg_peer x) (lg_peer_as x) l end ->
  exists i, parse_legacy_routes sub t s = Ok i /\ drains i (map project l) None.
Proof.
  intros H U. assert (D : sub = 1 \/ sub = 3 \/ sub = 5 \/ sub = 6 \/ sub = 7).
  { revert H. unfold parse_legacy. code_cases sub; intros H; try discriminate H; lia. }
  destruct D as [->|D].
  - unfold parse_legacy in H. apply run_inv in H as (z & H).
    apply bind_inv in H as (pa & s1 & Q1 & H). apply bind_inv in H as (pi & s2 & Q2 & H). apply bind_inv in H as (la & s3 & Q3 & H). apply bind_inv in H as (li & s4 & Q4 & H).
    apply bind_inv in H as (r & s5 & Q5 & H). apply bind_inv in H as (b & s6 & Q6 & H). apply ret_inv in H as [<- _]. cbn [lg_bgp lg_peer lg_peer_as] in U.
    destruct U as (U1 & U2). apply lift_inv in Q6 as (Q6 & _). cbn [parse_legacy_payload] in Q6. apply rbind_inv in Q6 as (u & Q6 & E). apply ok_inj in E. subst b. cbn [sound_bgp bgp_elems] in *.
    destruct (update_agrees false Bits16 t (V4 pi) pa r u l Q6 U1 U2) as (i & I1 & I2). exists (RtUpdate i). split; [|exact I2].
    unfold parse_legacy_routes. eapply run_ok. rewrite (bind_ok _ _ _ _ _ Q1), (bind_ok _ _ _ _ _ Q2), (bind_ok _ _ _ _ _ Q3), (bind_ok _ _ _ _ _ Q4), (bind_ok _ _ _ _ _ Q5), I1. reflexivity.
  - assert (N : l = []).
    { destruct m as [x|x]; [|exact U]. destruct U as (_ & U). revert H. unfold parse_legacy.
      destruct D as [->|[->|[->| ->]]]; intros H; apply run_inv in H as (z & H).
      - do 5 (apply bind_inv in H as (? & ? & _ & H)). match type of H with match ?q with _ => _ end _ = _ => destruct q end; discriminate H.
      - do 5 (apply bind_inv in H as (? & ? & _ & H)). apply bind_inv in H as (b & s6 & Q6 & H). apply ret_inv in H as [E _]. injection E as <-. cbn [lg_bgp] in U.
        apply lift_inv in Q6 as (Q6 & _). cbn [parse_legacy_payload] in Q6. apply rbind_inv in Q6 as (? & _ & E). apply ok_inj in E. subst b. exact U.
      - do 5 (apply bind_inv in H as (? & ? & _ & H)). apply bind_inv in H as (b & s6 & Q6 & H). apply ret_inv in H as [E _]. injection E as <-. cbn [lg_bgp] in U.
        apply lift_inv in Q6 as (Q6 & _). cbn [parse_legacy_payload] in Q6. apply rbind_inv in Q6 as (? & _ & E). apply ok_inj in E. subst b. exact U.
      - do 5 (apply bind_inv in H as (? & ? & _ & H)). apply bind_inv in H as (b & s6 & Q6 & H). apply ret_inv in H as [E _]. injection E as <-. cbn [lg_bgp] in U.
        apply lift_inv in Q6 as (Q6 & _). cbn [parse_legacy_payload] in Q6. match type of Q6 with match ?q with _ => _ end = _ => destruct q; [|discriminate Q6] end. apply ok_inj in Q6. subst b. exact U. }
    subst l. exists RtEmpty. split; [|apply empty_drains]. unfold parse_legacy_routes. destruct D as [->|[->|[->| ->]]]; rewrite H; reflexivity.
Qed.

(** ** TABLE_DUMP *)
Lemma dump_entry_agrees a v q s d s' e : a <> ALinkState -> read_dump_entry a v q s = Ok (d, s') -> no_as4_path (td_attrs d) -> dump_elem d e -> read_dump_route a s = Ok (project e, s').
Proof.
  intros Na H N4 U. unfold read_dump_entry in H.
  apply bind_inv in H as (p & s1 & Q1 & H). apply bind_inv in H as (st & s2 & Q2 & H). apply bind_inv in H as (tm & s3 & Q3 & H). apply bind_inv in H as (pi & s4 & Q4 & H).
  apply bind_inv in H as (pa & s5 & Q5 & H). apply bind_inv in H as (n & s6 & Q6 & H). apply bind_inv in H as (n1 & s7 & Q7 & H). apply bind_inv in H as (b & s8 & Q8 & H).
  apply bind_inv in H as (A & s9 & Q9 & H). apply ret_inv in H as [<- <-]. apply lift_inv in Q9 as (Q9 & <-).
  unfold no_as4_path in N4. unfold dump_elem in U. cbn [td_attrs td_prefix td_time td_peer td_asn] in *. rewrite (proj1 (check_mandatory_same _ _ _)) in *.
  destruct U as (U1 & U2 & U3 & U4 & U5 & _ & path & U6 & U7).
  unfold read_dump_route. rewrite (bind_ok _ _ s p s1) by (destruct a; [exact Q1|exact Q1|contradiction]).
  rewrite (bind_ok _ _ _ _ _ Q2), (bind_ok _ _ _ _ _ Q3), (bind_ok _ _ _ _ _ Q4), (bind_ok _ _ _ _ _ Q5), (bind_ok _ _ _ _ _ Q6), (bind_ok _ _ _ _ _ Q7), (bind_ok _ _ _ _ _ Q8).
  pose proof (route_attrs (ACfg Bits16 false None None None) b) as RA. rewrite Q9 in RA. destruct RA as (path' & RA & E). rewrite RA. cbn [lift rbind bind ret].
  rewrite (last_sel_none sel_path4 None _ N4) in E. rewrite <- (last_is_fun _ _ _ _ U6 (last_sel_is sel_path _)) in E.
  assert (path' = path) by (destruct path; exact E). subst path'. destruct U7 as (U7 & _). unfold bind, lift, rbind, ret, project. congruence.
Qed.
Lemma dump_batch_agrees a v q : a <> ALinkState -> forall fuel s ds es, many_p fuel (read_dump_entry a v q) s = Ok ds -> Forall (fun d => no_as4_path (td_attrs d)) ds -> Forall2 dump_elem ds es ->
  drains (RtDump a s) (map project es) None.
Proof.
  intros Na. induction fuel as [|f IH]; intros s ds es H N4 U; destruct s as [|b s]; cbn [many_p] in H; try discriminate H.
  - apply ok_inj in H. subst ds. inversion U. eapply dr_end. reflexivity.
  - apply ok_inj in H. subst ds. inversion U. eapply dr_end. reflexivity.
  - apply rbind_inv in H as ([d s'] & Q & H). apply rbind_inv in H as (ds' & H & E). apply ok_inj in E. subst ds. inversion U as [|? e ? es' U1 U2]; subst. inversion N4; subst.
    cbn [map]. eapply dr_some; [|eapply IH; eauto]. cbn [rt_next]. rewrite (dump_entry_agrees a v q (b :: s) d s' e); auto.
Qed.
Lemma dumps_agree sub s ds es : parse_dumps sub s = Ok ds -> Forall (fun d => no_as4_path (td_attrs d)) ds -> Forall2 dump_elem ds es ->
  exists i, parse_dump_routes sub s = Ok i /\ drains i (map project es) None.
Proof.
  unfold parse_dumps. intros H N4 U. destruct (dump_afi sub) as [a|] eqn:A; [|discriminate H].
  assert (D : sub = 1 /\ a = AIpv4 \/ sub = 2 /\ a = AIpv6). { revert A. unfold dump_afi. code_cases sub; intros A; try discriminate A; injection A as <-; auto. }
  apply run_inv in H as (z & H). apply bind_inv in H as (v & s1 & Q1 & H). apply bind_inv in H as (q & s2 & Q2 & H). rewrite (bind_ok peek _ s2 s2 s2 eq_refl) in H.
  apply bind_inv in H as (l & s3 & Q3 & H). apply lift_inv in Q3 as (Q3 & _).
  assert (l = ds /\ s2 <> []) as (-> & Ne). { destruct l as [|x l]; [discriminate H|]. apply ret_inv in H as [<- _]. split; [reflexivity|]. intros ->. discriminate Q3. }
  exists (RtDump a s2). split; [|eapply dump_batch_agrees; eauto; destruct D as [(_ & ->)|(_ & ->)]; discriminate].
  unfold parse_dump_routes. destruct D as [(-> & ->)|(-> & ->)]; eapply run_ok; rewrite (bind_ok _ _ _ _ _ Q1), (bind_ok _ _ _ _ _ Q2), (bind_ok peek _ s2 s2 s2 eq_refl); (destruct s2; [congruence|reflexivity]).
Qed.

(** ** RIB entries *)
Lemma read_be_ge k s : (k <= length s)%nat -> exists v r, read_be k s = Ok (v, r) /\ length s = (k + length r)%nat.
Proof.
  intros H. rewrite <- (firstn_skipn k s). eexists _, _. split; [apply read_be_bytes, firstn_length_le, H|]. rewrite app_length, firstn_length_le; auto.
Qed.
Definition rt_header (ap : bool) : P (N * N * N) :=
  pi <- read_u16 ;; tm <- read_u32 ;; (if ap then read_u32 ;;; ret tt else ret tt) ;;; len <- read_u16 ;; ret (pi, tm, len).
Lemma rib_header ap s : (rib_entry_min_len ap <= length s)%nat -> exists pi tm pid n d, rt_header ap s = Ok ((pi, tm, n), d) /\
  forall a sf p, read_rib_entry ap a sf p s = (has_n n ;;; b <- split_to (N.to_nat n) ;;
   A <- lift (parse_attributes (ACfg Bits32 ap (Some a) (Some sf) (Some [p])) b) ;;
   ret (RibEntry pi tm pid (check_mandatory A true (afi_eqb a AIpv4)))) d.
Proof.
  unfold rib_entry_min_len, rt_header, read_rib_entry. intros L.
  destruct (read_be_ge 2 s) as (pi & s1 & Q1 & L1); [lia|]. destruct (read_be_ge 4 s1) as (tm & s2 & Q2 & L2); [lia|].
  destruct (Nat.ltb_spec (length s) 8); [lia|]. destruct ap.
  - destruct (read_be_ge 4 s2) as (pd & s3 & Q3 & L3); [lia|]. destruct (read_be_ge 2 s3) as (n & s4 & Q4 & L4); [lia|].
    exists pi, tm, (Some pd), n, s4. split; intros; rewrite (bind_ok _ _ _ _ _ Q1), (bind_ok _ _ _ _ _ Q2).
    + rewrite (bind_ok _ _ s2 tt s3) by (rewrite (bind_ok _ _ _ _ _ Q3); reflexivity). rewrite (bind_ok _ _ _ _ _ Q4). reflexivity.
    + rewrite (bind_ok _ _ s2 (Some pd) s3) by (rewrite (bind_ok _ _ _ _ _ Q3); reflexivity). rewrite (bind_ok _ _ _ _ _ Q4). reflexivity.
  - destruct (read_be_ge 2 s2) as (n & s4 & Q4 & L4); [lia|].
    exists pi, tm, None, n, s4. split; intros; rewrite (bind_ok _ _ _ _ _ Q1), (bind_ok _ _ _ _ _ Q2).
    + rewrite (bind_ok _ _ s2 tt s2) by reflexivity. rewrite (bind_ok _ _ _ _ _ Q4). reflexivity.
    + rewrite (bind_ok _ _ s2 None s2) by reflexivity. rewrite (bind_ok _ _ _ _ _ Q4). reflexivity.
Qed.
Lemma rib_header_short ap a sf p s r s' : (length s < rib_entry_min_len ap)%nat -> read_rib_entry ap a sf p s = Ok (r, s') -> False.
Proof.
  unfold rib_entry_min_len, read_rib_entry. intros L H. destruct (Nat.ltb_spec (length s) 8) as [|G]; [discriminate H|]. destruct ap; [|lia].
  apply bind_inv in H as (pi & s1 & Q1 & H). apply bind_inv in H as (tm & s2 & Q2 & H). apply bind_inv in H as (pd & s3 & Q3 & H). apply bind_inv in Q3 as (i & s31 & Q3 & E). apply ret_inv in E as [_ <-].
  apply bind_inv in H as (n & s4 & Q4 & _). apply read_be_len in Q1, Q2, Q3, Q4. lia.
Qed.
Lemma rt_rib_step t a sf ap p n s : rt_rib_next t a sf ap p (S n) s =
  if Nat.ltb (length s) (rib_entry_min_len ap) then Ok (None, (O, s)) else
      '((pi, tm, len), d1) <~ rt_header ap s ;;
      if nlen d1 <? len then Ok (None, (O, d1)) else
      '(b, d2) <~ split_to (N.to_nat len) d1 ;;
      '(path, _, _) <~ parse_route_attributes (ACfg Bits32 ap (Some a) (Some sf) (Some [p])) b ;;
      match nth_error t (N.to_nat pi) with
      | None => rt_rib_next t a sf ap p n d2
      | Some pe => Ok (Some (Route (f64_of_N tm) Announce (pe_ip pe) (pe_asn pe) p path), (n, d2))
      end.
Proof. reflexivity. Qed.
Lemma rib_step t a sf ap p n s :
  match read_rib_entry ap a sf p s with
  | Ok (r, s') => forall pe, nth_error t (N.to_nat (re_peer r)) = Some pe -> exists path,
      let vs := map a_value (at_inner (re_attrs r)) in
      effective (last_sel sel_path None vs) (last_sel sel_path4 None vs) path /\
      rt_rib_next t a sf ap p (S n) s = Ok (Some (Route (f64_of_N (re_time r)) Announce (pe_ip pe) (pe_asn pe) p path), (n, s'))
  | Err _ => (exists d, rt_rib_next t a sf ap p (S n) s = Ok (None, d)) \/ exists e, rt_rib_next t a sf ap p (S n) s = Err e
  | Panic => False
  end.
Proof.
  rewrite rt_rib_step. destruct (Nat.ltb_spec (length s) (rib_entry_min_len ap)) as [L|L].
  - destruct (read_rib_entry ap a sf p s) as [[r s']|e|] eqn:E; [exfalso; eapply rib_header_short; eauto|eauto|exact (npp_rib_entry _ _ _ _ _ E)].
  - destruct (rib_header ap s L) as (pi & tm & pid & m & d & Hh & He). rewrite He, Hh. cbn [rbind]. unfold nlen. destruct (N.ltb_spec (N.of_nat (length d)) m) as [K|K].
    + rewrite (bind_err _ _ _ ETrunc) by (apply has_n_short; exact K). eauto.
    + rewrite (bind_ok _ _ d tt d) by (apply has_n_ok; unfold nlen; exact K). rewrite split_to_ge by lia. rewrite (bind_ok _ _ _ _ _ (split_to_ge (N.to_nat m) d ltac:(lia))). cbn [rbind].
      pose proof (route_attrs (ACfg Bits32 ap (Some a) (Some sf) (Some [p])) (firstn (N.to_nat m) d)) as RA.
      unfold bind at 1, lift. destruct (parse_attributes _ _) as [A|e|]; cbn [rbind]; [|rewrite RA; cbn [rbind]; eauto|contradiction].
      cbn [ret]. unfold ret. cbn [re_peer re_time re_attrs]. rewrite (proj1 (check_mandatory_same _ _ _)). destruct RA as (path & RA & E). intros pe Hp. exists path. split; [exact E|]. rewrite RA. cbn [rbind]. rewrite Hp. reflexivity.
Qed.
Lemma rib_agrees t lst a sf ap p : (forall id, get_peer_by_id t id = nth_error lst (N.to_nat id)) -> forall n s es l,
  upto_p n (read_rib_entry ap a sf p) s = Ok es -> Forall (fun e => get_peer_by_id t (re_peer e) <> None) es ->
  Forall2 (fun x e => rib_elem p (fst x) (snd x) e) (known_entries t es) l -> exists eo, drains (RtRib lst a sf ap p n s) (map project l) eo.
Proof.
  intros T. induction n as [|n IH]; intros s es l H K F; cbn [upto_p] in H.
  - apply ok_inj in H. subst es. inversion F. exists None. eapply dr_end. reflexivity.
  - pose proof (rib_step lst a sf ap p n s) as St. destruct (read_rib_entry ap a sf p s) as [[r s']|e|]; [| |discriminate H].
    + apply rbind_inv in H as (es' & H & E). apply ok_inj in E. subst es. inversion K as [|? ? K1 K2]; subst. cbn [known_entries] in F.
      destruct (get_peer_by_id t (re_peer r)) as [pe|] eqn:G; [|congruence]. inversion F as [|? e ? l' F1 F2]; subst. cbn [fst snd] in F1.
      rewrite T in G. destruct (St pe G) as (path & Ef & St'). destruct F1 as (U1 & U2 & U3 & U4 & U5 & _ & q & q4 & path' & U6 & U7 & U8 & U9).
      rewrite (last_is_fun _ _ _ _ U6 (last_sel_is sel_path _)), (last_is_fun _ _ _ _ U7 (last_sel_is sel_path4 _)) in U8.
      pose proof (effective_fun _ _ _ _ U8 Ef). subst path'. destruct (IH s' es' l' H K2 F2) as (eo & D). exists eo. cbn [map]. eapply dr_some; [|exact D].
      cbn [rt_next]. rewrite St'. cbn [rbind]. unfold project. destruct U9 as (U9 & _). repeat f_equal; congruence.
    + apply ok_inj in H. subst es. inversion F. destruct St as [((n' & d) & St)|(x & St)].
      * exists None. eapply dr_end. cbn [rt_next]. rewrite St. reflexivity.
      * exists (Some x). apply dr_err. cbn [rt_next]. rewrite St. reflexivity.
Qed.

(** ** The peer table *)
Lemma repeat_p_length {A} (p : P A) n s l r : repeat_p n p s = Ok (l, r) -> length l = n.
Proof.
  revert s l r. induction n as [|n IH]; intros s l r H; cbn [repeat_p] in H.
  - apply ret_inv in H as [<- _]. reflexivity.
  - apply bind_inv in H as (a & s1 & _ & H). apply bind_inv in H as (l' & s2 & H & E). apply ret_inv in E as [<- _]. cbn [length]. f_equal. eapply IH; eauto.
Qed.
Lemma route_peers s t z : parse_peer_table s = Ok (t, z) -> bytes_ok s -> exists l, parse_route_peers s = Ok (l, z) /\ same_peers (Some t) (Some l).
Proof.
  unfold parse_peer_table, parse_route_peers. intros H Hs. apply bind_inv in H as (c & s1 & Q1 & H). apply bind_inv in H as (n & s2 & Q2 & H). apply bind_inv in H as (nm & s3 & Q3 & H).
  apply bind_inv in H as (count & s4 & Q4 & H). apply bind_inv in H as (l & s5 & Q5 & H). apply ret_inv in H as [<- <-]. exists l.
  assert (B : count < 65536).
  { apply read_be_inv_ok in Q1 as (_ & _ & Hs1); [|exact Hs]. apply read_be_inv_ok in Q2 as (_ & _ & Hs2); [|exact Hs1]. apply read_n_bytes_inv in Q3 as (-> & _).
    apply read_be_inv_ok in Q4 as (_ & Q4 & _); [exact Q4|]. apply Forall_app in Hs2 as (_ & Hs2). exact Hs2. }
  split.
  - rewrite (bind_ok _ _ _ _ _ Q1), (bind_ok _ _ _ _ _ Q2). unfold read_n_bytes in Q3. apply bind_inv in Q3 as (? & s21 & Q31 & Q32). rewrite (bind_ok _ _ _ _ _ Q31), (bind_ok _ _ _ _ _ Q32), (bind_ok _ _ _ _ _ Q4). exact Q5.
  - cbn [same_peers]. apply number_numbered. apply repeat_p_length in Q5. unfold nlen. lia.
Qed.
Lemma route_peers_same s : (exists e, parse_peer_table s = Err e) -> exists e, parse_route_peers s = Err e.
Proof.
  unfold parse_peer_table, parse_route_peers. intros (e & H). unfold bind in *.
  destruct (read_u32 s) as [[c s1]|e1|]; cbn [rbind] in *; eauto; try discriminate H. destruct (read_u16 s1) as [[n s2]|e1|]; cbn [rbind] in *; eauto; try discriminate H.
  unfold read_n_bytes, bind in H. destruct (has_n n s2) as [[u s3]|e1|]; cbn [rbind] in *; eauto; try discriminate H. destruct (split_to (N.to_nat n) s3) as [[nm s4]|e1|]; cbn [rbind] in *; eauto; try discriminate H.
  destruct (read_u16 s4) as [[k s5]|e1|]; cbn [rbind] in *; eauto; try discriminate H.
  change (fun s0 : bytes => _) with read_peer. destruct (repeat_p (N.to_nat k) read_peer s5) as [[l s6]|e1|]; cbn [rbind] in *; eauto; discriminate H.
Qed.

(** ** Records *)
Lemma elems_of_ok t r : record_elems t r (elems_of (t, r)).
Proof. destruct (record_elems_ok t r) as (l & H1 & H2). rewrite elems_rec in H1. apply ok_inj in H1. assert (elems_of (t, r) = l) by congruence. subst l. exact H2. Qed.
Definition is_rib (r : mrt_record) : bool := match mr_msg r with MrtV2 (V2Rib _) => true | _ => false end.
Lemma record_agrees w r t l : bytes_ok (r_body w) -> parse_raw w = Ok r -> comparable t r -> same_peers t l ->
  exists i l' eo, parse_raw_routes w l = Ok (i, l') /\ same_peers (table_after t r) l' /\ drains i (map project (elems_of (t, r))) eo /\ (is_rib r = false -> eo = None).
Proof.
  intros Hb H C S. pose proof (elems_of_ok t r) as U. unfold parse_raw in H. apply rbind_inv in H as (m & H & E). apply ok_inj in E. subst r.
  unfold comparable, table_after, record_elems, is_rib in *. cbn [mr_msg mr_hdr] in *.
  generalize dependent (elems_of (t, MrtRecord (r_hdr w) m)). intros es U. unfold parse_raw_routes, parse_mrt_body in *.
  assert (D : h_type (r_hdr w) = 5 \/ h_type (r_hdr w) = 12 \/ h_type (r_hdr w) = 13 \/ h_type (r_hdr w) = 16 \/ h_type (r_hdr w) = 17).
  { clear -H. destruct (negb _); [discriminate H|]. revert H. generalize (h_type (r_hdr w)) as ty. intros ty. code_cases ty; intros H; try discriminate H; lia. }
  destruct (negb (etype_known _)); [discriminate H|]. destruct D as [D|[D|[D|[D|D]]]]; rewrite D in *.
  - apply rbind_inv in H as (x & H & E). apply ok_inj in E. subst m. destruct (legacy_agrees (h_sub (r_hdr w)) (record_time (r_hdr w)) (r_body w) x es H) as (i & I1 & I2); [destruct x; auto|].
    exists i, l, None. rewrite I1. cbn [rbind]. auto.
  - apply rbind_inv in H as (x & H & E). apply ok_inj in E. subst m.
    assert (G : Forall (fun d => no_as4_path (td_attrs d)) x /\ Forall2 dump_elem x es /\ match (match x with [m] => MrtDump m | _ => MrtDumps x end) with MrtV2 (V2Peers p) => Some p | _ => t end = t).
    { destruct x as [|d [|d' x]]; auto. destruct U as (e & -> & U). auto. }
    destruct G as (G1 & G2 & ->). destruct (dumps_agree (h_sub (r_hdr w)) (r_body w) x es H G1 G2) as (i & I1 & I2). exists i, l, None. rewrite I1. cbn [rbind]. auto.
  - apply rbind_inv in H as (x & H & E). apply ok_inj in E. subst m.
    assert (DS : h_sub (r_hdr w) = 1 \/ h_sub (r_hdr w) = 7 \/ rib_family (h_sub (r_hdr w)) <> None /\ rt_add_path (h_sub (r_hdr w)) = rib_add_path (h_sub (r_hdr w)) /\
       (forall s q, parse_dump_v2 (h_sub (r_hdr w)) s = (r <~ parse_rib (h_sub (r_hdr w)) s ;; Ok (V2Rib r)) /\
          parse_v2_routes (h_sub (r_hdr w)) s q = match rt_family (h_sub (r_hdr w)) with
            | None => Err EParse
            | Some (a, sf) =>
                '((p, n), d) <~ (read_u32 ;;; p <- read_nlri_prefix a false ;; n <- read_u16 ;; ret (p, n)) s ;;
                match q with None => Err EParse | Some l => Ok (RtRib l a sf (rt_add_path (h_sub (r_hdr w))) p (N.to_nat n) d, q) end
            end)).
    { clear -H. revert H. generalize (h_sub (r_hdr w)) as sub. intros sub. code_cases sub; intros H; try discriminate H; auto; right; right; (split; [discriminate|split; [reflexivity|intros; split; reflexivity]]). }
    destruct DS as [DS|[DS|(DS1 & DS2 & DS)]].
    + rewrite DS in *. unfold parse_dump_v2 in H. apply rbind_inv in H as (pt & H & E). apply ok_inj in E. subst x. apply run_inv in H as (z & H).
      destruct (route_peers _ _ _ H Hb) as (lst & P1 & P2). exists RtEmpty, (Some lst), None. cbn [parse_v2_routes]. rewrite (run_ok _ _ _ _ P1). subst es. split; [reflexivity|]. split; [exact P2|]. split; [apply empty_drains|auto].
    + rewrite DS in *. unfold parse_dump_v2 in H. apply rbind_inv in H as (pt & H & E). apply ok_inj in E. subst x. exists RtEmpty, l, None. subst es. split; [reflexivity|]. split; [exact S|]. split; [apply empty_drains|auto].
    + rewrite (proj1 (DS (r_body w) l)) in H. rewrite (proj2 (DS (r_body w) l)). clear DS. apply rbind_inv in H as (b & H & E). apply ok_inj in E. subst x. unfold parse_rib in H.
      change rt_family with rib_family. destruct (rib_family (h_sub (r_hdr w))) as [[a sf]|]; [|congruence]. apply run_inv in H as (z & H).
      apply bind_inv in H as (q & s1 & Q1 & H). apply bind_inv in H as (p & s2 & Q2 & H). apply bind_inv in H as (n & s3 & Q3 & H). rewrite (bind_ok peek _ s3 s3 s3 eq_refl) in H.
      apply bind_inv in H as (l3 & s4 & Q4 & H). apply lift_inv in Q4 as (Q4 & _). apply ret_inv in H as [<- _]. cbn [rb_entries rb_prefix] in *.
      destruct t as [t|]; [|contradiction]. destruct l as [l|]; [|contradiction]. cbn [same_peers] in S.
      destruct (rib_agrees t l a sf (rib_add_path (h_sub (r_hdr w))) p S _ _ _ _ Q4 C U) as (eo & D'). rewrite <- DS2 in D'.
      eexists _, (Some l), eo. rewrite (bind_ok _ _ _ _ _ Q1), (bind_ok _ _ _ _ _ Q2), (bind_ok _ _ _ _ _ Q3). cbn [ret]. unfold ret. cbn [rbind]. split; [reflexivity|]. split; [exact S|]. split; [exact D'|discriminate].
  - apply rbind_inv in H as (x & H & E). apply ok_inj in E. subst m. destruct (bgp4mp_agrees (h_sub (r_hdr w)) (record_time (r_hdr w)) (r_body w) x es H) as (i & I1 & I2); [destruct x; auto|].
    exists i, l, None. rewrite I1. cbn [rbind]. auto.
  - apply rbind_inv in H as (x & H & E). apply ok_inj in E. subst m. destruct (bgp4mp_agrees (h_sub (r_hdr w)) (record_time (r_hdr w)) (r_body w) x es H) as (i & I1 & I2); [destruct x; auto|].
    exists i, l, None. rewrite I1. cbn [rbind]. auto.
Qed.
(** A refused record changes neither table. *)
Lemma refused_table w e t i t' : parse_raw w = Err e -> parse_raw_routes w t = Ok (i, t') -> t' = t.
Proof.
  unfold parse_raw, parse_mrt_body, parse_raw_routes. intros H R.
  assert (K : forall r, (i0 <~ r ;; Ok (i0, t)) = Ok (i, t') -> t' = t). { intros r Hr. apply rbind_inv in Hr as (? & _ & E). apply ok_inj in E. congruence. }
  revert H R. generalize (h_type (r_hdr w)) as ty. intros ty. code_cases ty; intros H R; try discriminate R; eauto.
  revert H R. generalize (h_sub (r_hdr w)) as sub. intros sub. cbn [etype_known existsb N.eqb Pos.eqb orb negb].
  code_cases sub; intros H R; try discriminate R; cbn [parse_v2_routes rt_family] in R;
    try (apply rbind_inv in R as ([[p n] d] & _ & R); destruct t; [apply ok_inj in R; congruence|discriminate R]);
    try (apply ok_inj in R; congruence).
  exfalso. apply rbind_inv in R as (l & R & _). apply run_inv in R as (z & R). cbn [parse_dump_v2] in H. unfold run in H at 1.
  destruct (parse_peer_table (r_body w)) as [[pt z']|e'|] eqn:Q; [discriminate H| |discriminate H].
  destruct (route_peers_same (r_body w)) as (e2 & Q2); eauto. congruence.
Qed.

(** ** Nothing panics, everything ends *)
Definition wf_iter (i : route_iter) : Prop := match i with RtDump a _ => a <> ALinkState | _ => True end.
Lemma route_attrs_np k s : np (parse_route_attributes k s).
Proof. pose proof (route_attrs k s) as H. destruct (parse_attributes k s); [destruct H as (? & -> & _); discriminate|rewrite H; discriminate|contradiction]. Qed.
Lemma has_split_np {A} n (k : bytes -> P A) : (forall b, npp (k b)) -> npp (has_n n ;;; b <- split_to (N.to_nat n) ;; k b).
Proof.
  intros H s. apply np_bind; [apply npp_has_n|]. intros u s' Q. apply has_n_inv in Q as [-> Q]. apply np_bind; [apply np_split_to; unfold nlen in Q; lia|]. intros b s'' _. apply H.
Qed.
Lemma dump_route_np a : a <> ALinkState -> npp (read_dump_route a).
Proof.
  intros N. unfold read_dump_route. apply npp_bind.
  { destruct a; [| |congruence]; unfold read_ipv4_prefix, read_ipv6_prefix, read_ipv4, read_ipv6;
      do 2 (apply npp_bind; [apply npp_read_be|]; intros); match goal with |- npp (if ?c then _ else _) => destruct c end; [apply npp_ret|apply npp_fail|apply npp_ret|apply npp_fail]. }
  intros p.
  do 2 (apply npp_bind; [apply npp_read_be|]; intros). apply npp_bind; [apply npp_read_address|]; intros. do 2 (apply npp_bind; [apply npp_read_be|]; intros).
  apply has_split_np. intros b. apply npp_bind; [apply npp_lift, route_attrs_np|]. intros [[? ?] ?]. apply npp_ret.
Qed.
Lemma dump_route_len a s r s' : read_dump_route a s = Ok (r, s') -> (length s' < length s)%nat.
Proof.
  unfold read_dump_route. intros H. apply bind_inv in H as (p & s1 & Q1 & H). apply bind_inv in H as (st & s2 & Q2 & H). apply bind_inv in H as (tm & s3 & Q3 & H). apply bind_inv in H as (pi & s4 & Q4 & H).
  apply bind_inv in H as (pa & s5 & Q5 & H). apply bind_inv in H as (n & s6 & Q6 & H). apply bind_inv in H as (n1 & s7 & Q7 & H). apply bind_inv in H as (b & s8 & Q8 & H).
  apply bind_inv in H as (A & s9 & Q9 & H). apply lift_inv in Q9 as (_ & <-). destruct A as [[? ?] ?]. apply ret_inv in H as [_ <-].
  apply read_be_len in Q2, Q3, Q5, Q6. apply has_n_inv in Q7 as [-> _]. apply split_to_inv in Q8 as [-> _]. rewrite app_length in Q6.
  assert (length s4 <= length s3)%nat.
  { apply consumes_read_address in Q4 as (x & ->). rewrite app_length. lia. }
  assert (length s1 <= length s)%nat.
  { destruct a; [| |discriminate Q1]; unfold read_ipv4_prefix, read_ipv6_prefix, read_ipv4, read_ipv6 in Q1; apply bind_inv in Q1 as (? & ? & Q11 & Q1); apply bind_inv in Q1 as (? & ? & Q12 & Q1);
      apply read_be_len in Q11, Q12; match type of Q1 with (if ?c then _ else _) _ = _ => destruct c end; try discriminate Q1; apply ret_inv in Q1 as [_ <-]; lia. }
  lia.
Qed.
Lemma rib_next_spec t a sf ap p n : forall s, match rt_rib_next t a sf ap p n s with Ok (Some _, (n', _)) => (n' < n)%nat | Panic => False | _ => True end.
Proof.
  induction n as [|n IH]; intros s; [exact I|]. rewrite rt_rib_step. destruct (Nat.ltb_spec (length s) (rib_entry_min_len ap)) as [L|L]; [exact I|].
  destruct (rib_header ap s L) as (pi & tm & pid & m & d & Hh & _). rewrite Hh. cbn [rbind]. unfold nlen. destruct (N.ltb_spec (N.of_nat (length d)) m) as [K|K]; [exact I|].
  rewrite split_to_ge by lia. cbn [rbind]. pose proof (route_attrs_np (ACfg Bits32 ap (Some a) (Some sf) (Some [p])) (firstn (N.to_nat m) d)) as NP.
  destruct (parse_route_attributes _ _) as [[[path ?] ?]|e|]; cbn [rbind]; [|exact I|apply NP; reflexivity].
  destruct (nth_error t (N.to_nat pi)); [lia|]. specialize (IH (skipn (N.to_nat m) d)). destruct (rt_rib_next t a sf ap p n _) as [[[r|] [n' d']]|e|]; auto; lia.
Qed.
Definition iter_size (i : route_iter) : nat :=
  match i with RtEmpty => 0 | RtUpdate u => length (rm_ann u) + length (rm_wd u) | RtDump _ d => length d | RtRib _ _ _ _ _ n _ => n end.
Lemma iter_next i : wf_iter i -> match rt_next i with Ok (Some _, i') => wf_iter i' /\ (iter_size i' < iter_size i)%nat | Panic => False | _ => True end.
Proof.
  destruct i as [|u|a d|t a sf ap p n d]; cbn [wf_iter iter_size]; intros W.
  - exact I.
  - destruct u as [t pi pa path ann wd ph]. cbn [rt_next rt_update_next]. destruct ph, ann, wd; cbn [wf_iter iter_size rm_ann rm_wd length]; auto; split; auto; lia.
  - destruct d as [|b d]; [exact I|]. cbn [rt_next]. remember (b :: d) as s. pose proof (dump_route_np a W s) as NP. destruct (read_dump_route a s) as [[r s']|e|] eqn:E; cbn [rbind]; [|exact I|apply NP; reflexivity].
    split; [exact W|]. cbn [iter_size]. apply dump_route_len in E. exact E.
  - cbn [rt_next]. pose proof (rib_next_spec t a sf ap p n d) as S. destruct (rt_rib_next t a sf ap p n d) as [[[r|] [n' d']]|e|]; cbn [rbind]; auto.
Qed.
Lemma drains_total i : wf_iter i -> exists rs eo, drains i rs eo.
Proof.
  remember (iter_size i) as n. revert i Heqn. induction n as [n IH] using (well_founded_induction lt_wf). intros i -> W.
  pose proof (iter_next i W) as S. destruct (rt_next i) as [[[r|] i']|e|] eqn:E; [| |exists [], (Some e); apply dr_err; auto|contradiction].
  - destruct S as (W' & L). destruct (IH _ L i' eq_refl W') as (rs & eo & D). exists (r :: rs), eo. eapply dr_some; eauto.
  - exists [], None. eapply dr_end; eauto.
Qed.
Lemma drains_fun i rs eo : drains i rs eo -> forall rs' eo', drains i rs' eo' -> rs = rs' /\ eo = eo'.
Proof.
  induction 1 as [i i1 E|i e E|i r i1 l e E D IH]; intros rs' eo' D'; inversion D'; subst; try congruence; auto.
  - split; congruence.
  - assert (i' = i1) by congruence. assert (r0 = r) by congruence. subst. destruct (IH _ _ H0) as (-> & ->). auto.
Qed.
Lemma update_routes_np ap al t pi pa s : np (parse_update_routes ap al t pi pa s).
Proof.
  unfold parse_update_routes. apply np_run. revert s. apply npp_bind; [apply npp_read_be|]; intros n. apply has_split_np. intros w.
  apply npp_bind; [apply npp_lift, parse_nlri_list_np|]; intros wd. apply npp_bind; [apply npp_read_be|]; intros k. apply has_split_np. intros b. apply npp_bind; [apply npp_peek|]; intros r.
  apply npp_bind; [apply npp_lift, parse_nlri_list_np|]; intros an. apply npp_bind; [apply npp_lift, route_attrs_np|]; intros [[? ?] ?]. apply npp_ret.
Qed.
Lemma message_routes_np ap al t pi pa s : np (parse_message_routes ap al t pi pa s).
Proof.
  unfold parse_message_routes. apply np_run. generalize (nlen s) as total. intros total. revert s. apply npp_bind; [apply npp_has_n|]; intros u. apply (has_split_np 16 (fun _ => _)). intros _.
  apply npp_bind; [apply npp_read_be|]; intros len. destruct (len <? 19); [apply npp_fail|]. cbv zeta. apply npp_bind; [apply npp_read_be|]; intros ty.
  destruct (_ || _); [apply npp_fail|]. destruct (_ && _); [apply npp_fail|]. apply has_split_np. intros d. destruct (ty =? 2); [|apply npp_ret]. apply npp_bind; [apply npp_lift, update_routes_np|]. intros; apply npp_ret.
Qed.
Lemma bgp4mp_routes_np sub t s : np (parse_bgp4mp_routes sub t s).
Proof.
  unfold parse_bgp4mp_routes. destruct (negb _); [discriminate|]. destruct (mp_modes sub) as [[al ap]|]; [|discriminate]. apply np_run. generalize (is_short_zebra_open s al) as z. generalize (nlen s) as n. intros n z. revert s.
  do 2 (apply npp_bind; [apply npp_read_asn|]; intros). destruct z.
  - apply npp_bind; [apply npp_peek|]; intros. apply npp_lift, message_routes_np.
  - apply npp_bind; [apply npp_read_be|]; intros. apply npp_bind; [apply npp_read_afi|]; intros. apply npp_bind; [apply npp_lift|]; intros.
    { unfold mp_payload_len. apply np_rbind; [apply np_validate|intros; apply np_ok]. }
    do 2 (apply npp_bind; [apply npp_read_address|]; intros). apply npp_bind; [apply npp_peek|]; intros. destruct (negb _); [apply npp_fail|]. apply npp_lift, message_routes_np.
Qed.
Lemma legacy_routes_np sub t s : np (parse_legacy_routes sub t s).
Proof.
  unfold parse_legacy_routes. code_cases sub; try discriminate; try (apply np_rbind; [apply legacy_np|]; intros; discriminate).
  apply np_run. revert s. do 4 (apply npp_bind; [apply npp_read_be|]; intros). apply npp_bind; [apply npp_peek|]; intros. apply npp_bind; [apply npp_lift, update_routes_np|]; intros. apply npp_ret.
Qed.
Lemma dump_routes_np sub s : np (parse_dump_routes sub s).
Proof.
  assert (G : forall a, np (run (read_u16 ;;; read_u16 ;;; r <- peek ;; match r with [] => fail ETrunc | _ => ret (RtDump a r) end) s)).
  { intros a. apply np_run. revert s. do 2 (apply npp_bind; [apply npp_read_be|]; intros). apply npp_bind; [apply npp_peek|]; intros [|? ?]; [apply npp_fail|apply npp_ret]. }
  unfold parse_dump_routes. code_cases sub; try discriminate; apply G.
Qed.
Lemma v2_routes_np sub s t : np (parse_v2_routes sub s t).
Proof.
  unfold parse_v2_routes, rt_family. code_cases sub; try discriminate;
    try (apply np_rbind; [|intros [[? ?] ?] _; destruct t; discriminate]; revert s; apply npp_bind; [apply npp_read_be|]; intros; apply npp_bind; [apply npp_read_nlri_prefix|]; intros; apply npp_bind; [apply npp_read_be|]; intros; apply npp_ret).
  apply np_rbind; [|intros; discriminate]. apply np_run. revert s. unfold parse_route_peers. apply npp_bind; [apply npp_read_be|]; intros. apply npp_bind; [apply npp_read_be|]; intros. apply (has_split_np _ (fun _ => _)). intros _.
  apply npp_bind; [apply npp_read_be|]; intros. apply npp_repeat. apply npp_read_peer.
Qed.
Lemma raw_routes_ok w t : match parse_raw_routes w t with Ok (i, _) => wf_iter i | Err _ => True | Panic => False end.
Proof.
  assert (K : forall r, np r -> (forall i, r = Ok i -> wf_iter i) -> match (i <~ r ;; Ok (i, t)) with Ok (i, _) => wf_iter i | Err _ => True | Panic => False end).
  { intros [i|e|] NP W; cbn [rbind]; auto. }
  assert (K1 : match parse_v2_routes (h_sub (r_hdr w)) (r_body w) t with Ok (i, _) => wf_iter i | Err _ => True | Panic => False end).
  { pose proof (v2_routes_np (h_sub (r_hdr w)) (r_body w) t) as NP. revert NP. generalize (h_sub (r_hdr w)) as sub. intros sub. unfold parse_v2_routes, rt_family.
    code_cases sub; try (intros; exact I); intros NP;
      try (match type of NP with np (rbind ?r _) => destruct r as [[[? ?] ?]|?|] end; cbn [rbind] in *; [destruct t; exact I|exact I|apply NP; reflexivity]).
    destruct (run parse_route_peers (r_body w)); cbn [rbind] in *; [exact I|exact I|apply NP; reflexivity]. }
  assert (K2 : forall sub s i, parse_dump_routes sub s = Ok i -> wf_iter i).
  { intros sub s i H. assert (D : exists a, a <> ALinkState /\ run (read_u16 ;;; read_u16 ;;; r <- peek ;; match r with [] => fail ETrunc | _ => ret (RtDump a r) end) s = Ok i).
    { revert H. unfold parse_dump_routes. code_cases sub; intros H; try discriminate H; ((exists AIpv4; split; [discriminate|exact H]) || (exists AIpv6; split; [discriminate|exact H])). }
    destruct D as (a & Na & D). apply run_inv in D as (z & D). do 3 (apply bind_inv in D as (? & ? & _ & D)). match type of D with match ?q with _ => _ end _ = _ => destruct q end; [discriminate D|]. apply ret_inv in D as [<- _]. exact Na. }
  assert (K3 : forall sub tm s i, parse_bgp4mp_routes sub tm s = Ok i -> wf_iter i).
  { assert (M : forall ap al tm pi pa s i, parse_message_routes ap al tm pi pa s = Ok i -> wf_iter i).
    { unfold parse_message_routes. intros ap al tm pi pa s i H. apply run_inv in H as (z & H). do 4 (apply bind_inv in H as (? & ? & _ & H)). destruct (_ <? 19); [discriminate H|]. apply bind_inv in H as (? & ? & _ & H).
      destruct (_ || _); [discriminate H|]. destruct (_ && _); [discriminate H|]. do 2 (apply bind_inv in H as (? & ? & _ & H)). destruct (_ =? 2).
      - apply bind_inv in H as (? & ? & _ & H). apply ret_inv in H as [<- _]. exact I.
      - apply ret_inv in H as [<- _]. exact I. }
    unfold parse_bgp4mp_routes. intros sub tm s i H. destruct (negb _); [discriminate H|]. destruct (mp_modes sub) as [[al ap]|]; [|apply ok_inj in H; subst i; exact I].
    apply run_inv in H as (z & H). do 2 (apply bind_inv in H as (? & ? & _ & H)). destruct (is_short_zebra_open s al).
    - apply bind_inv in H as (? & ? & _ & H). apply lift_inv in H as (H & _). eauto.
    - do 6 (apply bind_inv in H as (? & ? & _ & H)). destruct (negb _); [discriminate H|]. apply lift_inv in H as (H & _). eauto. }
  assert (K4 : forall sub tm s i, parse_legacy_routes sub tm s = Ok i -> wf_iter i).
  { intros sub tm s i. unfold parse_legacy_routes. code_cases sub; intros H; try discriminate H; try (apply rbind_inv in H as (? & _ & H); apply ok_inj in H; subst i; exact I).
    apply run_inv in H as (z & H). do 6 (apply bind_inv in H as (? & ? & _ & H)). apply ret_inv in H as [<- _]. exact I. }
  unfold parse_raw_routes. generalize (h_type (r_hdr w)) as ty. intros ty.
  code_cases ty; try exact I; try exact K1; apply K; eauto using bgp4mp_routes_np, legacy_routes_np, dump_routes_np.
Qed.
Lemma routes_total items : forall t, exists o, routes_of t items o.
Proof.
  induction items as [|[w|x] items IH]; intros t.
  - exists []. constructor.
  - pose proof (raw_routes_ok w t) as H. destruct (parse_raw_routes w t) as [[i t']|e|] eqn:E; [| |contradiction].
    + destruct (drains_total i H) as (rs & eo & D). destruct (IH t') as (o & O). eexists. eapply ro_rec; eauto.
    + destruct (IH t) as (o & O). eexists. eapply ro_bad; eauto.
  - destruct (IH t) as (o & O). eexists. eapply ro_frame; eauto.
Qed.
Lemma routes_fun t items o : routes_of t items o -> forall o', routes_of t items o' -> o = o'.
Proof.
  induction 1 as [t|t x l o R IH|t w e l o P R IH|t w i t' rs e l o P D R IH]; intros o' R'; inversion R'; subst; try congruence; auto.
  - f_equal. auto.
  - f_equal; [congruence|auto].
  - assert (i0 = i) by congruence. assert (t'0 = t') by congruence. subst. match goal with D2 : drains i _ _ |- _ => destruct (drains_fun _ _ _ D _ _ D2) as (<- & <-) end. rewrite (IH _ ltac:(eassumption)). reflexivity.
Qed.

(** ** The iterators *)
Definition pend_err (eo : option perr) (rw : option bytes) : list ritem := match eo with Some e => [inr (false, (e, rw))] | None => [] end.
Definition pend (i : route_iter) (t : option (list peer)) (rw : option bytes) (cs : list (item raw)) (out : list ritem) : Prop :=
  exists rs eo o, drains i rs eo /\ routes_of t cs o /\ out = map inl rs ++ pend_err eo rw ++ o.
Lemma pend_end t cs out i i' rw : rt_next i = Ok (None, i') -> pend i t rw cs out -> routes_of t cs out.
Proof. intros E (rs & eo & o & D & R & ->). inversion D; subst; try congruence. exact R. Qed.
Lemma pend_empty t rw cs o : routes_of t cs o -> pend RtEmpty t rw cs o.
Proof. intros R. exists [], None, o. split; [apply empty_drains|]. auto. Qed.
Lemma pend_done t cs out i i' rw' : rt_next i = Ok (None, i') -> routes_of t cs out -> pend i' t rw' cs out.
Proof.
  intros E R. exists [], None, out. split; [|auto]. assert (exists i2, rt_next i' = Ok (None, i2)) as (i2 & E2).
  { destruct i as [|u|a [|b d]|tb a sf ap p n d]; cbn [rt_next] in E.
    - apply ok_inj in E. injection E as <-. exists RtEmpty. reflexivity.
    - destruct (rt_update_next u) as [o u'] eqn:U. apply ok_inj in E. injection E as -> <-. destruct u as [? ? ? ? [|? ?] [|? ?] []]; cbn in U; try discriminate U; injection U as <-; eexists; reflexivity.
    - apply ok_inj in E. injection E as <-. eexists. reflexivity.
    - apply rbind_inv in E as ([r d'] & _ & E). apply ok_inj in E. discriminate E.
    - assert (F : forall m s n' d', rt_rib_next tb a sf ap p m s = Ok (None, (n', d')) -> n' = 0%nat).
      { induction m as [|m IH]; intros s n' d' H; [cbn in H; apply ok_inj in H; congruence|]. rewrite rt_rib_step in H.
        destruct (Nat.ltb _ _); [apply ok_inj in H; congruence|]. destruct (rt_header ap s) as [[[[? ?] ?] ?]|?|]; cbn [rbind] in H; try discriminate H.
        destruct (_ <? _); [apply ok_inj in H; congruence|]. destruct (split_to _ _) as [[? ?]|?|]; cbn [rbind] in H; try discriminate H. destruct (parse_route_attributes _ _) as [[[? ?] ?]|?|]; cbn [rbind] in H; try discriminate H.
        destruct (nth_error _ _); [apply ok_inj in H; discriminate H|]. eauto. }
      apply rbind_inv in E as ([o [n' d']] & E & E'). apply ok_inj in E'. injection E' as -> <-. rewrite (F _ _ _ _ E). eexists. reflexivity. }
  eapply dr_end; eauto.
Qed.
Lemma pend_step t cs out i i' r rw : rt_next i = Ok (Some r, i') -> pend i t rw cs out -> exists out', out = inl r :: out' /\ pend i' t rw cs out'.
Proof.
  intros E (rs & eo & o & D & R & ->). inversion D as [|? ? E2|? r2 i2 l e E2 D2]; subst; try congruence.
  assert (r2 = r /\ i2 = i') as (-> & ->) by (split; congruence). cbn [map app]. eexists. split; [reflexivity|]. exists l, eo, o. auto.
Qed.
Lemma pend_fail t cs out i e rw : rt_next i = Err e -> pend i t rw cs out -> exists out', out = inr (false, (e, rw)) :: out' /\ routes_of t cs out'.
Proof.
  intros E (rs & eo & o & D & R & ->). inversion D as [|? e2 E2|]; subst; try congruence. assert (e2 = e) as -> by congruence. cbn [map app pend_err]. eauto.
Qed.
Definition keep_route show fs (r : route) : bool := match_filters show (VRoute r) fs.
Lemma rt_loop_spec show fs core n : forall i t rw p cs out fuel, (length out + length cs <= n)%nat -> (n < fuel)%nat -> mrt_inv fs core p -> chunks (pr_stream p) cs -> pend i t rw cs out ->
  exists o st', rt_loop show fuel (RtSt i t rw p) = Ok (o, st') /\ mrt_inv fs core (rs_parser st') /\
    match o with
    | None => List.filter (keep_route show fs) (usable_routes core out) = []
    | Some r => exists cs' out', chunks (pr_stream (rs_parser st')) cs' /\ pend (rs_iter st') (rs_table st') (rs_raw st') cs' out' /\
        (length out' + length cs' < length out + length cs)%nat /\
        List.filter (keep_route show fs) (usable_routes core out) = r :: List.filter (keep_route show fs) (usable_routes core out')
    end.
Proof.
  induction n as [n IH] using (well_founded_induction lt_wf). intros i t rw p cs out fuel Ln Lf Iv C Pd. destruct fuel as [|f]; [lia|]. cbn [rt_loop].
  assert (Go : forall i1 t1 rw1 p1 cs1 out1, (length out1 + length cs1 < length out + length cs)%nat -> mrt_inv fs core p1 -> chunks (pr_stream p1) cs1 -> pend i1 t1 rw1 cs1 out1 ->
     List.filter (keep_route show fs) (usable_routes core out) = List.filter (keep_route show fs) (usable_routes core out1) ->
     exists o st', rt_loop show f (RtSt i1 t1 rw1 p1) = Ok (o, st') /\ mrt_inv fs core (rs_parser st') /\
    match o with
    | None => List.filter (keep_route show fs) (usable_routes core out) = []
    | Some r => exists cs' out', chunks (pr_stream (rs_parser st')) cs' /\ pend (rs_iter st') (rs_table st') (rs_raw st') cs' out' /\
        (length out' + length cs' < length out + length cs)%nat /\
        List.filter (keep_route show fs) (usable_routes core out) = r :: List.filter (keep_route show fs) (usable_routes core out')
    end).
  { intros i1 t1 rw1 p1 cs1 out1 L1 I1 C1 P1 E1. destruct (IH (length out1 + length cs1)%nat ltac:(lia) i1 t1 rw1 p1 cs1 out1 f ltac:(lia) ltac:(lia) I1 C1 P1) as (o & st' & A & B & K).
    exists o, st'. split; [exact A|]. split; [exact B|]. rewrite E1. destruct o as [r|]; [|exact K]. destruct K as (cs' & out' & K1 & K2 & K3 & K4). exists cs', out'. repeat split; auto. lia. }
  destruct (rt_next i) as [[[r|] i']|e|] eqn:E.
  - destruct (pend_step _ _ _ _ _ _ _ E Pd) as (out1 & -> & P1). cbn [usable_routes List.filter length] in *. replace (pr_filters p) with fs by (symmetry; apply Iv).
    change (match_filters show (VRoute r) fs) with (keep_route show fs r). destruct (keep_route show fs r) eqn:M.
    + exists (Some r), (RtSt i' t rw p). split; [reflexivity|]. split; [exact Iv|]. exists cs, out1. cbn [rs_parser rs_iter rs_table rs_raw]. repeat split; auto; lia.
    + apply (Go i' t rw p cs out1); auto; lia.
  - pose proof (pend_end _ _ _ _ _ _ E Pd) as R. inversion C as [s h c s' E1|s w s' l E1 C1|s e h c s' l E1 N1 C1]; subst; rewrite E1.
    + rewrite policy_same. destruct (handle_spec fs core (with_stream p s') EEofExpected c (inv_stream _ _ _ _ Iv)) as (p1 & -> & I1 & S1). cbn [stops negb].
      exists None, (RtSt i' t None p1). split; [reflexivity|]. split; [exact I1|]. inversion R; subst. reflexivity.
    + inversion R as [|? ? ? ? R1|? ? e ? o Pe R1|? ? i2 t2 rs eo ? o Pe D R1]; subst; rewrite Pe; cbv zeta.
      * destruct (dump_inv fs core (with_stream p s') (Some (raw_bytes w)) (inv_stream _ _ _ _ Iv)) as (I2 & S2). replace (pr_core p) with core by (symmetry; apply Iv).
        cbn [usable_routes] in *. destruct core eqn:Co.
        -- exists None, (RtSt i' t None (write_dump (with_stream p s') (Some (raw_bytes w)))). split; [reflexivity|]. split; [exact I2|reflexivity].
        -- eapply (Go i' t None _ l o); [cbn [length]; lia|exact I2|rewrite S2; exact C1|eapply pend_done; eauto|reflexivity].
      * eapply (Go i2 t2 (Some (raw_bytes w)) _ l (map inl rs ++ pend_err eo (Some (raw_bytes w)) ++ o)); [apply Nat.add_le_lt_mono; [apply Nat.le_refl|apply Nat.lt_succ_diag_r]|apply inv_stream; exact Iv|exact C1|exists rs, eo, o; auto|reflexivity].
    + rewrite policy_same. destruct (handle_spec fs core (with_stream p s') e c (inv_stream _ _ _ _ Iv)) as (p1 & -> & I1 & S1). inversion R as [|? ? ? o R1| |]; subst. cbn [usable_routes] in *. destruct (stops core e); cbn [negb].
      * exists None, (RtSt i' t None p1). split; [reflexivity|]. split; [exact I1|reflexivity].
      * eapply (Go i' t None p1 l o); [cbn [length]; lia|exact I1|rewrite S1; exact C1|eapply pend_done; eauto|reflexivity].
  - destruct (pend_fail _ _ _ _ _ _ E Pd) as (out1 & -> & R). destruct (dump_inv fs core p rw Iv) as (I2 & S2). replace (pr_core p) with core by (symmetry; apply Iv). cbn [usable_routes] in *. destruct core eqn:Co.
    + exists None, (RtSt RtEmpty t None (write_dump p rw)). split; [reflexivity|]. split; [exact I2|reflexivity].
    + eapply (Go RtEmpty t None _ cs out1); [cbn [length]; lia|exact I2|rewrite S2; exact C|apply pend_empty; exact R|reflexivity].
  - destruct Pd as (rs & eo & o & D & _). inversion D; congruence.
Qed.
Lemma rt_yields show fs core fuel n : forall st cs out, (length out + length cs <= n)%nat -> (n < fuel)%nat -> mrt_inv fs core (rs_parser st) -> chunks (pr_stream (rs_parser st)) cs -> pend (rs_iter st) (rs_table st) (rs_raw st) cs out ->
  yields (fun _ => True) (route_next show fuel) st (List.filter (keep_route show fs) (usable_routes core out)).
Proof.
  induction n as [n IH] using (well_founded_induction lt_wf). intros st cs out Ln Lf Iv C Pd. destruct st as [i t rw p]. cbn [rs_parser rs_iter rs_table rs_raw] in *.
  destruct (rt_loop_spec show fs core n i t rw p cs out fuel Ln Lf Iv C Pd) as (o & st' & A & B & K).
  assert (Nx : route_next show fuel (RtSt i t rw p) = Ok (o, st')). { unfold route_next. cbn [rs_parser]. rewrite (proj1 Iv). exact A. }
  destruct o as [r|].
  - destruct K as (cs' & out' & K1 & K2 & K3 & ->). eapply y_some; [exact I|exact Nx|]. apply (IH (length out' + length cs')%nat ltac:(lia) st' cs' out'); auto; lia.
  - rewrite K. eapply y_end; [exact I|exact Nx].
Qed.
Lemma usable_routes_length core o : (length (usable_routes core o) <= length o)%nat.
Proof. induction o as [|[r|[b [e c]]] o IH]; cbn [usable_routes length]; [lia|lia|]. destruct (if b then stops core e else core); cbn [length]; lia. Qed.
Lemma route_list_ok show p cs out : pr_text p = None -> chunks (pr_stream p) cs -> routes_of None cs out ->
  forall fuel, (length out + length cs < fuel)%nat -> route_list show fuel p = Ok (List.filter (keep_route show (pr_filters p)) (usable_routes (pr_core p) out)).
Proof.
  intros T C R fuel L. unfold route_list. eapply yields_collect.
  - eapply (rt_yields show (pr_filters p) (pr_core p) fuel (length out + length cs)) with (cs := cs); cbn [rs_parser rs_iter rs_table rs_raw]; [lia|lia|repeat split; auto|exact C|apply pend_empty; exact R].
  - pose proof (filtered_length (keep_route show (pr_filters p)) (usable_routes (pr_core p) out)). pose proof (usable_routes_length (pr_core p) out). unfold ritem in *. lia.
Qed.
(** The fallible one. *)
Lemma frt_loop_spec show fs core n : forall i t rw p cs out fuel, (length out + length cs <= n)%nat -> (n < fuel)%nat -> mrt_inv fs core p -> chunks (pr_stream p) cs -> pend i t rw cs out ->
  exists o st', frt_loop show fuel (RtSt i t rw p) = Ok (o, st') /\ mrt_inv fs core (rs_parser st') /\
    match o with
    | None => List.filter (keep_item (keep_route show fs)) (map reported out) = []
    | Some r => exists cs' out', chunks (pr_stream (rs_parser st')) cs' /\ pend (rs_iter st') (rs_table st') (rs_raw st') cs' out' /\
        (length out' + length cs' < length out + length cs)%nat /\
        List.filter (keep_item (keep_route show fs)) (map reported out) = r :: List.filter (keep_item (keep_route show fs)) (map reported out')
    end.
Proof.
  induction n as [n IH] using (well_founded_induction lt_wf). intros i t rw p cs out fuel Ln Lf Iv C Pd. destruct fuel as [|f]; [lia|]. cbn [frt_loop].
  assert (Go : forall i1 t1 rw1 p1 cs1 out1, (length out1 + length cs1 < length out + length cs)%nat -> mrt_inv fs core p1 -> chunks (pr_stream p1) cs1 -> pend i1 t1 rw1 cs1 out1 ->
     List.filter (keep_item (keep_route show fs)) (map reported out) = List.filter (keep_item (keep_route show fs)) (map reported out1) ->
     exists o st', frt_loop show f (RtSt i1 t1 rw1 p1) = Ok (o, st') /\ mrt_inv fs core (rs_parser st') /\
    match o with
    | None => List.filter (keep_item (keep_route show fs)) (map reported out) = []
    | Some r => exists cs' out', chunks (pr_stream (rs_parser st')) cs' /\ pend (rs_iter st') (rs_table st') (rs_raw st') cs' out' /\
        (length out' + length cs' < length out + length cs)%nat /\
        List.filter (keep_item (keep_route show fs)) (map reported out) = r :: List.filter (keep_item (keep_route show fs)) (map reported out')
    end).
  { intros i1 t1 rw1 p1 cs1 out1 L1 I1 C1 P1 E1. destruct (IH (length out1 + length cs1)%nat ltac:(lia) i1 t1 rw1 p1 cs1 out1 f ltac:(lia) ltac:(lia) I1 C1 P1) as (o & st' & A & B & K).
    exists o, st'. split; [exact A|]. split; [exact B|]. rewrite E1. destruct o as [r|]; [|exact K]. destruct K as (cs' & out' & K1 & K2 & K3 & K4). exists cs', out'. repeat split; auto. lia. }
  destruct (rt_next i) as [[[r|] i']|e|] eqn:E.
  - destruct (pend_step _ _ _ _ _ _ _ E Pd) as (out1 & -> & P1). cbn [map reported List.filter keep_item length] in *. replace (pr_filters p) with fs by (symmetry; apply Iv).
    change (match_filters show (VRoute r) fs) with (keep_route show fs r). destruct (keep_route show fs r) eqn:M.
    + exists (Some (inl r)), (RtSt i' t rw p). split; [reflexivity|]. split; [exact Iv|]. exists cs, out1. cbn [rs_parser rs_iter rs_table rs_raw]. repeat split; auto; lia.
    + apply (Go i' t rw p cs out1); auto; lia.
  - pose proof (pend_end _ _ _ _ _ _ E Pd) as R. inversion C as [s h c s' E1|s w s' l E1 C1|s e h c s' l E1 N1 C1]; subst; rewrite E1.
    + exists None, (RtSt i' t None (with_stream p s')). split; [reflexivity|]. split; [apply inv_stream; exact Iv|]. inversion R; subst. reflexivity.
    + inversion R as [|? ? ? ? R1|? ? e ? o Pe R1|? ? i2 t2 rs eo ? o Pe D R1]; subst; rewrite Pe; cbv zeta.
      * exists (Some (inr (e, Some (raw_bytes w)))), (RtSt i' t None (with_stream p s')). split; [reflexivity|]. split; [apply inv_stream; exact Iv|].
        exists l, o. cbn [rs_parser rs_iter rs_table rs_raw length]. split; [exact C1|]. split; [eapply pend_done; eauto|]. split; [lia|reflexivity].
      * eapply (Go i2 t2 (Some (raw_bytes w)) _ l (map inl rs ++ pend_err eo (Some (raw_bytes w)) ++ o)); [apply Nat.add_le_lt_mono; [apply Nat.le_refl|apply Nat.lt_succ_diag_r]|apply inv_stream; exact Iv|exact C1|exists rs, eo, o; auto|reflexivity].
    + inversion R as [|? ? ? o R1| |]; subst. exists (Some (inr (e, c))), (RtSt i' t None (with_stream p s')).
      split; [destruct e; try reflexivity; congruence|]. split; [apply inv_stream; exact Iv|]. exists l, o. cbn [rs_parser rs_iter rs_table rs_raw length]. split; [exact C1|]. split; [eapply pend_done; eauto|]. split; [lia|reflexivity].
  - destruct (pend_fail _ _ _ _ _ _ E Pd) as (out1 & -> & R). exists (Some (inr (e, rw))), (RtSt RtEmpty t None p). split; [reflexivity|]. split; [exact Iv|].
    exists cs, out1. cbn [rs_parser rs_iter rs_table rs_raw length]. split; [exact C|]. split; [apply pend_empty; exact R|]. split; [lia|reflexivity].
  - destruct Pd as (rs & eo & o & D & _). inversion D; congruence.
Qed.
Lemma frt_yields show fs core fuel n : forall st cs out, (length out + length cs <= n)%nat -> (n < fuel)%nat -> mrt_inv fs core (rs_parser st) -> chunks (pr_stream (rs_parser st)) cs -> pend (rs_iter st) (rs_table st) (rs_raw st) cs out ->
  yields (fun _ => True) (froute_next show fuel) st (List.filter (keep_item (keep_route show fs)) (map reported out)).
Proof.
  induction n as [n IH] using (well_founded_induction lt_wf). intros st cs out Ln Lf Iv C Pd. destruct st as [i t rw p]. cbn [rs_parser rs_iter rs_table rs_raw] in *.
  destruct (frt_loop_spec show fs core n i t rw p cs out fuel Ln Lf Iv C Pd) as (o & st' & A & B & K).
  assert (Nx : froute_next show fuel (RtSt i t rw p) = Ok (o, st')). { unfold froute_next. cbn [rs_parser]. rewrite (proj1 Iv). exact A. }
  destruct o as [r|].
  - destruct K as (cs' & out' & K1 & K2 & K3 & ->). eapply y_some; [exact I|exact Nx|]. apply (IH (length out' + length cs')%nat ltac:(lia) st' cs' out'); auto; lia.
  - rewrite K. eapply y_end; [exact I|exact Nx].
Qed.
Lemma froute_list_ok show p cs out : pr_text p = None -> chunks (pr_stream p) cs -> routes_of None cs out ->
  forall fuel, (length out + length cs < fuel)%nat -> froute_list show fuel p = Ok (List.filter (keep_item (keep_route show (pr_filters p))) (map reported out)).
Proof.
  intros T C R fuel L. unfold froute_list. eapply yields_collect.
  - eapply (frt_yields show (pr_filters p) (pr_core p) fuel (length out + length cs)) with (cs := cs); cbn [rs_parser rs_iter rs_table rs_raw]; [lia|lia|repeat split; auto|exact C|apply pend_empty; exact R].
  - pose proof (filtered_length (keep_item (keep_route show (pr_filters p))) (map reported out)). rewrite map_length in *. unfold item, ritem in *. lia.
Qed.

(** ** Agreement over a source *)
Lemma chunks_ok s cs : chunks s cs -> bytes_ok (sbytes s) -> Forall (fun x => match x with inl w => bytes_ok (r_body w) | inr _ => True end) cs.
Proof.
  induction 1 as [s h c s' E|s w s' l E C IH|s e h c s' l E N C IH]; intros B; [constructor| |]; pose proof (chunk_bytes s) as K; rewrite E in K.
  - destruct K as (K & _). unfold bytes_ok in *. rewrite K in B. apply Forall_app in B as (B1 & B2). apply Forall_cons; [|apply IH; exact B2].
    unfold raw_bytes in B1. apply Forall_app in B1 as (_ & B1). exact B1.
  - apply Forall_cons; [exact I|]. apply IH. destruct c as [c|]; [|destruct K as (-> & _); congruence]. destruct K as (K & _). unfold bytes_ok in *. rewrite K in B. apply Forall_app in B as (_ & B2). exact B2.
Qed.
Lemma usable_routes_app core rs o : usable_routes core (map inl rs ++ o) = rs ++ usable_routes core o.
Proof. induction rs as [|r rs IH]; [reflexivity|]. cbn [map app usable_routes]. rewrite IH. reflexivity. Qed.
Lemma stream_agrees t items : agreeing t items -> forall l out, same_peers t l -> routes_of l items out ->
  Forall (fun x => match x with inl w => bytes_ok (r_body w) | inr _ => True end) items ->
  usable_routes false out = map project (flat_map elems_of (annotate t (map snd (pairs false items)))).
Proof.
  induction 1 as [t|t [e c] items A IH|t w r items P C A IH|t w e items P St Q A IH]; intros l out S R B; cbn [pairs]; inversion B as [|? ? B1 B2]; subst.
  - inversion R. reflexivity.
  - inversion R; subst. cbn [usable_routes]. destruct (stops false e); [reflexivity|]. eauto.
  - rewrite P. destruct (record_agrees w r t l B1 P C S) as (i & l' & eo & E1 & E2 & E3 & _). inversion R as [| |? ? ? ? o E4|? ? i2 l2 rs2 eo2 ? o E4 D2 R2]; subst; [congruence|].
    assert (i2 = i /\ l2 = l') as (-> & ->) by (split; congruence). destruct (drains_fun _ _ _ E3 _ _ D2) as (<- & <-).
    rewrite usable_routes_app. cbn [map snd annotate flat_map]. rewrite map_app. f_equal.
    destruct eo; cbn [app usable_routes]; eapply IH; eauto.
  - rewrite P, St. inversion R as [| |? ? e2 ? o E4 R2|? ? i2 l2 rs2 eo2 ? o E4 D2 R2]; subst.
    + cbn [usable_routes]. eauto.
    + pose proof (refused_table _ _ _ _ _ P E4). subst l2. rewrite (Q _ _ _ _ _ E4 D2). cbn [map app]. destruct eo2; cbn [app usable_routes]; eauto.
Qed.
Lemma elems_origins t r : Forall (fun e => e_origins e = option_map iter_origins (e_path e)) (elems_of (t, r)).
Proof.
  pose proof (elems_of_ok t r) as U. revert U. generalize (elems_of (t, r)) as l. intros l U. unfold record_elems in U.
  assert (D : forall d e, dump_elem d e -> e_origins e = option_map iter_origins (e_path e)). { intros d e (_ & _ & _ & _ & _ & _ & q & _ & E1 & E2 & _). congruence. }
  assert (B : forall b tm pi pa l, bgp_elems b tm pi pa l -> Forall (fun e => e_origins e = option_map iter_origins (e_path e)) l).
  { intros b tm pi pa l' H. destruct b as [o|u|n| |rr]; cbn [bgp_elems] in H; try (subst l'; constructor). destruct H as (? & ? & ? & ? & path & _ & _ & _ & _ & _ & _ & F).
    eapply Forall_impl; [|exact F]. cbn beta. intros e (_ & _ & _ & _ & K). destruct (e_type e); [destruct K as (E1 & E2 & _); congruence|]. destruct K as (_ & E1 & E2 & _). rewrite E1, E2. reflexivity. }
  destruct (mr_msg r) as [d|ds|[x|b| |g]|[m|m]|[m|m]]; try (subst l; constructor); eauto.
  - destruct U as (e & -> & U). constructor; eauto.
  - induction U; constructor; eauto.
  - destruct t as [t|]; [|subst l; constructor]. induction U as [|x e ? ? (_ & _ & _ & _ & _ & _ & q & q4 & path & _ & _ & _ & E1 & E2 & _) U IH]; constructor; auto. congruence.
Qed.
Lemma all_origins t l : Forall (fun e => e_origins e = option_map iter_origins (e_path e)) (flat_map elems_of (annotate t l)).
Proof. revert t. induction l as [|r l IH]; intros t; [constructor|]. cbn [annotate flat_map]. apply Forall_app. split; [apply elems_origins|apply IH]. Qed.
Lemma filter_project show fs l : Forall (fun f => needs_elem f = false) fs -> Forall (fun e => e_origins e = option_map iter_origins (e_path e)) l ->
  List.filter (keep_route show fs) (map project l) = map project (List.filter (fun e => match_filters show (VElem e) fs) l).
Proof.
  intros F. induction 1 as [|e l H L IH]; [reflexivity|]. cbn [map List.filter].
  assert (E : keep_route show fs (project e) = match_filters show (VElem e) fs).
  { unfold keep_route, match_filters. clear -F H. induction F as [|f fs N F IH]; [reflexivity|]. cbn [forallb]. rewrite IH, (route_agrees show e f N H). reflexivity. }
  rewrite E. destruct (match_filters show (VElem e) fs); cbn [map]; rewrite IH; reflexivity.
Qed.
Lemma streams_agree show p cs : pr_text p = None -> pr_core p = false -> bytes_ok (sbytes (pr_stream p)) -> chunks (pr_stream p) cs -> agreeing None cs ->
  Forall (fun f => needs_elem f = false) (pr_filters p) ->
  exists n es, forall fuel, (n <= fuel)%nat -> elem_list show fuel p = Ok es /\ route_list show fuel p = Ok (map project es).
Proof.
  intros T Co B C A F. destruct (reads_total (pr_stream p)) as (items & R). destruct (elem_list_ok show p items T R) as (n1 & E1). destruct (routes_total cs None) as (out & O).
  exists (n1 + S (length out + length cs))%nat. eexists. intros fuel L. split; [apply E1; lia|]. rewrite (route_list_ok show p cs out T C O fuel ltac:(lia)). rewrite Co. f_equal.
  rewrite (stream_agrees None cs A None out I O (chunks_ok _ _ C B)). rewrite (pairs_reads false _ _ C _ R). apply filter_project; [exact F|apply all_origins].
Qed.
(** ** The route iterators by themselves *)
Lemma text_routes show p l fuel : pr_text p = Some l -> (0 < fuel)%nat -> route_list show fuel p = Ok [] /\ froute_list show fuel p = Ok [].
Proof. intros T L. destruct fuel; [lia|]. unfold route_list, froute_list, collect, route_next, froute_next. cbn [rs_parser]. rewrite T. split; reflexivity. Qed.
Lemma filtered_routes show p : exists n l, forall fuel, (n <= fuel)%nat -> route_list show fuel (unfiltered p) = Ok l /\ route_list show fuel p = Ok (List.filter (fun r => match_filters show (VRoute r) (pr_filters p)) l).
Proof.
  destruct (pr_text p) as [tx|] eqn:T.
  - exists 1%nat, []. intros fuel L. rewrite (proj1 (text_routes show p tx fuel T L)), (proj1 (text_routes show (unfiltered p) tx fuel T L)). auto.
  - destruct (chunks_total (pr_stream p)) as (cs & C). destruct (routes_total cs None) as (out & R). exists (S (length out + length cs)), (usable_routes (pr_core p) out). intros fuel L.
    rewrite (route_list_ok show p cs out T C R fuel L), (route_list_ok show (unfiltered p) cs out T C R fuel L). cbn [unfiltered pr_core pr_filters]. split; [|reflexivity]. f_equal. apply filter_true.
Qed.
Lemma filtered_froutes show p : exists n l, forall fuel, (n <= fuel)%nat -> froute_list show fuel (unfiltered p) = Ok l /\ froute_list show fuel p = Ok (List.filter (keep_item (fun r => match_filters show (VRoute r) (pr_filters p))) l).
Proof.
  destruct (pr_text p) as [tx|] eqn:T.
  - exists 1%nat, []. intros fuel L. rewrite (proj2 (text_routes show p tx fuel T L)), (proj2 (text_routes show (unfiltered p) tx fuel T L)). auto.
  - destruct (chunks_total (pr_stream p)) as (cs & C). destruct (routes_total cs None) as (out & R). exists (S (length out + length cs)), (map reported out). intros fuel L.
    rewrite (froute_list_ok show p cs out T C R fuel L), (froute_list_ok show (unfiltered p) cs out T C R fuel L). cbn [unfiltered pr_core pr_filters]. split; [|reflexivity]. f_equal.
    clear. induction (map reported out) as [|[x|x] l IH]; [reflexivity| |]; cbn [List.filter keep_item keep_route match_filters forallb]; rewrite IH; reflexivity.
Qed.
