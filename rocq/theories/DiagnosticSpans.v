(** Where diagnostic iteration places its findings. *)
From Coq Require Import Lia ZifyBool ZifyNat ZifyN.
From Verif Require Import Base BaseFacts Net AsPath Attr AttrFacts BgpMsg Bgp4mp TableDump TableDumpFacts Stream MrtRecord Iter IterSpec Dissect DissectSpec DissectFacts DissectWhole Diagnostic DiagnosticSpec DiagnosticTree.
From Verif Require AttrSpec MsgSpec MsgFacts Bgp4mpSpec Bgp4mpFacts Framing FramingFacts DiagnosticFacts.

Lemma field_eqb_attr f c : field_eqb f (FAttr c) = true <-> f = FAttr c.
Proof. destruct f as [s|d]; cbn [field_eqb]; [split; discriminate|]. rewrite N.eqb_eq. split; congruence. Qed.
Definition coded (c : N) (n : node) : bool := field_eqb (nd_field n) (FAttr c).
Lemma find_attr c t : find_all (FAttr c) t = filter (coded c) (attr_nodes t).
Proof.
  rewrite find_all_eq. unfold named, attr_nodes. induction (preorder t) as [|n l IH]; [reflexivity|]. cbn [filter]. destruct (nd_field n) as [s|d] eqn:E.
  - cbn [field_eqb]. exact IH.
  - cbn [filter]. unfold coded at 1. rewrite E. cbn [field_eqb]. rewrite IH. reflexivity.
Qed.
Lemma nth_mid {A} (P : A -> bool) b k a : P k = true -> nth_error (filter P (b ++ k :: a)) (length (filter P b)) = Some k.
Proof. intros H. rewrite filter_app. cbn [filter]. rewrite H. rewrite nth_error_app2 by lia. rewrite Nat.sub_diag. reflexivity. Qed.
Lemma attr_span_mid t b k a c : attr_nodes t = b ++ k :: a -> nd_field k = FAttr c -> attr_span t c (nlen (filter (coded c) b)) = Some (nd_span k).
Proof.
  intros E Ek. unfold attr_span, nlen. rewrite find_attr, E, Nnat.Nat2N.id, nth_mid; [reflexivity|]. unfold coded. apply field_eqb_attr. exact Ek.
Qed.
Lemma section_of t name : (match section_span t name with Some s => s | None => nd_span t end) = span_of t name.
Proof. unfold section_span, span_of. rewrite find_eq. destruct (named (F name) t); reflexivity. Qed.

(** Findings about one attribute. *)
Definition about (c : N) (w : warning) : Prop :=
  match w with WFlags d _ _ | WLength d _ _ | WOptional d _ | WPartial d _ | WMalformedList d _ => d = c | _ => False end.
Lemma locate_about t cs c w k : about c w -> attr_span t c (count_of cs c) = Some (nd_span k) -> locate w t cs = (place t k w, cs).
Proof.
  intros A E. destruct w; cbn [about] in A; try contradiction; subst; unfold locate; cbv zeta; cbn [place]; rewrite ?E; cbn [or_else]; try reflexivity. rewrite section_of. reflexivity.
Qed.
Lemma loop_about t cs c k tail : forall ws, Forall (about c) ws -> attr_span t c (count_of cs c) = Some (nd_span k) ->
  span_loop (ws ++ tail) t cs = map (fun w => (place t k w, w)) ws ++ span_loop tail t cs.
Proof.
  induction ws as [|w ws IH]; intros H E; [reflexivity|]. cbn [app span_loop map]. rewrite (locate_about t cs c w k) by (auto; exact (Forall_inv H)). rewrite IH by (auto; exact (Forall_inv_tail H)). reflexivity.
Qed.
(** Findings about the message. *)
Definition general (w : warning) : Prop := match w with WMissing _ | WMalformedNlri _ _ _ => True | _ => False end.
Lemma loop_general t cs : forall ws, Forall general ws -> span_loop ws t cs = map (fun w => (wide_place t w, w)) ws.
Proof.
  induction ws as [|w ws IH]; intros H; [reflexivity|]. cbn [span_loop map]. pose proof (Forall_inv H) as G. specialize (IH (Forall_inv_tail H)).
  destruct w; cbn [general] in G; try contradiction; unfold locate; cbv zeta; rewrite section_of, IH; try reflexivity. destruct announced; reflexivity.
Qed.

(** The findings of a block, attribute by attribute. *)
Fixpoint dup_ws (mask : N) (gs : list (N * list warning)) : list warning :=
  match gs with [] => [] | (c, ws) :: gs' => (if N.testbit mask c then [WDuplicate c] else []) ++ ws ++ dup_ws (N.setbit mask c) gs' end.
Definition own_of (k : acfg) (r : AttrSpec.raw_attr) : list warning :=
  flag_warnings (AttrSpec.r_code r) (AttrSpec.r_flag r) ++ length_warnings (AttrSpec.r_code r) (nlen (AttrSpec.r_value r)) ++ snd (attr_out k r).
Definition block_groups (k : acfg) (l : list AttrSpec.raw_attr) (e : AttrSpec.block_end) : list (N * list warning) :=
  map (fun r => (AttrSpec.r_code r, own_of k r)) l ++
  match e with AttrSpec.EndCut f c len _ => [(c, flag_warnings c f ++ length_warnings c len)] | _ => [] end.
Lemma ws_groups k e : forall l mask, ws_of k mask l e = dup_ws mask (block_groups k l e).
Proof.
  induction l as [|r l IH]; intros mask.
  - unfold block_groups. cbn [map app ws_of]. destruct e; cbn [dup_ws]; try reflexivity. rewrite !app_nil_r. reflexivity.
  - cbn [ws_of block_groups map app dup_ws]. change (map _ l ++ _) with (block_groups k l e). rewrite <- IH. unfold header_warnings, own_of. rewrite <- !app_assoc. reflexivity.
Qed.
Lemma flag_about c f : Forall (about c) (flag_warnings c f).
Proof.
  unfold flag_warnings. destruct (expected_flags c); [|constructor]. apply Forall_app. split; [destruct (_ =? _)|destruct (_ && _)]; repeat constructor.
Qed.
Lemma length_about c len : Forall (about c) (length_warnings c len).
Proof. unfold length_warnings. destruct (expected_length c); [|constructor]. destruct (_ =? _); repeat constructor. Qed.
Lemma own_about k r : AttrSpec.r_code r < 256 -> Forall (about (AttrSpec.r_code r)) (own_of k r).
Proof.
  intros B. unfold own_of. apply Forall_app. split; [apply flag_about|]. apply Forall_app. split; [apply length_about|].
  apply Forall_forall. intros w H. apply (attr_out_spec k r B) in H as (e & _ & _ & ->). unfold error_warning. destruct (is_partial _); [reflexivity|]. destruct (mem _ _); reflexivity.
Qed.
(** One attribute alone. *)
Definition alone (k : acfg) (o : bytes) (ws : list warning) : Prop := exists a, parse_attributes k o = Ok a /\ at_warnings a = ws.
Lemma attr_alone k r : AttrSpec.raw_ok r -> alone k (AttrSpec.attr_wire r) (own_of k r).
Proof.
  intros H. eexists. split.
  - pose proof (parse_block k [r] (AttrSpec.EndShort [])) as P. cbn [flat_map AttrSpec.end_wire] in P. rewrite !app_nil_r in P. apply P.
    + apply raw_ok_fit; constructor; [exact H|constructor].
    + split; [cbn; lia|constructor].
    + intros [].
  - cbn [at_warnings]. rewrite ws_groups. unfold block_groups. cbn [map app dup_ws]. rewrite N.bits_0, app_nil_r. reflexivity.
Qed.
Lemma cut_alone k f c len rest : AttrSpec.end_ok (AttrSpec.EndCut f c len rest) ->
  alone k (AttrSpec.end_wire (AttrSpec.EndCut f c len rest)) (flag_warnings c f ++ length_warnings c len).
Proof.
  intros H. eexists. split.
  - pose proof (parse_block k [] (AttrSpec.EndCut f c len rest)) as P. cbn [flat_map app] in P. apply P; [constructor|exact H|intros []].
  - cbn [at_warnings]. rewrite ws_groups. unfold block_groups. cbn [map app dup_ws]. rewrite N.bits_0, app_nil_r. reflexivity.
Qed.
Lemma groups_alone k l e : Forall AttrSpec.raw_ok l -> AttrSpec.end_ok e ->
  Forall2 (fun o g => alone k o (snd g) /\ Forall (about (fst g)) (snd g) /\ exists fl rest, o = fl :: fst g :: rest) (map AttrSpec.attr_wire l ++ cut_wire e) (block_groups k l e).
Proof.
  intros Kl Ke. unfold block_groups. apply Forall2_app.
  - induction Kl as [|r l H _ IH]; [constructor|]. cbn [map]. constructor; [|exact IH]. cbn [fst snd]. split; [apply attr_alone; exact H|].
    split; [apply own_about; destruct r; apply H|]. destruct r as [f c v]. do 2 eexists. reflexivity.
  - destruct e as [t|f c len rest|f c x]; cbn [cut_wire]; repeat constructor; cbn [fst snd].
    + apply cut_alone. exact Ke.
    + apply Forall_app. split; [apply flag_about|apply length_about].
    + do 2 eexists. reflexivity.
Qed.

(** Counting. *)
Definition occ (c : N) (l : list node) : N := nlen (filter (coded c) l).
Lemma occ_app c a k : occ c (a ++ [k]) = occ c a + (if coded c k then 1 else 0).
Proof. unfold occ. rewrite filter_app, nlen_app. cbn [filter]. destruct (coded c k); reflexivity. Qed.
Lemma occ_exists c l : existsb (coded c) l = (0 <? occ c l).
Proof. induction l as [|n l IH]; [reflexivity|]. unfold occ in *. cbn [existsb filter]. destruct (coded c n); [rewrite nlen_cons; cbn [orb]; lia|]. exact IH. Qed.
Lemma count_bump cs c d : count_of (bump cs c) d = if c =? d then count_of cs c + 1 else count_of cs d.
Proof. reflexivity. Qed.
Lemma loop_groups cfg data t tail : forall ks gs before mask cs, attr_nodes t = before ++ ks ->
  Forall2 (fun k g => nd_field k = FAttr (fst g) /\ alone cfg (under data k) (snd g) /\ Forall (about (fst g)) (snd g)) ks gs ->
  (forall c, N.testbit mask c = existsb (coded c) before) -> (forall c, count_of cs c = N.pred (occ c before)) ->
  exists groups cs', map fst groups = ks /\ all_findings cfg data before groups /\
    span_loop (dup_ws mask gs ++ tail) t cs = flat_map (fun g => map (fun w => (place t (fst g) w, w)) (snd g)) groups ++ span_loop tail t cs'.
Proof.
  induction ks as [|k ks IH]; intros gs before mask cs Et Fg Hm Hc; inversion Fg as [|? [c ws] ? gs' (E1 & E2 & E3) F']; subst.
  - exists [], cs. cbn. auto.
  - cbn [fst snd] in *. set (cs1 := if N.testbit mask c then bump cs c else cs).
    assert (C1 : count_of cs1 c = occ c before).
    { subst cs1. pose proof (Hm c) as M. rewrite occ_exists in M. specialize (Hc c). destruct (N.testbit mask c); [rewrite count_bump, N.eqb_refl|]; lia. }
    assert (Ck : forall d, coded d k = (c =? d)) by (intros d; unfold coded; rewrite E1; reflexivity).
    assert (Sp : attr_span t c (count_of cs1 c) = Some (nd_span k)) by (rewrite C1; eapply attr_span_mid; eassumption).
    destruct (IH gs' (before ++ [k]) (N.setbit mask c) cs1) as (groups & cs' & G1 & G2 & G3); auto.
    { rewrite Et, <- app_assoc. reflexivity. }
    { intros d. rewrite N.setbit_eqb, existsb_app. cbn [existsb]. rewrite Ck, orb_false_r, Hm. apply orb_comm. }
    { intros d. rewrite occ_app, Ck. subst cs1. destruct (c =? d) eqn:Ed.
      - apply N.eqb_eq in Ed. subst d. rewrite C1. lia.
      - destruct (N.testbit mask c); rewrite ?count_bump, ?Ed, Hc; f_equal; lia. }
    exists ((k, (if N.testbit mask c then [WDuplicate c] else []) ++ ws) :: groups), cs'. cbn [map fst]. split; [f_equal; exact G1|]. split.
    { cbn [all_findings]. split; [|exact G2]. destruct E2 as (a & Ea & <-). exists c, a. split; [exact E1|]. split; [exact Ea|]. fold (coded c). rewrite Hm. reflexivity. }
    cbn [dup_ws flat_map fst snd]. rewrite map_app, <- !app_assoc. rewrite <- G3.
    assert (Q : span_loop ((if N.testbit mask c then [WDuplicate c] else []) ++ ws ++ dup_ws (N.setbit mask c) gs' ++ tail) t cs =
      map (fun w => (place t k w, w)) (if N.testbit mask c then [WDuplicate c] else []) ++ span_loop (ws ++ dup_ws (N.setbit mask c) gs' ++ tail) t cs1).
    { subst cs1. destruct (N.testbit mask c); [|reflexivity]. cbn [app span_loop map]. unfold locate at 1. cbv zeta. rewrite Sp. cbn [or_else place]. reflexivity. }
    rewrite Q. f_equal. apply (loop_about t cs1 c); assumption.
Qed.

(** A record with an UPDATE. *)
Lemma parse_nil ap : exists l, parse_nlri_list [] ap AIpv4 = Ok l.
Proof. eexists. reflexivity. Qed.
Lemma sub_of_message st s x : parse_bgp4mp st s = Ok (MpMessage x) -> exists al ap, Bgp4mpSpec.message_subtype st al ap.
Proof.
  unfold parse_bgp4mp. intros H.
  repeat match type of H with context [match ?v with _ => _ end] => is_var v; destruct v; try discriminate H end;
    try (apply rbind_inv in H as (y & _ & H); discriminate H).
  all: first [exists Bits16, false; cbn; tauto|exists Bits32, false; cbn; tauto|exists Bits16, true; cbn; tauto|exists Bits32, true; cbn; tauto].
Qed.
Lemma app_same_len {A} (a b c d : list A) : a ++ b = c ++ d -> length a = length c -> a = c /\ b = d.
Proof.
  revert c. induction a as [|x a IH]; intros [|y c] E L; try discriminate; [auto|]. cbn [app length] in *. injection E as -> E. destruct (IH c E) as [-> ->]; [lia|auto].
Qed.
Lemma missing_ws A x y : exists ms, at_warnings (check_mandatory A x y) = at_warnings A ++ ms /\ Forall (fun w => exists c, w = WMissing c) ms.
Proof.
  unfold check_mandatory. destruct (negb x).
  - exists []. rewrite app_nil_r. auto.
  - cbn [at_warnings]. eexists. split; [reflexivity|]. repeat (apply Forall_app; split); match goal with |- context [if ?b then _ else _] => destruct b end; repeat constructor; eauto.
Qed.
Lemma update_type ap al t d u : 1 <= t <= 5 -> parse_body ap al t d = Ok (MUpdate u) -> t = 2 /\ parse_update ap al d = Ok u.
Proof.
  intros B H. assert (C : t = 1 \/ t = 2 \/ t = 3 \/ t = 4 \/ t = 5) by lia.
  destruct C as [-> | [-> | [-> | [-> | ->]]]]; cbn [parse_body] in H; try (apply rbind_inv in H as (y & E & H)); try discriminate H.
  injection H as <-. auto.
Qed.
Lemma record_shape r m x u : bytes_ok (Framing.raw_bytes r) -> FramingFacts.flat_header (Framing.r_hbytes r) = inl (Framing.r_hdr r, Framing.r_hbytes r, []) ->
  small (Framing.raw_bytes r) -> parse_raw r = Ok m -> mr_msg m = MrtBgp4mp (MpMessage x) -> mm_bgp x = MUpdate u ->
  exists l e w n A ap t, let a := flat_map AttrSpec.attr_wire l ++ AttrSpec.end_wire e in
    dissect_mrt_bytes (Framing.raw_bytes r) = Ok t /\
    shape (Framing.raw_bytes r) (map AttrSpec.attr_wire l ++ cut_wire e) (sect a) (sect n) (sect w) [t] /\
    Forall AttrSpec.raw_ok l /\ AttrSpec.end_ok e /\
    at_warnings A = ws_of (record_cfg (Framing.h_sub (Framing.r_hdr r))) 0 l e /\ MsgSpec.update_reads ap A w n u.
Proof.
  intros Hb Hf Sm P Em Eu. unfold parse_raw in P. apply rbind_inv in P as (y & P & Y). injection Y as <-. cbn [mr_msg] in Em. subst y.
  set (h := Framing.r_hdr r) in *. set (hb := Framing.r_hbytes r) in *. set (s := Framing.r_body r) in *.
  assert (Er : Framing.raw_bytes r = hb ++ s) by reflexivity. rewrite Er in *. apply bytes_ok_app in Hb as [Hhb Hs].
  destruct (FramingFacts.flat_header_inv _ _ _ _ Hf Hhb) as (Eh & Hh).
  assert (T : (Framing.h_type h = 16 \/ Framing.h_type h = 17) /\ parse_bgp4mp (Framing.h_sub h) s = Ok (MpMessage x)).
  { unfold parse_mrt_body in P. destruct (negb _); [discriminate|]. remember (Framing.h_type h) as ty.
    repeat match type of P with context [match ?v with _ => _ end] => is_var v; destruct v; try discriminate P end;
      apply rbind_inv in P as (y & E & P); try discriminate P; try (destruct y as [|y0 [|y1 ys]]; discriminate P); injection P as ->; auto. }
  destruct T as (Hty & Pm). destruct (sub_of_message _ _ _ Pm) as (al & ap & Ms). destruct (Bgp4mpFacts.bgp4mp_message_sub _ _ _ s Ms) as (Eq & _). rewrite Eq in Pm. clear Eq.
  apply rbind_inv in Pm as (y & Pm & Y). injection Y as ->. apply (proj1 (Bgp4mpFacts.mp_message_iff _ _ _ _ _ Hs)) in Pm as (_ & [(-> & (asns & z & rest & Ez & La & Lz) & _ & _ & _ & body & q & Es & _ & _ & Pb)|(Ke & body & q & Es & Pb)]).
  - exfalso. rewrite Eu in Pb. assert (Hbody : bytes_ok body) by (rewrite Es in Hs; apply bytes_ok_app in Hs as [_ Hs]; apply bytes_ok_app in Hs; tauto).
    destruct (MsgFacts.frame_inv _ _ _ _ _ Hbody Pb) as (mk & len & t & d & Ed & Lm & _ & Bt & _ & _ & Pd). destruct (update_type _ _ _ _ _ Bt Pd) as (-> & _).
    rewrite Ez, (app_assoc (be 2 _)) in Es. apply app_same_len in Es as [_ Es]; [|rewrite app_length, !be_length; exact La]. rewrite Ed in Es. unfold MsgSpec.header_wire in Es. rewrite <- !app_assoc in Es.
    apply app_same_len in Es as [_ Es]; [|rewrite repeat_length, Lm; reflexivity]. apply app_same_len in Es as [_ Es]; [|rewrite be_length; exact Lz]. discriminate Es.
  - rewrite Eu in Pb. assert (Hbody : bytes_ok body) by (rewrite Es in Hs; apply bytes_ok_app in Hs; tauto).
    destruct (MsgFacts.frame_inv _ _ _ _ _ Hbody Pb) as (mk & len & t & d & Ed & Lm & Hlen & Bt & _ & Tk & Pd). destruct (update_type _ _ _ _ _ Bt Pd) as (-> & Pu).
    assert (Hd : bytes_ok d) by (rewrite Ed in Hbody; apply bytes_ok_app in Hbody as [_ Hbody]; apply bytes_ok_app in Hbody; tauto).
    destruct (MsgFacts.parse_update_inv _ _ _ _ Hd Pu) as (w & a & n & A & Ea & Lw & La & PA & Ur).
    assert (Ha : bytes_ok a) by (rewrite Ea in Hd; unfold MsgSpec.update_sections in Hd; repeat (apply bytes_ok_app in Hd as [? Hd]); auto).
    destruct (parse_block_inv _ _ _ Ha PA) as (l & e & El & Kl & Kn & _ & EA).
    assert (Ecfg : MsgSpec.update_cfg ap al = record_cfg (Framing.h_sub h)) by (destruct (message_subtype_cfg _ _ _ Ms) as (C1 & C2 & _); unfold record_cfg; rewrite C1, C2; reflexivity).
    destruct (bgp4mp_shape (hb ++ s) (nlen hb) (Framing.h_sub h) al ap (mm_peer_as x) (mm_local_as x) (mm_ifindex x) (mm_peer x) (mm_local x) mk len w l e n q s) as (t & Et & St); auto.
    { exists hb, []. rewrite app_nil_r. auto. }
    { rewrite Es, Ed, Ea, El. reflexivity. }
    { unfold nlen. rewrite Lm. reflexivity. }
    { rewrite <- El, <- Ea. exact Tk. }
    { rewrite <- El. exact La. }
    assert (Ls : 4 <= nlen s).
    { rewrite Es, Ed. unfold MsgSpec.header_wire. rewrite !nlen_app. unfold nlen at 2. rewrite Lm. lia. }
    destruct (mrt_shape h hb s t _ _ _ _ Eh Hh Hty Ls Sm Et St) as (t' & Et' & St').
    exists l, e, w, n, A, ap, t'. cbv zeta. split; [exact Et'|]. split; [exact St'|]. split; [exact Kl|]. split; [exact Kn|]. split; [rewrite EA; cbn [at_warnings]; rewrite Ecfg; reflexivity|exact Ur].
Qed.
Lemma section_general an ap s ws : MsgSpec.section_warnings an ap s ws -> ws = [] \/ exists e, ws = [WMalformedNlri an e s] /\ s <> [].
Proof.
  intros [(_ & ->)|(M & e & ->)]; [auto|]. right. exists e. split; [reflexivity|]. intros ->. destruct (parse_nil ap) as (l & E). exact (M l E).
Qed.
Lemma sect_one s : s <> [] -> sect s = [s].
Proof. destruct s; [congruence|reflexivity]. Qed.
Lemma record_spans r m x u t : bytes_ok (Framing.raw_bytes r) -> FramingFacts.flat_header (Framing.r_hbytes r) = inl (Framing.r_hdr r, Framing.r_hbytes r, []) ->
  small (Framing.raw_bytes r) -> parse_raw r = Ok m -> mr_msg m = MrtBgp4mp (MpMessage x) -> mm_bgp x = MUpdate u -> dissect_mrt_bytes (Framing.raw_bytes r) = Ok t ->
  exists groups tail, map fst groups = attr_nodes t /\ all_findings (record_cfg (Framing.h_sub (Framing.r_hdr r))) (Framing.raw_bytes r) [] groups /\
    span_warnings (findings (mr_msg m)) t = flat_map (fun g => map (fun w => (place t (fst g) w, w)) (snd g)) groups ++ map (fun w => (wide_place t w, w)) tail /\
    Forall (wide (Framing.raw_bytes r) t) tail.
Proof.
  intros Hb Hf Sm P Em Eu Et. destruct (record_shape r m x u Hb Hf Sm P Em Eu) as (l & e & w & n & A & ap & t' & Et' & (S1 & S2 & S3 & S4) & Kl & Ke & EA & Ur).
  assert (t' = t) by congruence. subst t'. cbn [flat_map] in *. rewrite app_nil_r in S1, S2, S3, S4.
  destruct Ur as (_ & _ & _ & _ & ww & wn & Sw & Sn & Ews).
  assert (Ef : findings (mr_msg m) = at_warnings (u_attrs u)).
  { rewrite Em. unfold findings, blocks, refreshes. cbn [message_of]. rewrite Eu. cbn [flat_map]. rewrite !app_nil_r. reflexivity. }
  set (cfg := record_cfg (Framing.h_sub (Framing.r_hdr r))) in *. set (data := Framing.raw_bytes r) in *.
  destruct (missing_ws A (MsgSpec.nonempty n || has_attr A 14) (MsgSpec.nonempty n)) as (ms & Ems & Kms). rewrite Ems, EA, ws_groups in Ews.
  pose proof (groups_alone cfg l e Kl Ke) as G.
  assert (F : Forall2 (fun k g => nd_field k = FAttr (fst g) /\ alone cfg (under data k) (snd g) /\ Forall (about (fst g)) (snd g)) (attr_nodes t) (block_groups cfg l e)).
  { revert S1 G. generalize (attr_nodes t) (block_groups cfg l e) (map AttrSpec.attr_wire l ++ cut_wire e). clear. intros ks gs os S1. revert gs.
    induction S1 as [|o k os ks (U & fl & c & rest & Eo & Ef) _ IH]; intros gs G; inversion G as [|? g ? gs' (G1 & G2 & fl' & rest' & G3) G4]; subst; constructor; auto.
    rewrite G3 in Eo. injection Eo as <- <- <-. auto. }
  destruct (loop_groups cfg data t (ms ++ ww ++ wn) (attr_nodes t) (block_groups cfg l e) [] 0 []) as (groups & cs' & G1 & G2 & G3); auto; try (intros c; [apply N.bits_0 || reflexivity]).
  exists groups, (ms ++ ww ++ wn). split; [exact G1|]. split; [exact G2|].
  apply section_general in Sw. apply section_general in Sn.
  split.
  - rewrite Ef, Ews. unfold span_warnings. rewrite <- app_assoc, G3. f_equal. apply loop_general. repeat (apply Forall_app; split).
    + eapply Forall_impl; [|exact Kms]. intros y (c & ->). exact I.
    + destruct Sw as [-> | (er & -> & _)]; repeat constructor.
    + destruct Sn as [-> | (er & -> & _)]; repeat constructor.
  - repeat (apply Forall_app; split).
    + eapply Forall_impl; [|exact Kms]. intros y (c & ->). exact I.
    + destruct Sw as [-> | (er & -> & Nw)]; [constructor|]. constructor; [|constructor]. cbn [wide]. rewrite S4. apply sect_one. exact Nw.
    + destruct Sn as [-> | (er & -> & Nw)]; [constructor|]. constructor; [|constructor]. cbn [wide]. rewrite S3. apply sect_one. exact Nw.
Qed.

(** ** All spans lie in the record *)
Lemma preorder_all P t : all_nodes P t -> Forall P (preorder t).
Proof.
  revert t. fix IH 1. intros [f v o l ks] H. rewrite preorder_eq. cbn [all_nodes] in H. destruct H as [H K]. constructor; [exact H|]. cbn [nd_kids].
  clear H. induction ks as [|k ks IHk]; [constructor|]. cbn [flat_map]. destruct K as [K1 K2]. apply Forall_app. split; [apply IH; exact K1|apply IHk; exact K2].
Qed.
Lemma span_in b t n : tree_over b t -> In n (preorder t) -> within b (nd_span n).
Proof.
  intros (_ & _ & _ & _ & K) H. apply preorder_all in K. rewrite Forall_forall in K. destruct (K n H) as (B & _). exact B.
Qed.
Lemma root_in t : In t (preorder t).
Proof. rewrite preorder_eq. left. reflexivity. Qed.
Lemma attr_span_in b t c i s : tree_over b t -> attr_span t c i = Some s -> within b s.
Proof.
  intros T H. unfold attr_span in H. destruct (nth_error _ _) as [n|] eqn:E; [|discriminate]. injection H as <-. apply nth_error_In in E. rewrite find_all_eq in E. apply filter_In in E as [E _].
  eapply span_in; eassumption.
Qed.
Lemma section_span_in b t name s : tree_over b t -> section_span t name = Some s -> within b s.
Proof.
  intros T H. unfold section_span in H. rewrite find_eq in H. destruct (named (F name) t) as [|n l] eqn:E; [discriminate|]. injection H as <-.
  eapply span_in; [exact T|]. assert (In n (named (F name) t)) by (rewrite E; left; reflexivity). apply filter_In in H as [H _]. exact H.
Qed.
Lemma locate_in b t w cs : tree_over b t -> within b (fst (locate w t cs)).
Proof.
  intros T. pose proof (span_in b t t T (root_in t)) as R.
  assert (S1 : forall o, (forall s, o = Some s -> within b s) -> within b (match o with Some s => s | None => nd_span t end)) by (intros [s|] H; auto).
  assert (S2 : forall o o', (forall s, o = Some s -> within b s) -> (forall s, o' = Some s -> within b s) -> forall s, or_else o o' = Some s -> within b s) by (intros [x|] o2 H1 H2 z E; cbn in E; auto).
  unfold locate. cbv zeta. destruct w; cbn [fst]; apply S1; try apply S2; intros s0 E; (eapply attr_span_in; eassumption) || (eapply section_span_in; eassumption).
Qed.
Lemma spans_in b t : tree_over b t -> forall ws cs, Forall (fun x => within b (fst x)) (span_loop ws t cs).
Proof.
  intros T. induction ws as [|w ws IH]; intros cs; [constructor|]. cbn [span_loop]. pose proof (locate_in b t w cs T) as H. destruct (locate w t cs) as [s cs']. constructor; [exact H|apply IH].
Qed.
Lemma spans_snd t : forall ws cs, map snd (span_loop ws t cs) = ws.
Proof. induction ws as [|w ws IH]; intros cs; [reflexivity|]. cbn [span_loop]. destruct (locate w t cs) as [s cs']. cbn [map snd]. rewrite IH. reflexivity. Qed.

(** ** Records whose bodies are not dissected *)
Definition plain (n : node) : Prop := match nd_field n with FAttr _ => False | F s => is_in s ("bgp.route_refresh"%string :: sections) = false end.
Lemma plain_attrs l : Forall plain l -> forall c, filter (fun n => field_eqb (nd_field n) (FAttr c)) l = [].
Proof. induction 1 as [|n l H _ IH]; intros c; [reflexivity|]. cbn [filter]. unfold plain in H. destruct (nd_field n); [apply IH|elim H]. Qed.
Lemma plain_named l s : Forall plain l -> is_in s ("bgp.route_refresh"%string :: sections) = true -> filter (fun n => field_eqb (nd_field n) (F s)) l = [].
Proof.
  intros K Is. induction K as [|n l H _ IH]; [reflexivity|]. cbn [filter]. unfold plain in H. destruct (nd_field n) as [s'|]; [|elim H]. cbn [field_eqb].
  destruct (String.eqb s' s) eqn:E; [|exact IH]. apply String.eqb_eq in E. congruence.
Qed.
Lemma plain_loop t : Forall plain (preorder t) -> forall ws cs, span_loop ws t cs = map (fun w => (nd_span t, w)) ws.
Proof.
  intros K. assert (A : forall c i, attr_span t c i = None). { intros c i. unfold attr_span. rewrite find_all_eq. unfold named. rewrite (plain_attrs _ K). destruct (N.to_nat i); reflexivity. }
  assert (S : forall s, is_in s ("bgp.route_refresh"%string :: sections) = true -> section_span t s = None) by (intros s Is; unfold section_span; rewrite find_eq; unfold named; rewrite (plain_named _ _ K Is); reflexivity).
  induction ws as [|w ws IH]; intros cs; [reflexivity|]. cbn [span_loop map].
  destruct w; unfold locate; cbv zeta; rewrite ?A, ?S by (reflexivity || (destruct announced; reflexivity)); cbn [or_else]; rewrite IH; reflexivity.
Qed.
Lemma plain_leaf name v base pos len l : is_in name ("bgp.route_refresh"%string :: sections) = false -> leaf name v base pos len = Ok l -> Forall plain (flat_map preorder l).
Proof. intros H E. unfold leaf, one, node_at in E. destruct (base + u32 pos <? 4294967296); [|discriminate]. injection E as <-. cbn. constructor; [exact H|constructor]. Qed.
Definition plains (r : res (list node)) : Prop := forall l, r = Ok l -> Forall plain (flat_map preorder l).
Lemma plains_nil : plains (Ok []).
Proof. intros l [= <-]. constructor. Qed.
Lemma plains_bind {A} (e : res A) f : (forall x, e = Ok x -> plains (f x)) -> plains (rbind e f).
Proof. intros H l E. destruct e as [x| |]; try discriminate. eapply H; [reflexivity|exact E]. Qed.
Lemma plains_cat a b : plains a -> plains b -> plains (a +++ b).
Proof.
  intros A B l E. unfold cat in E. destruct a as [x| |]; try discriminate. destruct b as [y| |]; try discriminate. injection E as <-.
  rewrite flat_map_app. apply Forall_app. split; [apply A|apply B]; reflexivity.
Qed.
Lemma plains_leaf name v base pos len : is_in name ("bgp.route_refresh"%string :: sections) = false -> plains (leaf name v base pos len).
Proof. intros H l E. eapply plain_leaf; eassumption. Qed.
Lemma plains_node name v base pos len ks : is_in name ("bgp.route_refresh"%string :: sections) = false -> Forall plain (flat_map preorder ks) -> plains (one (node_at (F name) v base pos len ks)).
Proof.
  intros H K l E. unfold one, node_at in E. destruct (base + u32 pos <? 4294967296); [|discriminate]. injection E as <-. cbn [flat_map]. rewrite app_nil_r, preorder_eq. constructor; [exact H|exact K].
Qed.
Lemma undissected_plain data t : or0 (rd16 data 4) <> 16 -> or0 (rd16 data 4) <> 17 -> dissect_mrt_bytes data = Ok t -> Forall plain (preorder t).
Proof.
  intros H1 H2 E. unfold dissect_mrt_bytes in E. cbv zeta in E. apply rbind_inv in E as (ks & Ek & E).
  assert (K : Forall plain (flat_map preorder ks)).
  { revert Ek. generalize ks. match goal with |- forall l, ?r = Ok l -> _ => change (plains r) end.
    destruct (nlen data <? 12); [destruct (nlen data =? 0); [apply plains_nil|apply plains_leaf; reflexivity]|].
    apply plains_bind; intros ts _. apply plains_bind; intros ln _. apply plains_bind. intros hs Eh. apply plains_cat.
    - apply plains_node; [reflexivity|]. revert Eh. generalize hs. match goal with |- forall l, ?r = Ok l -> _ => change (plains r) end.
      repeat (apply plains_cat; [apply plains_leaf; reflexivity|]). destruct (_ || _); [|apply plains_nil]. destruct (16 <=? nlen data); [apply plains_bind; intros us _|]; apply plains_leaf; reflexivity.
    - destruct (_ && _); [apply plains_nil|]. apply plains_bind. intros body _. destruct (nlen body =? 0); [apply plains_nil|].
      replace (or0 (rd16 data 4) =? 16) with false by lia. replace (or0 (rd16 data 4) =? 17) with false by lia. apply plains_leaf; reflexivity. }
  unfold node_at in E. destruct (0 + u32 0 <? 4294967296); [|discriminate]. injection E as <-. rewrite preorder_eq. constructor; [reflexivity|exact K].
Qed.
Lemma type_at r : bytes_ok (Framing.raw_bytes r) -> FramingFacts.flat_header (Framing.r_hbytes r) = inl (Framing.r_hdr r, Framing.r_hbytes r, []) ->
  or0 (rd16 (Framing.raw_bytes r) 4) = Framing.h_type (Framing.r_hdr r).
Proof.
  intros Hb Hf. unfold Framing.raw_bytes in *. apply bytes_ok_app in Hb as [Hh _]. destruct (FramingFacts.flat_header_inv _ _ _ _ Hf Hh) as (Eh & _ & Kt & _).
  apply FramingFacts.etype_known_u16 in Kt. set (h := Framing.r_hdr r) in *. set (hb := Framing.r_hbytes r) in *.
  assert (L2 : forall k x, nlen (be k x) = N.of_nat k) by (intros k x; unfold nlen; rewrite be_length; reflexivity).
  assert (Q : exists z, hb = be 4 (Framing.h_ts h) ++ be 2 (Framing.h_type h) ++ z).
  { unfold Framing.encode_header in Eh. destruct (Framing.h_us h); [destruct (_ <? _); [discriminate|]|]; injection Eh as <-; eexists; reflexivity. }
  destruct Q as (z & ->). rewrite rd16_ok by (rewrite !nlen_app, !L2; lia). cbn [or0]. rewrite <- !app_assoc.
  replace 4 with (nlen (be 4 (Framing.h_ts h))) at 1 by apply L2. rewrite sub_mid by (rewrite L2; reflexivity). apply be_val_be_small. exact Kt.
Qed.

(** ** Iteration *)
Definition well_framed (r : Framing.raw) : Prop :=
  FramingFacts.flat_header (Framing.r_hbytes r) = inl (Framing.r_hdr r, Framing.r_hbytes r, []) /\ small (Framing.raw_bytes r).
Definition tree_event (e : event) (x : dissected) : Prop :=
  match e, x with
  | DRecord m r ws, XRecord m' r' sws t => m' = m /\ r' = r /\ sws = span_warnings ws t /\ tree_over (Framing.raw_bytes r) t
  | DError e h c p, XError e' h' c' p' => e' = e /\ h' = h /\ c' = c /\ p' = p
  | _, _ => False
  end.
Lemma dissecting_step st ev st' r : diag_next st = Ok (Some ev, st') -> event_of r ev -> (match r with inl r => well_framed r | inr _ => True end) ->
  exists x, dissecting_next st = Ok (Some x, st') /\ tree_event ev x.
Proof.
  intros E O W. unfold dissecting_next. rewrite E. cbn [rbind]. inversion O; subst; cbn [dissect_event].
  - destruct W as (_ & Sm). destruct (DiagnosticFacts.tree_ok _ Sm) as (t & T). unfold dissect_mrt_record. rewrite (proj1 T). cbn [rbind]. eexists. split; [reflexivity|]. cbn [tree_event]. auto.
  - cbn [rbind]. eexists. split; [reflexivity|]. cbn [tree_event]. auto.
  - cbn [rbind]. eexists. split; [reflexivity|]. cbn [tree_event]. auto.
Qed.
Lemma dissecting_yields s items : chunks s items -> forall p, pr_text p = None -> pr_stream p = s ->
  exists l x, IterFacts.yields (fun _ => True) diag_next (p, false) l /\ IterFacts.yields (fun _ => True) dissecting_next (p, false) x /\
    Forall2 event_of (through_error items) l /\ Forall2 tree_event l x /\
    Forall (fun it => match it with inl r => well_framed r | inr _ => True end) items /\ (length x <= length items)%nat.
Proof.
  induction 1 as [s h c s' E|s r s' l E H IH|s e h c s' l E D H IH]; intros p T S; pose proof (DiagnosticFacts.diag_step p T) as X; rewrite S, E in X.
  - exists [], []. split; [eapply IterFacts.y_end; [exact I|exact X]|]. split; [eapply IterFacts.y_end; [exact I|unfold dissecting_next; rewrite X; reflexivity]|]. repeat split; constructor.
  - destruct X as (ev & X & Y). destruct (IH (with_stream p s') T eq_refl) as (l' & x & A & B & C & F & W & L).
    assert (Wr : well_framed r). { pose proof (DiagnosticFacts.chunk_read s) as R. rewrite E in R. destruct R as (_ & R1 & R2). split; assumption. }
    destruct (dissecting_step _ _ _ _ X Y Wr) as (d & Xd & Td).
    exists (ev :: l'), (d :: x). split; [eapply IterFacts.y_some; [exact I|exact X|exact A]|]. split; [eapply IterFacts.y_some; [exact I|exact Xd|exact B]|].
    split; [constructor; auto|]. split; [constructor; auto|]. split; [constructor; auto|]. cbn [length]. lia.
  - assert (X' : exists ev, diag_next (p, false) = Ok (Some ev, (with_stream p s', true)) /\ event_of (inr (e, c)) ev) by (destruct e; auto; congruence).
    destruct X' as (ev & X' & Y). destruct (dissecting_step _ _ _ _ X' Y I) as (d & Xd & Td).
    assert (W : Forall (fun it : item Framing.raw => match it with inl r => well_framed r | inr _ => True end) l).
    { clear - H. induction H as [s h c s' E|s r s' l E H IH|s e h c s' l E D H IH]; [constructor|constructor; [|exact IH]|constructor; auto].
      pose proof (DiagnosticFacts.chunk_read s) as R. rewrite E in R. destruct R as (_ & R1 & R2). split; assumption. }
    exists [ev], [d]. split; [eapply IterFacts.y_some; [exact I|exact X'|eapply IterFacts.y_end; [exact I|reflexivity]]|].
    split; [eapply IterFacts.y_some; [exact I|exact Xd|eapply IterFacts.y_end; [exact I|reflexivity]]|].
    split; [constructor; auto; constructor|]. split; [constructor; auto; constructor|]. split; [constructor; auto|]. cbn [length]. lia.
Qed.
Lemma chunks_ok s items : chunks s items -> bytes_ok (sbytes s) -> Forall (fun it => match it with inl r => bytes_ok (Framing.raw_bytes r) | inr _ => True end) items.
Proof.
  induction 1 as [s h c s' E|s r s' l E H IH|s e h c s' l E D H IH]; intros B; pose proof (FramingFacts.chunk_bytes s) as C; rewrite E in C; [constructor| |].
  - destruct C as (C & _). rewrite C in B. apply bytes_ok_app in B as [B1 B2]. constructor; auto.
  - constructor; [exact I|]. apply IH. destruct c; destruct C as (C1 & C2); [|congruence]. rewrite C1 in B. apply bytes_ok_app in B. tauto.
Qed.
