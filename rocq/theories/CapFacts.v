(** Proofs about capabilities. *)
From Coq Require Import ZifyBool ZifyNat ZifyN Lia.
From Verif Require Import Base BaseFacts Reader ReaderFacts Tac Net NetFacts AsPath Mpls MplsFacts Tlv TlvFacts
  Nlri Attr AttrFacts Cap BgpError BgpMsg MsgSpec.
Ltac Zify.zify_post_hook ::= Z.div_mod_to_equations.

Lemma afi_code_small a : afi_code a < 65536. Proof. destruct a; reflexivity. Qed.
Lemma safi_code_small a : safi_code a < 256. Proof. destruct a; reflexivity. Qed.
Lemma mode_code_of n m : mode_of n = Some m <-> n = mode_code m.
Proof. split; [|intros ->; destruct m; reflexivity]. intros H. destruct m; revert H; code_cases n; cbn; congruence. Qed.
Lemma role_code_of n r : role_of n = Some r <-> n = role_code r.
Proof. split; [|intros ->; destruct r; reflexivity]. intros H. destruct r; revert H; code_cases n; cbn; congruence. Qed.
Lemma of_opt_inv {A} (o : option A) a : of_opt o = Ok a -> o = Some a.
Proof. destruct o; cbn; congruence. Qed.
Lemma cons_be1 n r : n < 256 -> n :: r = be 1 n ++ r.
Proof. intros H. rewrite be_1 by auto. reflexivity. Qed.

(** * Entries *)
Lemma entries_iff {A} m (p : P A) (item : bytes -> A -> Prop) : (0 < m)%nat ->
  (forall w a r, item w a -> p (w ++ r) = Ok (a, r)) ->
  (forall s a r, p s = Ok (a, r) -> bytes_ok s -> exists w, s = w ++ r /\ item w a) ->
  (forall w a, item w a -> length w = m) ->
  forall s l, bytes_ok s -> (parse_entries m p s = Ok l <-> entries_octets item s l).
Proof.
  intros Hm H1 H2 H3 s l Hs. unfold parse_entries.
  pose proof (many_min_iff m p (fun x : bytes * A => fst x) snd (fun x => item (fst x) (snd x)) Hm) as M.
  assert (M' : many_min m (length s) p s = Ok l <-> exists x t, s = flat_map fst x ++ t /\ (length t < m)%nat /\
    Forall (fun x : bytes * A => item (fst x) (snd x)) x /\ map snd x = l).
  { apply M; auto.
    - intros s' a r Ha Hb. destruct (H2 _ _ _ Ha Hb) as (w & -> & Hw). exists (w, a). auto.
    - intros [w a] Ha. cbn in *. rewrite (H3 _ _ Ha). lia. }
  clear M. assert (L : forall x : list (bytes * A), Forall (fun x => item (fst x) (snd x)) x ->
    length (flat_map fst x) = (m * length x)%nat).
  { induction 1 as [|[w a] x Ha Hx IH]; cbn [flat_map length]; [lia|]. rewrite app_length, IH.
    cbn in Ha |- *. rewrite (H3 _ _ Ha). lia. }
  destruct (Nat.eqb_spec (length s mod m) 0) as [E|E].
  - rewrite M'. split.
    + intros (x & t & -> & Ht & Hx & <-).
      assert (t = []) as ->.
      { apply length_zero_iff_nil. rewrite app_length, L in E by auto.
        rewrite Nat.add_comm, Nat.mul_comm, Nat.mod_add in E by lia. rewrite Nat.mod_small in E; auto. }
      exists (map fst x). rewrite app_nil_r, flat_map_concat_map. split; auto.
      clear - Hx. induction Hx; cbn; constructor; auto.
    + intros (ws & -> & F). exists (combine ws l), [].
      assert (C : concat ws = flat_map fst (combine ws l) /\ Forall (fun x => item (fst x) (snd x)) (combine ws l) /\ map snd (combine ws l) = l).
      { clear - F. induction F as [|w a ws l Hw F (I1 & I2 & I3)]; cbn; auto. rewrite I1, I3. auto. }
      destruct C as (C1 & C2 & C3). rewrite app_nil_r. auto.
  - split; [discriminate|]. intros (ws & -> & F). exfalso. apply E.
    assert (C : length (concat ws) = (m * length l)%nat).
    { clear - F H3. induction F as [|w a ws l Hw F IH]; cbn; [lia|]. rewrite app_length, IH, (H3 _ _ Hw). lia. }
    rewrite C, Nat.mul_comm. apply Nat.mod_mul. lia.
Qed.
Lemma entries_np {A} m (p : P A) s : (0 < m)%nat -> npp p ->
  (forall s a r, p s = Ok (a, r) -> (length r < length s)%nat) -> np (parse_entries m p s).
Proof.
  intros. unfold parse_entries. destruct (Nat.eqb _ 0); [|apply np_err]. apply many_min_np; auto.
Qed.

Lemma read_enh_item w e r : enh_octets w e -> read_enh (w ++ r) = Ok (e, r).
Proof.
  intros (h & Hh & ->). unfold read_enh. rewrite <- !app_assoc.
  rewrite (bind_ok _ _ _ _ _ (read_afi_be (en_afi e) _)).
  change ([h; safi_code (en_safi e)] ++ be 2 (afi_code (en_next e)) ++ r) with
    ([h; safi_code (en_safi e)] ++ (be 2 (afi_code (en_next e)) ++ r)).
  rewrite (bind_ok _ _ _ _ _ (read_be_bytes 2 [h; safi_code (en_safi e)] _ eq_refl)).
  rewrite be_val_2. pose proof (safi_code_small (en_safi e)).
  assert (E : u8 (h * 256 + safi_code (en_safi e)) = safi_code (en_safi e)) by (unfold u8; lia).
  rewrite E, safi_of_code_code. cbn [of_opt]. rewrite (bind_ok (lift (Ok (en_safi e))) _ _ _ _ eq_refl).
  rewrite (bind_ok _ _ _ _ _ (read_afi_be (en_next e) r)). destruct e; reflexivity.
Qed.
Lemma read_enh_inv s e r : read_enh s = Ok (e, r) -> bytes_ok s -> exists w, s = w ++ r /\ enh_octets w e.
Proof.
  intros H Hs. unfold read_enh in H. apply bind_inv in H as (a & s1 & Ha & H).
  apply read_afi_inv in Ha as (-> & Hb); auto. pstep H. apply bind_inv in H as (sf & s2 & Hsf & H).
  apply lift_inv in Hsf as [Hsf <-]. apply of_opt_inv, safi_code_of in Hsf.
  apply bind_inv in H as (n & s3 & Hn & H). apply read_afi_inv in Hn as (-> & Hc); auto.
  apply ret_inv in H as [<- ->]. lits.
  exists (be 2 (afi_code a) ++ be 2 a0 ++ be 2 (afi_code n)). rewrite <- !app_assoc. split; auto.
  exists (a0 / 256). split; [lia|]. cbn [en_afi en_safi en_next]. f_equal. f_equal.
  rewrite Hsf. unfold u8. change 2%nat with (1 + 1)%nat. rewrite be_split.
  change (256 ^ N.of_nat 1) with 256. rewrite be_1 by lia.
  rewrite <- (be_mod_small 1 a0 256 eq_refl), be_1 by lia. reflexivity.
Qed.
Lemma enh_len w e : enh_octets w e -> length w = 6%nat.
Proof. intros (h & _ & ->). rewrite !app_length, !be_length. reflexivity. Qed.
Lemma read_gr_item w f r : gr_octets w f -> read_gr_family (w ++ r) = Ok (f, r).
Proof.
  intros (x & Hx & ->). unfold read_gr_family. rewrite <- !app_assoc.
  rewrite (bind_ok _ _ _ _ _ (read_afi_be (gr_afi f) _)). cbn [app].
  rewrite cons_be1 by apply safi_code_small. rewrite (bind_ok _ _ _ _ _ (read_safi_be (gr_safi f) _)).
  rstep. destruct f as [a sf b]. cbn [gr_fwd gr_afi gr_safi]. unfold ret. f_equal. f_equal. f_equal.
  rewrite N.testbit_eqb. change (2 ^ 7) with 128. destruct b; [|lia].
  assert ((128 + x) / 128 = 1) as -> by lia. reflexivity.
Qed.
Lemma read_gr_inv s f r : read_gr_family s = Ok (f, r) -> bytes_ok s -> exists w, s = w ++ r /\ gr_octets w f.
Proof.
  intros H Hs. unfold read_gr_family in H. apply bind_inv in H as (a & s1 & Ha & H).
  apply read_afi_inv in Ha as (-> & Hb); auto. apply bind_inv in H as (sf & s2 & Hsf & H).
  apply read_safi_inv in Hsf as (-> & Hc); auto. pstep H. apply ret_inv in H as [<- ->]. lits.
  exists (be 2 (afi_code a) ++ be 1 (safi_code sf) ++ be 1 a0). rewrite <- !app_assoc. split; auto.
  exists (a0 mod 128). split; [lia|]. cbn [gr_afi gr_safi gr_fwd]. f_equal.
  rewrite !be_1 by (auto using safi_code_small). cbn [app]. do 2 f_equal.
  rewrite N.testbit_eqb. change (2 ^ 7) with 128.
  destruct (N.eqb_spec (a0 / 128 mod 2) 1); lia.
Qed.
Lemma gr_len w e : gr_octets w e -> length w = 4%nat.
Proof. intros (h & _ & ->). rewrite !app_length, !be_length. reflexivity. Qed.
Lemma mode_small m : mode_code m < 256. Proof. destruct m; reflexivity. Qed.
Lemma read_ap_item w f r : ap_octets w f -> read_ap_family (w ++ r) = Ok (f, r).
Proof.
  intros ->. unfold read_ap_family. rewrite <- !app_assoc.
  rewrite (bind_ok _ _ _ _ _ (read_afi_be (ap_afi f) _)). cbn [app].
  rewrite cons_be1 by apply safi_code_small. rewrite (bind_ok _ _ _ _ _ (read_safi_be (ap_safi f) _)).
  rstep. rewrite (proj2 (mode_code_of _ _) eq_refl). destruct f; reflexivity.
Qed.
Lemma read_ap_inv s f r : read_ap_family s = Ok (f, r) -> bytes_ok s -> exists w, s = w ++ r /\ ap_octets w f.
Proof.
  intros H Hs. unfold read_ap_family in H. apply bind_inv in H as (a & s1 & Ha & H).
  apply read_afi_inv in Ha as (-> & Hb); auto. apply bind_inv in H as (sf & s2 & Hsf & H).
  apply read_safi_inv in Hsf as (-> & Hc); auto. pstep H. apply bind_inv in H as (m & s4 & Hm & H).
  apply lift_inv in Hm as [Hm <-]. apply of_opt_inv, mode_code_of in Hm. subst a0.
  apply ret_inv in H as [<- ->].
  exists (be 2 (afi_code a) ++ be 1 (safi_code sf) ++ be 1 (mode_code m)). rewrite <- !app_assoc. split; auto.
  unfold ap_octets. cbn [ap_afi ap_safi ap_mode_]. rewrite !be_1 by (auto using safi_code_small, mode_small). reflexivity.
Qed.
Lemma ap_len w e : ap_octets w e -> length w = 4%nat.
Proof. intros ->. rewrite !app_length, !be_length. reflexivity. Qed.

Lemma npp_read_enh : npp read_enh.
Proof.
  apply npp_bind; [apply npp_read_afi|]. intros. apply npp_bind; [apply npp_read_be|]. intros.
  apply npp_bind; [apply npp_lift, np_of_opt|]. intros. apply npp_bind; [apply npp_read_afi|]. intros. apply npp_ret.
Qed.
Lemma npp_read_gr : npp read_gr_family.
Proof.
  apply npp_bind; [apply npp_read_afi|]. intros. apply npp_bind; [apply npp_read_safi|]. intros.
  apply npp_bind; [apply npp_read_be|]. intros. apply npp_ret.
Qed.
Lemma npp_read_ap : npp read_ap_family.
Proof.
  apply npp_bind; [apply npp_read_afi|]. intros. apply npp_bind; [apply npp_read_safi|]. intros.
  apply npp_bind; [apply npp_read_be|]. intros. apply npp_bind; [apply npp_lift, np_of_opt|]. intros. apply npp_ret.
Qed.
(** A parser that first reads [k > 0] octets makes progress. *)
Lemma bind_progress {A B} (p : P A) (f : A -> P B) s b r :
  (forall s a r, p s = Ok (a, r) -> (length r < length s)%nat) -> (forall a, consumes (f a)) ->
  bind p f s = Ok (b, r) -> (length r < length s)%nat.
Proof.
  intros Hp Hf H. apply bind_inv in H as (a & s' & H1 & H2). apply Hp in H1. apply (consumes_len _ _ _ _ (Hf a)) in H2. lia.
Qed.
Lemma read_be_progress k s n r : (0 < k)%nat -> read_be k s = Ok (n, r) -> (length r < length s)%nat.
Proof. intros Hk H. apply read_be_len in H. lia. Qed.
Lemma read_afi_progress s n r : read_afi s = Ok (n, r) -> (length r < length s)%nat.
Proof.
  apply bind_progress; [intros ? ? ?; apply read_be_progress; lia|]. intros; apply consumes_lift.
Qed.
Lemma parse_enh_iff s l : bytes_ok s -> (parse_enh s = Ok l <-> entries_octets enh_octets s l).
Proof. apply entries_iff; auto using read_enh_item, read_enh_inv, Nat.lt_0_succ. apply enh_len. Qed.
Lemma parse_add_path_iff s l : bytes_ok s -> (parse_add_path s = Ok l <-> entries_octets ap_octets s l).
Proof. apply entries_iff; auto using read_ap_item, read_ap_inv, Nat.lt_0_succ. apply ap_len. Qed.
Ltac progress_tac :=
  intros ? ? ?; apply bind_progress; [exact read_afi_progress|]; intros;
  repeat (apply consumes_bind; [first [apply consumes_read_be | apply consumes_read_safi | apply consumes_lift | apply consumes_read_afi]|intros]);
  apply consumes_ret.
Lemma parse_enh_np s : np (parse_enh s).
Proof. apply entries_np; auto using npp_read_enh, Nat.lt_0_succ. progress_tac. Qed.
Lemma parse_add_path_np s : np (parse_add_path s).
Proof. apply entries_np; auto using npp_read_ap, Nat.lt_0_succ. progress_tac. Qed.

Lemma parse_mp_iff s a sf : bytes_ok s -> (parse_mp s = Ok (a, sf) <-> exists r, r < 256 /\ s = be 2 (afi_code a) ++ [r; safi_code sf]).
Proof.
  intros Hs. unfold parse_mp. split.
  - destruct (Nat.eqb_spec (length s) 4) as [E|E]; [|discriminate]. intros H. apply run_inv in H as (r & H).
    pstep H. pstep H. pstep H. apply bind_inv in H as (x & s4 & H1 & H). apply lift_inv in H1 as [H1 <-].
    apply bind_inv in H as (y & s5 & H2 & H). apply lift_inv in H2 as [H2 <-]. apply ret_inv in H as [H <-].
    injection H as -> ->. apply of_opt_inv, afi_code_of in H1. apply of_opt_inv, safi_code_of in H2.
    rewrite !app_length, !be_length in E. destruct s0; [|cbn in E; lia]. lits. exists a1. split; auto.
    subst a0 a2. rewrite app_nil_r, !be_1 by (auto using safi_code_small). reflexivity.
  - intros (r & Hr & ->). rewrite app_length, be_length. cbn [length Nat.add Nat.eqb].
    apply (run_ok _ _ _ []). pose proof (afi_code_small a).
    rstep. rstep. rstep. rewrite afi_of_code_code, safi_of_code_code. reflexivity.
Qed.
Lemma parse_mp_np s : np (parse_mp s).
Proof.
  unfold parse_mp. destruct (Nat.eqb _ 4); [|apply np_err]. apply np_run.
  repeat (apply npp_bind; [first [apply npp_read_be|apply npp_lift, np_of_opt]|intros]). apply npp_ret.
Qed.
Lemma parse_empty_iff s : parse_empty s = Ok tt <-> s = [].
Proof. destruct s; cbn; split; congruence. Qed.
Lemma parse_as4_iff s n : bytes_ok s -> (parse_as4 s = Ok n <-> n < 2 ^ 32 /\ s = be 4 n).
Proof.
  intros Hs. unfold parse_as4. split.
  - destruct (Nat.eqb_spec (length s) 4) as [E|E]; [|discriminate]. intros H. apply run_inv in H as (r & H).
    apply read_be_inv_ok in H as (-> & Hb & Ho); auto. rewrite app_length, be_length in E. destruct r; [|cbn in E; lia].
    rewrite app_nil_r. auto.
  - intros (Hn & ->). rewrite be_length. cbn [Nat.eqb]. apply (run_ok _ _ _ []).
    rewrite <- (app_nil_r (be 4 n)). apply read_be_be. exact Hn.
Qed.
Lemma parse_as4_np s : np (parse_as4 s).
Proof. unfold parse_as4. destruct (Nat.eqb _ 4); [|apply np_err]. apply np_run, npp_read_be. Qed.
Lemma role_small r : role_code r < 256. Proof. destruct r; reflexivity. Qed.
Lemma parse_role_iff s r : bytes_ok s -> (parse_role s = Ok r <-> s = [role_code r]).
Proof.
  intros Hs. unfold parse_role. split.
  - destruct s as [|b [|c s]]; try discriminate. cbn [length Nat.eqb]. intros H. apply run_inv in H as (x & H).
    apply bind_inv in H as (n & s' & H1 & H). rewrite read_u8_cons in H1. injection H1 as -> <-.
    apply lift_inv in H as [H _]. apply of_opt_inv, role_code_of in H. congruence.
  - intros ->. cbn [length Nat.eqb]. apply (run_ok _ _ _ []). rstep. rewrite (proj2 (role_code_of _ _) eq_refl). reflexivity.
Qed.
Lemma parse_role_np s : np (parse_role s).
Proof.
  unfold parse_role. destruct (Nat.eqb _ 1); [|apply np_err]. apply np_run. apply npp_bind; [apply npp_read_be|].
  intros. apply npp_lift, np_of_opt.
Qed.
Lemma land_fff w : N.land w 0x0FFF = w mod 4096.
Proof. change 0x0FFF with (N.ones 12). rewrite N.land_ones. reflexivity. Qed.
Lemma lor_8000 t : t < 32768 -> N.lor 0x8000 t = 32768 + t.
Proof.
  intros H. rewrite N.add_nocarry_lxor, <- N.lxor_lor; auto;
    (apply N.bits_inj; intros i; rewrite N.land_spec, N.bits_0; change 0x8000 with (2 ^ 15); rewrite N.pow2_bits_eqb;
     destruct (N.eqb_spec 15 i) as [<-|]; auto; cbn [andb]; rewrite N.testbit_eqb; change (2 ^ 15) with 32768;
     rewrite N.div_small by auto; reflexivity).
Qed.
Lemma parse_restart_iff s g : bytes_ok s -> (parse_restart s = Ok g <-> cap_octets s (CvRestart g)).
Proof.
  intros Hs. unfold parse_restart. cbn [cap_octets]. split.
  - destruct (Nat.ltb_spec (length s) 2) as [E|E]; [discriminate|]. intros H.
    apply rbind_inv in H as ([w r] & H1 & H). apply rbind_inv in H as (l & H2 & H). injection H as <-.
    apply read_be_inv_ok in H1 as (-> & Hb & Ho); auto. lits. cbn [gr_time gr_state gr_families].
    apply (entries_iff 4 read_gr_family gr_octets) in H2; [|exact (Nat.lt_0_succ 3)|exact read_gr_item|exact read_gr_inv|exact gr_len|auto..].
    rewrite land_fff. split; [lia|]. exists (w / 4096 mod 8), r. split; [lia|]. split; auto. f_equal.
    rewrite N.testbit_eqb. change (2 ^ 15) with 32768. f_equal.
    destruct (N.eqb_spec (w / 32768 mod 2) 1); lia.
  - intros (Ht & x & r & Hx & -> & He). rewrite app_length, be_length. cbn [Nat.add Nat.ltb Nat.leb].
    destruct g as [st tm fs]. cbn [gr_time gr_state gr_families] in *.
    set (w := ((if st then 8 else 0) + x) * 4096 + tm).
    assert (Hw : w < 65536) by (unfold w; destruct st; lia).
    rewrite read_u16_be by auto. cbn [rbind].
    apply bytes_ok_app in Hs as [_ Hs].
    apply (entries_iff 4 read_gr_family gr_octets) in He; [|exact (Nat.lt_0_succ 3)|exact read_gr_item|exact read_gr_inv|exact gr_len|auto..].
    rewrite He. cbn [rbind]. rewrite land_fff. f_equal. f_equal.
    + rewrite N.testbit_eqb. change (2 ^ 15) with 32768. unfold w. destruct st; [|lia].
      assert (((8 + x) * 4096 + tm) / 32768 = 1) as -> by lia. reflexivity.
    + unfold w. lia.
Qed.
Lemma parse_restart_np s : np (parse_restart s).
Proof.
  unfold parse_restart. destruct (Nat.ltb _ 2); [apply np_err|]. apply np_rbind; [apply npp_read_be|].
  intros [w r] _. apply np_rbind; [|intros; apply np_ok]. apply entries_np; auto using npp_read_gr, Nat.lt_0_succ.
  progress_tac.
Qed.

(** * Values *)
Lemma or_raw_np {A} b (r : res A) f : np r -> np (or_raw b r f).
Proof. destruct r; cbn; unfold np; congruence. Qed.
Lemma parse_cap_np c b : np (parse_cap_value c b).
Proof.
  unfold parse_cap_value.
  assert (E : forall b, np (parse_empty b)) by (intros [|? ?]; cbn; unfold np; congruence).
  code_cases c; try apply np_ok; apply or_raw_np;
    auto using parse_mp_np, parse_enh_np, parse_restart_np, parse_as4_np, parse_add_path_np, parse_role_np.
Qed.
Lemma or_raw_iff {A} c b (r : res A) (f : A -> cap_value) v :
  (forall a, cap_code (f a) = Some c) ->
  (forall v, cap_code v = Some c -> exists a, v = f a) ->
  (forall a a', f a = f a' -> a = a') -> np r ->
  (forall a, r = Ok a <-> cap_octets b (f a)) ->
  (or_raw b r f = Ok v <-> cap_reads c b v).
Proof.
  intros H1 H2 H3 Hn H4. unfold cap_reads. destruct r as [a|e|] eqn:E; cbn [or_raw]; [| |elim (Hn eq_refl)].
  - assert (O : cap_octets b (f a)) by (apply H4; auto). split.
    + intros H. injection H as <-. left. auto.
    + intros [[Hc Ho]|[-> Hno]]; [|elim (Hno _ (H1 a) O)].
      destruct (H2 _ Hc) as (a' & ->). apply H4 in Ho. congruence.
  - split.
    + intros H. injection H as <-. right. split; auto. intros v' Hc Ho. destruct (H2 _ Hc) as (a & ->).
      apply H4 in Ho. discriminate.
    + intros [[Hc Ho]|[-> Hno]]; auto. destruct (H2 _ Hc) as (a & ->). apply H4 in Ho. discriminate.
Qed.
Definition cap_codes : list N := [1; 2; 5; 6; 9; 64; 65; 69].
Lemma cap_code_in v c : cap_code v = Some c -> In c cap_codes.
Proof. destruct v; cbn; intros H; try discriminate; injection H as <-; tauto. Qed.
Lemma parse_cap_other c b : ~ In c cap_codes -> parse_cap_value c b = Ok (CvRaw b).
Proof. intros H. unfold parse_cap_value. revert H. code_cases c; try reflexivity; intros H; elim H; cbn; tauto. Qed.
Lemma parse_cap_iff c b v : bytes_ok b -> (parse_cap_value c b = Ok v <-> cap_reads c b v).
Proof.
  intros Hb. destruct (in_dec N.eq_dec c cap_codes) as [Hc|Hc].
  - assert (E : forall b, np (parse_empty b)) by (intros [|? ?]; cbn; unfold np; congruence).
    assert (U : forall a : unit, parse_empty b = Ok a <-> b = []) by (intros []; apply parse_empty_iff).
    unfold cap_codes in Hc. cbn in Hc.
    repeat (destruct Hc as [<-|Hc]); [..|elim Hc]; cbn [parse_cap_value]; apply or_raw_iff;
      auto using parse_mp_np, parse_enh_np, parse_restart_np, parse_as4_np, parse_add_path_np, parse_role_np;
      first
      [ intros a; first [destruct a; reflexivity | reflexivity]
      | intros v'; destruct v'; intros H; try discriminate H;
        first [eexists; reflexivity | eexists (_, _); reflexivity | exists tt; reflexivity]
      | intros [? ?] [? ?]; congruence
      | intros [] []; reflexivity
      | intros ? ?; congruence
      | intros [a sf]; cbn [cap_octets]; apply parse_mp_iff; auto
      | intros a; first [apply parse_enh_iff | apply parse_role_iff | apply parse_restart_iff | apply parse_as4_iff
                        | apply parse_add_path_iff]; auto
      | apply U ].
  - rewrite parse_cap_other by auto. unfold cap_reads. split.
    + intros H. injection H as <-. right. split; auto. intros v' Hv. elim (Hc (cap_code_in _ _ Hv)).
    + intros [[Hv _]|[-> _]]; auto. elim (Hc (cap_code_in _ _ Hv)).
Qed.
Lemma entries_flat {A} (item : bytes -> A -> Prop) (enc : A -> bytes) l :
  (forall a, item (enc a) a) -> entries_octets item (flat_map enc l) l.
Proof.
  intros H. exists (map enc l). rewrite flat_map_concat_map. split; auto. induction l; cbn; constructor; auto.
Qed.
Lemma encode_cap_octets v : cap_fits v -> cap_octets (encode_cap_value v) v.
Proof.
  destruct v as [b|a sf| |l|g|n|l|r|]; cbn [cap_fits encode_cap_value cap_octets]; auto.
  - intros _. exists 0. split; [lia|]. unfold encode_mp. rewrite (be_1 (safi_code sf)) by apply safi_code_small. reflexivity.
  - intros _. apply entries_flat. intros e. exists 0. split; [lia|]. f_equal. f_equal. change 2%nat with (1 + 1)%nat.
    rewrite be_split. change (256 ^ N.of_nat 1) with 256. pose proof (safi_code_small (en_safi e)).
    rewrite N.div_small by auto. rewrite (be_1 (safi_code _)) by auto. reflexivity.
  - intros H. split; auto. exists 0. eexists. split; [lia|]. split.
    + unfold encode_restart. f_equal. f_equal. destruct (gr_state g).
      * rewrite land_fff. rewrite N.mod_small by auto.
        rewrite lor_8000 by lia. lia.
      * rewrite land_fff. rewrite N.mod_small by auto. lia.
    + apply entries_flat. intros f. exists 0. split; [lia|]. f_equal. rewrite be_1 by apply safi_code_small.
      destruct (gr_fwd f); reflexivity.
  - intros _. apply entries_flat. intros f. unfold ap_octets. rewrite !be_1 by (auto using safi_code_small, mode_small). reflexivity.
  - intros _. apply be_1, role_small.
Qed.
Lemma bytes_ok_flat {A} (enc : A -> bytes) l : (forall a, In a l -> bytes_ok (enc a)) -> bytes_ok (flat_map enc l).
Proof.
  induction l; intros H; cbn [flat_map]; [constructor|]. apply bytes_ok_app. split; [apply H; left; auto|].
  apply IHl. intros; apply H; right; auto.
Qed.
Lemma encode_cap_ok v : cap_fits v -> bytes_ok (encode_cap_value v).
Proof.
  destruct v as [b|a sf| |l|g|n|l|r|]; cbn [cap_fits encode_cap_value]; auto; try (intros; exact (Forall_nil _));
    unfold encode_mp, encode_enh, encode_restart, encode_as4, encode_add_path, encode_role; intros.
  - rewrite !bytes_ok_app. repeat split; auto using be_ok. repeat constructor.
  - apply bytes_ok_flat. intros. rewrite !bytes_ok_app. repeat split; auto using be_ok.
  - apply bytes_ok_app. split; [apply be_ok|]. apply bytes_ok_flat. intros f _. rewrite !bytes_ok_app. repeat split; auto using be_ok.
    repeat constructor; destruct (gr_fwd f); reflexivity.
  - apply be_ok.
  - apply bytes_ok_flat. intros. rewrite !bytes_ok_app. repeat split; auto using be_ok.
  - apply be_ok.
Qed.
