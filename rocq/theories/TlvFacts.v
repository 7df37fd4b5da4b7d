(** Proofs about the type-length-value attributes. *)
From Coq Require Import ZifyBool ZifyNat ZifyN Lia.
From Verif Require Import Base BaseFacts Reader ReaderFacts Tac Net AsPath Mpls MplsFacts FlowSpecFacts
  Tlv TlvSpec.
Ltac Zify.zify_post_hook ::= Z.div_mod_to_equations.

(** * Length-prefixed slices *)
Lemma put_len_slice_ok w v : nlen v < 256 ^ N.of_nat w -> put_len_slice w v = Ok (be w (nlen v) ++ v).
Proof.
  intros H. unfold put_len_slice, check_max.
  destruct (N.ltb_spec (256 ^ N.of_nat w - 1) (nlen v)) as [E|E]; [|reflexivity].
  exfalso. revert H E. generalize (256 ^ N.of_nat w). intros. lia.
Qed.
Lemma put_len_slice_big w v : 256 ^ N.of_nat w <= nlen v -> put_len_slice w v = Err EEncTooLarge.
Proof.
  intros H. unfold put_len_slice, check_max.
  destruct (N.ltb_spec (256 ^ N.of_nat w - 1) (nlen v)) as [E|E]; [reflexivity|].
  exfalso. pose proof (pow256_pos w). revert H E H0. generalize (256 ^ N.of_nat w). intros. lia.
Qed.
Lemma put_len_slice_inv w v b : put_len_slice w v = Ok b -> nlen v < 256 ^ N.of_nat w /\ b = be w (nlen v) ++ v.
Proof.
  intros H. destruct (N.lt_ge_cases (nlen v) (256 ^ N.of_nat w)) as [L|L].
  - rewrite put_len_slice_ok in H by auto. split; congruence.
  - rewrite put_len_slice_big in H by auto. discriminate.
Qed.
Lemma np_put_len w v : np (put_len_slice w v).
Proof.
  destruct (N.lt_ge_cases (nlen v) (256 ^ N.of_nat w)) as [L|L].
  - rewrite put_len_slice_ok by auto. discriminate.
  - rewrite put_len_slice_big by auto. discriminate.
Qed.
Lemma put_len_err w v e : put_len_slice w v = Err e -> e = EEncTooLarge.
Proof.
  destruct (N.lt_ge_cases (nlen v) (256 ^ N.of_nat w)) as [L|L].
  - rewrite put_len_slice_ok by auto. discriminate.
  - rewrite put_len_slice_big by auto. congruence.
Qed.

(** * Loops *)
Lemma many_p_iff {A} (p : P A) (enc : A -> bytes) (Q : A -> Prop) :
  (forall a r, Q a -> p (enc a ++ r) = Ok (a, r)) ->
  (forall s a r, p s = Ok (a, r) -> bytes_ok s -> s = enc a ++ r /\ Q a) ->
  (forall a, Q a -> (0 < length (enc a))%nat) ->
  forall s l, bytes_ok s -> (many_p (length s) p s = Ok l <-> Forall Q l /\ s = flat_map enc l).
Proof.
  intros H1 H2 H3 s l Hs. split.
  - intros H. destruct (many_p_inv p enc Q H2 _ _ _ H Hs). auto.
  - intros [HQ ->]. apply (many_p_app p enc Q); auto.
Qed.
Lemma many_min_iff {A B} m (p : P B) (enc : A -> bytes) (f : A -> B) (Q : A -> Prop) : (0 < m)%nat ->
  (forall a r, Q a -> p (enc a ++ r) = Ok (f a, r)) ->
  (forall s b r, p s = Ok (b, r) -> bytes_ok s -> exists a, s = enc a ++ r /\ Q a /\ f a = b) ->
  (forall a, Q a -> (m <= length (enc a))%nat) ->
  forall s l, bytes_ok s ->
  (many_min m (length s) p s = Ok l <->
   exists x t, s = flat_map enc x ++ t /\ (length t < m)%nat /\ Forall Q x /\ map f x = l).
Proof.
  intros Hm H1 H2 H3 s l Hs. split.
  - remember (length s) as fuel eqn:E. assert (Hf : (length s <= fuel)%nat) by lia. clear E.
    revert s l Hs Hf. induction fuel; intros s l Hs Hf H; cbn [many_min] in H;
      destruct (Nat.ltb_spec (length s) m) as [L|L].
    + injection H as <-. exists [], s. auto.
    + lia.
    + injection H as <-. exists [], s. auto.
    + apply rbind_inv in H as ([b s'] & H & H'). apply rbind_inv in H' as (l' & H' & H'').
      injection H'' as <-. destruct (H2 _ _ _ H Hs) as (a & -> & Ha & <-).
      apply bytes_ok_app in Hs as [_ Hs]. rewrite app_length in Hf. pose proof (H3 _ Ha).
      destruct (IHfuel s' l' Hs ltac:(lia) H') as (x & t & -> & Ht & Hx & <-).
      exists (a :: x), t. cbn [flat_map map]. rewrite app_assoc. auto.
  - intros (x & t & -> & Ht & Hx & <-). clear Hs.
    assert (G : forall fuel, (length (flat_map enc x ++ t) <= fuel)%nat ->
      many_min m fuel p (flat_map enc x ++ t) = Ok (map f x)); [|apply G; auto].
    induction Hx as [|a x Ha Hx IH]; intros fuel Hf.
    + destruct fuel; cbn [many_min flat_map app map]; destruct (Nat.ltb_spec (length t) m); auto; lia.
    + cbn [flat_map] in *. rewrite <- app_assoc in *. rewrite app_length in Hf. pose proof (H3 _ Ha).
      destruct fuel; [lia|]. cbn [many_min].
      destruct (Nat.ltb_spec (length (enc a ++ flat_map enc x ++ t)) m) as [L|L];
        [rewrite app_length in L; lia|].
      rewrite H1 by auto. cbn [rbind]. rewrite IH by lia. reflexivity.
Qed.
Lemma many_min_np {A} m (p : P A) fuel s : (0 < m)%nat ->
  npp p -> (forall s a r, p s = Ok (a, r) -> (length r < length s)%nat) ->
  (length s <= fuel)%nat -> np (many_min m fuel p s).
Proof.
  intros Hm Hp Hc. revert s. induction fuel; intros s Hf; cbn [many_min];
    destruct (Nat.ltb_spec (length s) m); try (unfold np; congruence); [lia|].
  apply np_rbind; [apply Hp|]. intros [a s'] E. apply Hc in E.
  apply np_rbind; [apply IHfuel; lia|]. intros; apply np_ok.
Qed.

(** Encoding lists with a fallible item encoder. *)
Lemma rmap_enc_iff {A} (enc : A -> res bytes) (wire : A -> bytes) (fit : A -> Prop) :
  (forall a b, enc a = Ok b <-> fit a /\ b = wire a) ->
  forall l b, (bs <~ rmap enc l ;; Ok (concat bs)) = Ok b <-> Forall fit l /\ b = flat_map wire l.
Proof.
  intros H. induction l as [|a l IH]; intros b.
  - cbn. split; [intros E; injection E as <-; auto|]. intros [_ ->]; auto.
  - cbn [rmap flat_map]. split.
    + intros E. apply rbind_inv in E as (bs & E & Eb). apply rbind_inv in E as (x & Ea & E).
      apply rbind_inv in E as (xs & El & E). injection E as <-. injection Eb as <-.
      apply H in Ea as [Fa ->].
      destruct (proj1 (IH (concat xs))) as [Fl Ec]; [rewrite El; reflexivity|].
      cbn [concat]. rewrite Ec. auto.
    + intros [F ->]. inv F. destruct (proj2 (H a (wire a))); auto.
      rewrite (proj2 (H a (wire a))) by auto. cbn [rbind].
      pose proof (proj2 (IH (flat_map wire l)) (conj H3 eq_refl)) as E.
      apply rbind_inv in E as (xs & -> & E). injection E as E. cbn [rbind concat]. rewrite E. reflexivity.
Qed.
Lemma rmap_enc_err {A} (enc : A -> res bytes) e0 :
  (forall a, np (enc a)) -> (forall a e, enc a = Err e -> e = e0) ->
  forall l, (exists b, (bs <~ rmap enc l ;; Ok (concat bs)) = Ok b) \/
            (bs <~ rmap enc l ;; Ok (concat bs)) = Err e0.
Proof.
  intros Hn He. induction l as [|a l IH]; [left; eexists; reflexivity|].
  cbn [rmap]. specialize (Hn a). specialize (He a). destruct (enc a) as [x|e|]; [|right|congruence].
  - destruct IH as [[b IH]|IH]; destruct (rmap enc l) as [xs|e|]; try discriminate; cbn [rbind] in *.
    + left; eexists; reflexivity.
    + right; congruence.
  - rewrite (He e eq_refl). reflexivity.
Qed.

(** * One TLV *)
Lemma tlv_wire_length tw lw t : length (tlv_wire tw lw t) = (tw + lw + length (t_value t))%nat.
Proof. unfold tlv_wire. rewrite !app_length, !be_length. lia. Qed.
Lemma read_tlv_ok tw lw t r : tlv_ok tw lw t -> read_tlv tw lw (tlv_wire tw lw t ++ r) = Ok (t, r).
Proof.
  intros (Ht & Hn & Hv). destruct t as [t v]. cbn [t_type t_value] in *. unfold read_tlv.
  rewrite need_bind by (rewrite app_length, tlv_wire_length; lia).
  unfold tlv_wire. cbn [t_type t_value]. rewrite <- !app_assoc.
  rewrite (bind_ok _ _ _ _ _ (read_be_be tw t _ Ht)).
  rewrite (bind_ok _ _ _ _ _ (read_be_be lw (nlen v) _ Hn)).
  rewrite to_nat_nlen. rewrite need_bind by (rewrite app_length; lia).
  rewrite (bind_ok _ _ _ v r (split_to_app _ v r eq_refl)). reflexivity.
Qed.
Lemma read_tlv_inv tw lw s t r : read_tlv tw lw s = Ok (t, r) -> bytes_ok s ->
  s = tlv_wire tw lw t ++ r /\ tlv_ok tw lw t.
Proof.
  intros H Hs. unfold read_tlv in H. apply bind_inv in H as (u & s0 & Hn & H).
  apply need_inv in Hn as (-> & Hn).
  pstep H. pstep H. apply bind_inv in H as (u' & s2 & Hn2 & H). apply need_inv in Hn2 as (-> & Hn2).
  apply bind_inv in H as (v & s3 & Hv & H). apply split_to_inv in Hv as (-> & Hv).
  apply ret_inv in H as [<- <-]. apply bytes_ok_app in Ho0 as [Hov Hor].
  assert (Ev : nlen v = a0) by (unfold nlen; lia).
  unfold tlv_wire, tlv_ok. cbn [t_type t_value]. rewrite Ev, <- !app_assoc. auto.
Qed.
Lemma npp_read_tlv tw lw : npp (read_tlv tw lw).
Proof.
  intros s. apply np_need_bind. intros _. apply npp_bind; [apply npp_read_be|]. intros t.
  apply npp_bind; [apply npp_read_be|]. intros n s'. apply np_need_bind. intros Hn.
  apply np_split_bind; auto. intros; discriminate.
Qed.
Lemma consumes_read_tlv tw lw : (0 < tw)%nat -> forall s t r, read_tlv tw lw s = Ok (t, r) -> (length r < length s)%nat.
Proof.
  intros Hw s t r H. unfold read_tlv in H. apply bind_inv in H as (u & s0 & Hn & H).
  apply need_inv in Hn as (-> & Hn). apply bind_inv in H as (t' & s1 & H1 & H). apply read_be_len in H1.
  apply (consumes_len (n <- read_be lw ;; need (N.to_nat n) ETrunc ;;; v <- split_to (N.to_nat n) ;; ret (Tlv t' v))) in H; [lia|].
  apply consumes_bind; [apply consumes_read_be|]. intros n. apply consumes_bind; [apply consumes_need|].
  intros _. apply consumes_bind; [apply consumes_split_to|]. intros. apply consumes_ret.
Qed.
Lemma tlvs_iff tw lw s l : (0 < tw)%nat -> bytes_ok s ->
  (many_p (length s) (read_tlv tw lw) s = Ok l <-> Forall (tlv_ok tw lw) l /\ s = flat_map (tlv_wire tw lw) l).
Proof.
  intros Hw. apply (many_p_iff (read_tlv tw lw) (tlv_wire tw lw) (tlv_ok tw lw)).
  - intros; apply read_tlv_ok; auto.
  - intros; apply read_tlv_inv; auto.
  - intros a _. rewrite tlv_wire_length. lia.
Qed.
Lemma tlvs_np tw lw s : (0 < tw)%nat -> np (many_p (length s) (read_tlv tw lw) s).
Proof. intros. apply many_p_np; auto using npp_read_tlv. apply consumes_read_tlv; auto. Qed.

Lemma encode_tlv_iff tw lw t b : encode_tlv tw lw t = Ok b <-> nlen (t_value t) < 256 ^ N.of_nat lw /\ b = tlv_wire tw lw t.
Proof.
  unfold encode_tlv, tlv_wire. split.
  - intros H. apply rbind_inv in H as (x & H1 & H). apply put_len_slice_inv in H1 as (L & ->).
    injection H as <-. auto.
  - intros (L & ->). rewrite put_len_slice_ok by auto. reflexivity.
Qed.
Lemma encode_tlvs_iff tw lw l b : encode_tlvs tw lw l = Ok b <->
  Forall (fun t => nlen (t_value t) < 256 ^ N.of_nat lw) l /\ b = flat_map (tlv_wire tw lw) l.
Proof. apply rmap_enc_iff. intros; apply encode_tlv_iff. Qed.
Lemma encode_tlvs_cases tw lw l : (exists b, encode_tlvs tw lw l = Ok b) \/ encode_tlvs tw lw l = Err EEncTooLarge.
Proof.
  apply rmap_enc_err.
  - intros a. unfold encode_tlv. apply np_rbind; [apply np_put_len|]. intros; discriminate.
  - intros a e H. unfold encode_tlv in H. destruct (put_len_slice lw (t_value a)) eqn:E; try discriminate.
    apply put_len_err in E. cbn [rbind] in H. congruence.
Qed.

(** * BFD *)
Lemma bfd_iff s b : bytes_ok s -> (parse_bfd s = Ok b <-> bfd_ok b /\ s = bfd_wire b).
Proof.
  intros Hs. unfold parse_bfd. split.
  - intros H. apply rbind_inv in H as ([[m d] r] & H1 & H). apply rbind_inv in H as (l & H2 & H).
    injection H as <-. apply run_inv in H1 as (r' & H1).
    apply bind_inv in H1 as (u & s0 & Hn & H1). apply need_inv in Hn as (-> & Hn).
    pstep H1. pstep H1. apply bind_inv in H1 as (q & s2 & Hp & H1). unfold peek in Hp. injection Hp as <- <-.
    apply ret_inv in H1 as [E <-]. injection E as -> -> ->. lits.
    apply (proj1 (tlvs_iff 1 1 _ _ Nat.lt_0_1 Ho0)) in H2 as [F ->].
    unfold bfd_ok, bfd_wire. cbn [bfd_mode bfd_disc bfd_tlvs]. rewrite <- ?app_assoc. auto.
  - intros ((H1 & H2 & H3) & E). destruct b as [m d l]. cbn [bfd_mode bfd_disc bfd_tlvs] in *.
    unfold bfd_wire in E. cbn [bfd_mode bfd_disc bfd_tlvs] in E. subst s.
    assert (R : run (need 5 ETrunc ;;; m <- read_u8 ;; d <- read_u32 ;; r <- peek ;; ret (m, d, r))
      (be 1 m ++ be 4 d ++ flat_map (tlv_wire 1 1) l) = Ok (m, d, flat_map (tlv_wire 1 1) l)).
    { eapply run_ok. rewrite need_bind by (rewrite !app_length, !be_length; lia).
      rstep. rstep. reflexivity. }
    rewrite R. cbn [rbind].
    apply bytes_ok_app in Hs as [_ Hs]. apply bytes_ok_app in Hs as [_ Hs].
    rewrite (proj2 (tlvs_iff 1 1 _ l Nat.lt_0_1 Hs)); [reflexivity|auto].
Qed.
Lemma bfd_np s : np (parse_bfd s).
Proof.
  unfold parse_bfd. apply np_rbind.
  - apply np_run. apply np_need_bind. intros _. apply npp_bind; [apply npp_read_be|]. intros.
    apply npp_bind; [apply npp_read_be|]. intros. apply npp_bind; [apply npp_peek|]. intros. apply npp_ret.
  - intros [[m d] r] _. apply np_rbind; [apply tlvs_np; lia|]. intros; discriminate.
Qed.
Lemma encode_bfd_iff x b : encode_bfd x = Ok b <->
  Forall (fun t => nlen (t_value t) < 256) (bfd_tlvs x) /\ b = bfd_wire x.
Proof.
  unfold encode_bfd. split.
  - intros H. apply rbind_inv in H as (l & H1 & H). apply encode_tlvs_iff in H1 as [F ->].
    injection H as <-. auto.
  - intros [F ->]. rewrite (proj2 (encode_tlvs_iff 1 1 _ _) (conj F eq_refl)). reflexivity.
Qed.

(** * AIGP *)
Lemma aigp_wire_length t : length (aigp_wire t) = (3 + length (ai_value t))%nat.
Proof. unfold aigp_wire. rewrite !app_length, !be_length. lia. Qed.
Lemma read_aigp_ok t r : aigp_ok t -> read_aigp_tlv (aigp_wire t ++ r) = Ok (t, r).
Proof.
  intros (Ht & Hn & Hl & Hv). destruct t as [t n v]. cbn [ai_type ai_len ai_value] in *. unfold read_aigp_tlv.
  rewrite need_bind by (rewrite app_length, aigp_wire_length; lia).
  unfold aigp_wire. cbn [ai_type ai_len ai_value]. rewrite <- Hn. rstep. rstep.
  destruct (N.ltb_spec n 3); [lia|].
  assert (E : N.to_nat (n - 3) = length v) by (unfold nlen in Hn; lia). rewrite E.
  rewrite need_bind by (rewrite app_length; lia).
  rewrite (bind_ok _ _ _ v r (split_to_app _ v r eq_refl)). reflexivity.
Qed.
Lemma read_aigp_inv s t r : read_aigp_tlv s = Ok (t, r) -> bytes_ok s -> s = aigp_wire t ++ r /\ aigp_ok t.
Proof.
  intros H Hs. unfold read_aigp_tlv in H. apply bind_inv in H as (u & s0 & Hn & H).
  apply need_inv in Hn as (-> & Hn). pstep H. pstep H.
  destruct (N.ltb_spec a0 3); [discriminate|].
  apply bind_inv in H as (u' & s2 & Hn2 & H). apply need_inv in Hn2 as (-> & Hn2).
  apply bind_inv in H as (v & s3 & Hv & H). apply split_to_inv in Hv as (-> & Hv).
  apply ret_inv in H as [<- <-]. apply bytes_ok_app in Ho0 as [Hov Hor]. lits.
  assert (Ev : a0 = nlen v + 3) by (unfold nlen; lia).
  unfold aigp_wire, aigp_ok. cbn [ai_type ai_len ai_value]. rewrite <- Ev, <- !app_assoc. auto.
Qed.
Lemma npp_read_aigp : npp read_aigp_tlv.
Proof.
  intros s. apply np_need_bind. intros _. apply npp_bind; [apply npp_read_be|]. intros t.
  apply npp_bind; [apply npp_read_be|]. intros n. destruct (n <? 3); [apply npp_fail|].
  intros s'. apply np_need_bind. intros Hn. apply np_split_bind; auto. intros; discriminate.
Qed.
Lemma consumes_aigp s t r : read_aigp_tlv s = Ok (t, r) -> (length r < length s)%nat.
Proof.
  intros H. unfold read_aigp_tlv in H. apply bind_inv in H as (u & s0 & Hn & H).
  apply need_inv in Hn as (-> & Hn). apply bind_inv in H as (t' & s1 & H1 & H). apply read_be_len in H1.
  apply bind_inv in H as (n & s2 & H2 & H). apply read_be_len in H2. destruct (n <? 3); [discriminate|].
  apply bind_inv in H as (u' & s3 & Hn2 & H). apply need_inv in Hn2 as (-> & Hn2).
  apply bind_inv in H as (v & s3 & Hv & H). apply split_to_inv in Hv as (-> & Hv).
  apply ret_inv in H as [_ <-]. rewrite app_length in *. lia.
Qed.
Lemma aigp_iff s l : bytes_ok s -> (parse_aigp s = Ok l <-> Forall aigp_ok l /\ s = flat_map aigp_wire l).
Proof.
  apply (many_p_iff read_aigp_tlv aigp_wire aigp_ok).
  - intros; apply read_aigp_ok; auto.
  - intros; apply read_aigp_inv; auto.
  - intros a _. rewrite aigp_wire_length. lia.
Qed.
Lemma aigp_np s : np (parse_aigp s).
Proof. apply many_p_np; auto using npp_read_aigp. apply consumes_aigp. Qed.
Lemma encode_aigp_wire l : encode_aigp l = flat_map aigp_wire l.
Proof.
  induction l as [|t l IH]; [reflexivity|]. cbn [encode_aigp flat_map]. unfold encode_aigp in IH. rewrite IH. f_equal.
  unfold encode_aigp_tlv, aigp_wire. destruct (N.eqb_spec (ai_len t) (nlen (ai_value t) + 3)) as [->|_]; [reflexivity|].
  cbv zeta. unfold u16. rewrite (be_mod_small 2) by reflexivity. reflexivity.
Qed.

(** * Traffic engineering *)
Lemma te_iff s t : bytes_ok s -> (parse_traffic_eng s = Ok t <-> te_ok t /\ s = te_wire t).
Proof.
  intros Hs. unfold parse_traffic_eng. split.
  - intros H. apply run_inv in H as (r & H). apply bind_inv in H as (u & s0 & Hn & H).
    apply need_inv in Hn as (-> & Hn). pstep H. pstep H. pstep H.
    apply bind_inv in H as (bw & s3 & Hb3 & H).
    apply (repeat_p_inv read_u32 (be 4) (fun b => b < 2 ^ 32)) in Hb3 as (-> & F & L); auto.
    2:{ intros s' a2 r' Hr Ho'. apply read_be_inv_ok in Hr as (-> & Hb' & _); auto. }
    apply bind_inv in H as (q & s4 & Hp & H). unfold peek in Hp. injection Hp as <- <-.
    apply ret_inv in H as [<- <-]. lits. apply bytes_ok_app in Ho1 as [_ Ho1].
    unfold te_ok, te_wire. cbn [te_cap te_enc te_reserved te_bw te_specific]. repeat split; auto.
  - intros ((H1 & H2 & H3 & H4 & H5 & H6) & ->). destruct t as [c e v bw sp].
    cbn [te_cap te_enc te_reserved te_bw te_specific] in *. unfold te_wire.
    cbn [te_cap te_enc te_reserved te_bw te_specific]. eapply run_ok.
    rewrite need_bind.
    2:{ rewrite !app_length, !be_length. rewrite length_flat_map.
        do 9 (destruct bw as [|? bw]; try discriminate H4). cbn [map list_sum fold_right]. rewrite !be_length. lia. }
    rstep. rstep. rstep.
    rewrite <- H4. rewrite (bind_ok _ _ _ bw sp).
    2:{ apply (repeat_p_app read_u32 (be 4) (fun b => b < 2 ^ 32)); auto. intros. apply read_be_be. auto. }
    reflexivity.
Qed.
Lemma te_np s : np (parse_traffic_eng s).
Proof.
  apply np_run. apply np_need_bind. intros _. repeat (apply npp_bind; [apply npp_read_be|]; intros).
  apply npp_bind; [apply npp_repeat, npp_read_be|]. intros. apply npp_bind; [apply npp_peek|]. intros. apply npp_ret.
Qed.

(** * Tunnel encapsulation *)
Lemma sub_width_pow t : 256 ^ N.of_nat (sub_width t) = (if t <? 128 then 256 else 65536).
Proof. unfold sub_width. destruct (t <? 128); reflexivity. Qed.
Lemma read_sub_ok t r : sub_ok t -> read_sub_tlv (sub_wire t ++ r) = Ok (report_sub t, r).
Proof.
  intros (Ht & Hn & Hv). destruct t as [t v]. cbn [t_type t_value] in *. unfold read_sub_tlv.
  change (256 ^ N.of_nat 1) with 256 in Ht. rewrite sub_width_pow in Hn.
  rewrite need_bind.
  2:{ rewrite app_length. unfold sub_wire. rewrite tlv_wire_length. cbn [t_type]. unfold sub_width.
      destruct (t <? 128); lia. }
  unfold sub_wire, tlv_wire. cbn [t_type t_value]. rstep.
  unfold sub_width. destruct (N.ltb_spec t 128) as [L|L].
  - assert (R : (need 1 ETrunc ;;; read_u8) (be 1 (nlen v) ++ v ++ r) = Ok (nlen v, v ++ r)).
    { rewrite need_bind by (rewrite app_length, be_length; lia). apply read_be_be. exact Hn. }
    rewrite (bind_ok _ _ _ _ _ R). rewrite to_nat_nlen, need_bind by (rewrite app_length; lia). rstep. reflexivity.
  - assert (R : (need 2 ETrunc ;;; read_u16) (be 2 (nlen v) ++ v ++ r) = Ok (nlen v, v ++ r)).
    { rewrite need_bind by (rewrite app_length, be_length; lia). apply read_be_be. exact Hn. }
    rewrite (bind_ok _ _ _ _ _ R). rewrite to_nat_nlen, need_bind by (rewrite app_length; lia). rstep. reflexivity.
Qed.
Lemma read_sub_inv s b r : read_sub_tlv s = Ok (b, r) -> bytes_ok s ->
  exists a, s = sub_wire a ++ r /\ sub_ok a /\ report_sub a = b.
Proof.
  intros H Hs. unfold read_sub_tlv in H. apply bind_inv in H as (u & s0 & Hn & H).
  apply need_inv in Hn as (-> & Hn). pstep H.
  apply bind_inv in H as (n & s2 & Hr & H). apply bind_inv in H as (u' & s3 & Hn2 & H).
  apply need_inv in Hn2 as (-> & Hn2). apply bind_inv in H as (v & s3 & Hv & H).
  apply read_n_bytes_inv in Hv as (-> & Hv). apply ret_inv in H as [<- <-].
  exists (Tlv a v). unfold sub_wire, sub_ok, tlv_wire, tlv_ok, report_sub. cbn [t_type t_value].
  assert (E : s0 = be (sub_width a) n ++ v ++ s3 /\ n < 256 ^ N.of_nat (sub_width a)).
  { unfold sub_width. destruct (a <? 128); apply bind_inv in Hr as (u2 & s4 & Hn3 & Hr);
      apply need_inv in Hn3 as (-> & Hn3); apply read_be_inv_ok in Hr as (-> & Hb2 & _); auto. }
  destruct E as [-> E]. apply bytes_ok_app in Ho as [_ Ho]. apply bytes_ok_app in Ho as [Hov _].
  rewrite Hv, <- !app_assoc. repeat split; auto.
Qed.
Lemma npp_read_sub : npp read_sub_tlv.
Proof.
  intros s. apply np_need_bind. intros _. apply npp_bind; [apply npp_read_be|]. intros t.
  apply npp_bind.
  { destruct (t <? 128); (apply npp_bind; [apply npp_need|intros; apply npp_read_be]). }
  intros n. apply npp_bind; [apply npp_need|]. intros _. apply npp_bind; [apply npp_read_n_bytes|]. intros. apply npp_ret.
Qed.
Lemma consumes_sub s t r : read_sub_tlv s = Ok (t, r) -> (length r < length s)%nat.
Proof.
  intros H. unfold read_sub_tlv in H. apply bind_inv in H as (u & s0 & Hn & H).
  apply need_inv in Hn as (-> & Hn). apply bind_inv in H as (t' & s1 & H1 & H). apply read_be_len in H1.
  apply bind_inv in H as (n & s2 & H2 & H).
  assert ((length s2 <= length s1)%nat).
  { eapply consumes_len; [|exact H2]. destruct (t' <? 128); (apply consumes_bind; [apply consumes_need|intros; apply consumes_read_be]). }
  apply bind_inv in H as (u' & s3 & Hn2 & H). apply need_inv in Hn2 as (-> & Hn2).
  apply bind_inv in H as (v & s3 & Hv & H). apply read_n_bytes_inv in Hv as (-> & Hv).
  apply ret_inv in H as [_ <-]. rewrite app_length in *. lia.
Qed.
Lemma sub_wire_pos t : (0 < length (sub_wire t))%nat.
Proof. unfold sub_wire. rewrite tlv_wire_length. lia. Qed.
Lemma subs_inv fuel : forall s l, many_p fuel read_sub_tlv s = Ok l -> bytes_ok s ->
  exists x, s = flat_map sub_wire x /\ Forall sub_ok x /\ map report_sub x = l.
Proof.
  induction fuel; intros s l H Hs; destruct s as [|b s]; cbn [many_p] in H; try discriminate.
  - injection H as <-. exists []; auto.
  - injection H as <-. exists []; auto.
  - apply rbind_inv in H as ([y s'] & H & H'). apply rbind_inv in H' as (l' & H' & H'').
    injection H'' as <-. destruct (read_sub_inv _ _ _ H Hs) as (a & E & Ha & <-). rewrite E in Hs |- *.
    apply bytes_ok_app in Hs as [_ Hs]. destruct (IHfuel _ _ H' Hs) as (x & -> & Hx & <-).
    exists (a :: x). auto.
Qed.
Lemma read_tunnel_ok t r : tunnel_ok t -> read_tunnel (tunnel_wire t ++ r) = Ok (report t, r).
Proof.
  intros (Ht & Hs & Hn). destruct t as [t l]. cbn [tn_type tn_subs] in *. unfold read_tunnel.
  unfold tunnel_wire, tlv_wire. cbn [t_type t_value tn_type tn_subs]. rstep. rstep.
  rewrite to_nat_nlen, need_bind by (rewrite app_length; lia). rstep. unfold parse_tunnel_tlv.
  rewrite (many_p_app_map read_sub_tlv sub_wire report_sub sub_ok); auto using read_sub_ok, sub_wire_pos.
Qed.
Lemma read_tunnel_inv s b r : read_tunnel s = Ok (b, r) -> bytes_ok s ->
  exists a, s = tunnel_wire a ++ r /\ tunnel_ok a /\ report a = b.
Proof.
  intros H Hs. unfold read_tunnel in H. pstep H. pstep H.
  apply bind_inv in H as (u & s2 & Hn & H). apply need_inv in Hn as (-> & Hn). pstep H.
  apply lift_inv in H as [H <-]. unfold parse_tunnel_tlv in H. apply rbind_inv in H as (l & Hl & H).
  injection H as <-. apply subs_inv in Hl as (x & -> & Hx & <-); auto. lits.
  exists (Tunnel a x). unfold tunnel_wire, tlv_wire, tunnel_ok, report. cbn [t_type t_value tn_type tn_subs].
  rewrite Hb1, <- !app_assoc. auto.
Qed.
Lemma npp_read_tunnel : npp read_tunnel.
Proof.
  repeat (apply npp_bind; [apply npp_read_be|]; intros). apply npp_bind; [apply npp_need|]. intros _.
  apply npp_bind; [apply npp_read_n_bytes|]. intros d. apply npp_lift. unfold parse_tunnel_tlv.
  apply np_rbind; [|intros; discriminate]. apply many_p_np; auto using npp_read_sub. apply consumes_sub.
Qed.
Lemma consumes_tunnel s t r : read_tunnel s = Ok (t, r) -> (length r < length s)%nat.
Proof.
  intros H. unfold read_tunnel in H.
  apply bind_inv in H as (t' & s1 & H1 & H). apply read_be_len in H1.
  apply bind_inv in H as (n & s2 & H2 & H). apply read_be_len in H2.
  apply bind_inv in H as (u' & s3 & Hn2 & H). apply need_inv in Hn2 as (-> & Hn2).
  apply bind_inv in H as (v & s3 & Hv & H). apply read_n_bytes_inv in Hv as (-> & Hv).
  apply lift_inv in H as [_ <-]. rewrite app_length in *. lia.
Qed.
Lemma tunnel_iff s l : bytes_ok s -> (parse_tunnel_encap s = Ok l <->
  exists x t, s = flat_map tunnel_wire x ++ t /\ (length t < 4)%nat /\ Forall tunnel_ok x /\ map report x = l).
Proof.
  apply (many_min_iff 4 read_tunnel tunnel_wire report tunnel_ok); [lia| | |].
  - intros; apply read_tunnel_ok; auto.
  - intros; apply read_tunnel_inv; auto.
  - intros a _. unfold tunnel_wire. rewrite tlv_wire_length. lia.
Qed.
Lemma tunnel_np s : np (parse_tunnel_encap s).
Proof. apply many_min_np; auto using npp_read_tunnel, Nat.lt_0_succ. apply consumes_tunnel. Qed.
Lemma report_named t : named t -> report t = t.
Proof.
  intros (H1 & H2). destruct t as [t l]. unfold report. cbn [tn_type tn_subs] in *.
  destruct (N.leb_spec t 22); [|lia]. f_equal. induction H2 as [|[y v] l Hy Hl IH]; [reflexivity|].
  cbn [map]. rewrite IH. f_equal. unfold report_sub. cbn [t_type t_value] in *.
  destruct Hy as [Hy|[->| ->]]; [|reflexivity|reflexivity]. destruct (N.leb_spec y 20); [reflexivity|lia].
Qed.
Lemma encode_sub_iff t b : encode_sub_tlv t = Ok b <-> nlen (t_value t) < 256 ^ N.of_nat (sub_width (t_type t)) /\ b = sub_wire t.
Proof.
  unfold encode_sub_tlv, sub_wire, tlv_wire. fold (sub_width (t_type t)). split.
  - intros H. apply rbind_inv in H as (x & H1 & H). apply put_len_slice_inv in H1 as (L & ->). injection H as <-. auto.
  - intros (L & ->). rewrite put_len_slice_ok by auto. reflexivity.
Qed.
Lemma encode_tunnel_iff t b : encode_tunnel t = Ok b <->
  (Forall (fun s => nlen (t_value s) < 256 ^ N.of_nat (sub_width (t_type s))) (tn_subs t) /\
   nlen (flat_map sub_wire (tn_subs t)) < 65536) /\ b = tunnel_wire t.
Proof.
  unfold encode_tunnel, with_len, tunnel_wire, tlv_wire. cbn [t_type t_value]. split.
  - intros H. apply rbind_inv in H as (x & H1 & H). apply rbind_inv in H1 as (y & H1 & H2).
    apply (proj1 (rmap_enc_iff _ _ _ encode_sub_iff _ _)) in H1 as [F ->].
    apply put_len_slice_inv in H2 as (L & ->). injection H as <-. auto.
  - intros ((F & L) & ->). rewrite (proj2 (rmap_enc_iff _ _ _ encode_sub_iff _ _) (conj F eq_refl)).
    cbn [rbind]. rewrite put_len_slice_ok by auto. reflexivity.
Qed.
Lemma encode_tunnel_encap_iff l b : encode_tunnel_encap l = Ok b <->
  Forall (fun t => Forall (fun s => nlen (t_value s) < 256 ^ N.of_nat (sub_width (t_type s))) (tn_subs t) /\
   nlen (flat_map sub_wire (tn_subs t)) < 65536) l /\ b = flat_map tunnel_wire l.
Proof. apply rmap_enc_iff. intros; apply encode_tunnel_iff. Qed.
Lemma encode_subs_cases l : (exists b, (bs <~ rmap encode_sub_tlv l ;; Ok (concat bs)) = Ok b) \/
  (bs <~ rmap encode_sub_tlv l ;; Ok (concat bs)) = Err EEncTooLarge.
Proof.
  apply rmap_enc_err.
  - intros a. unfold encode_sub_tlv. apply np_rbind; [apply np_put_len|]. intros; discriminate.
  - intros a e H. unfold encode_sub_tlv in H.
    destruct (put_len_slice (if t_type a <? 128 then 1 else 2) (t_value a)) eqn:E; try discriminate.
    apply put_len_err in E. cbn [rbind] in H. congruence.
Qed.
Lemma encode_tunnel_encap_cases l : (exists b, encode_tunnel_encap l = Ok b) \/ encode_tunnel_encap l = Err EEncTooLarge.
Proof.
  apply rmap_enc_err.
  - intros a. unfold encode_tunnel, with_len.
    destruct (encode_subs_cases (tn_subs a)) as [[b ->]| ->]; [|discriminate].
    cbn [rbind]. apply np_rbind; [apply np_put_len|]. intros; discriminate.
  - intros a e. unfold encode_tunnel, with_len.
    destruct (encode_subs_cases (tn_subs a)) as [[b ->]| ->]; cbn [rbind]; [|congruence].
    destruct (put_len_slice 2 b) eqn:E; cbn [rbind]; try discriminate. apply put_len_err in E. congruence.
Qed.

(** * Summaries *)
Lemma flat_map_wire_ok tw lw l : Forall (tlv_ok tw lw) l -> bytes_ok (flat_map (tlv_wire tw lw) l).
Proof.
  induction 1 as [|t l (H1 & H2 & H3) H IH]; [constructor|]. cbn [flat_map]. apply bytes_ok_app. split; auto.
  unfold tlv_wire. rewrite !bytes_ok_app; repeat split; auto using be_ok.
Qed.
Lemma tlv_ok_fit tw lw l : Forall (tlv_ok tw lw) l -> Forall (fun t => nlen (t_value t) < 256 ^ N.of_nat lw) l.
Proof. apply Forall_impl. intros t (_ & H & _). exact H. Qed.
Lemma tlvs_roundtrip tw lw l : (0 < tw)%nat -> Forall (tlv_ok tw lw) l ->
  exists b, encode_tlvs tw lw l = Ok b /\ many_p (length b) (read_tlv tw lw) b = Ok l.
Proof.
  intros Hw H. exists (flat_map (tlv_wire tw lw) l). split.
  - apply encode_tlvs_iff. split; auto. eapply tlv_ok_fit; eauto.
  - apply tlvs_iff; auto using flat_map_wire_ok.
Qed.
Lemma tlvs_reencode tw lw s l : (0 < tw)%nat -> bytes_ok s ->
  many_p (length s) (read_tlv tw lw) s = Ok l -> encode_tlvs tw lw l = Ok s.
Proof.
  intros Hw Hs H. apply (proj1 (tlvs_iff tw lw s l Hw Hs)) in H as [F ->]. apply encode_tlvs_iff.
  split; auto. eapply tlv_ok_fit; eauto.
Qed.
Lemma be4s_ok l : bytes_ok (flat_map (be 4) l).
Proof. induction l; [constructor|]. cbn [flat_map]. apply bytes_ok_app; split; auto using be_ok. Qed.
Lemma subs_bytes_ok l : Forall sub_ok l -> bytes_ok (flat_map sub_wire l).
Proof.
  induction 1 as [|t l (H1 & H2 & H3) H IH]; [constructor|]. cbn [flat_map]. apply bytes_ok_app. split; auto.
  unfold sub_wire, tlv_wire. rewrite !bytes_ok_app; repeat split; auto using be_ok.
Qed.
Lemma tlv_roundtrips :
  (forall l, Forall (tlv_ok 1 2) l -> exists b, encode_sfp l = Ok b /\ parse_sfp b = Ok l) /\
  (forall l, Forall (tlv_ok 1 2) l -> exists b, encode_prefix_sid l = Ok b /\ parse_prefix_sid b = Ok l) /\
  (forall l, Forall (tlv_ok 2 2) l -> exists b, encode_bier l = Ok b /\ parse_bier b = Ok l) /\
  (forall x, bfd_ok x -> exists b, encode_bfd x = Ok b /\ parse_bfd b = Ok x) /\
  (forall l, Forall aigp_ok l -> parse_aigp (encode_aigp l) = Ok l) /\
  (forall t, te_ok t -> parse_traffic_eng (encode_traffic_eng t) = Ok t) /\
  (forall l, Forall tunnel_ok l -> Forall named l ->
     exists b, encode_tunnel_encap l = Ok b /\ parse_tunnel_encap b = Ok l).
Proof.
  split; [|split; [|split; [|split; [|split; [|split]]]]].
  - intros l. apply tlvs_roundtrip; lia.
  - intros l. apply tlvs_roundtrip; lia.
  - intros l. apply tlvs_roundtrip; lia.
  - intros x Hx. exists (bfd_wire x). split.
    + apply encode_bfd_iff. split; auto. destruct Hx as (_ & _ & Hx). apply tlv_ok_fit in Hx. exact Hx.
    + apply bfd_iff; auto. unfold bfd_wire. destruct Hx as (_ & _ & Hx).
      rewrite !bytes_ok_app; repeat split; auto using be_ok, flat_map_wire_ok.
  - intros l Hl. rewrite encode_aigp_wire. apply aigp_iff; auto.
    induction Hl as [|t l (H1 & H2 & H3 & H4) H IH]; [constructor|]. cbn [flat_map]. apply bytes_ok_app. split; auto.
    unfold aigp_wire. rewrite !bytes_ok_app; repeat split; auto using be_ok.
  - intros t Ht. apply te_iff; [|split; auto]. destruct Ht as (_ & _ & _ & _ & _ & Ht).
    unfold encode_traffic_eng. rewrite !bytes_ok_app; repeat split; auto using be_ok, be4s_ok.
  - intros l Hl Hn. exists (flat_map tunnel_wire l). split.
    + apply encode_tunnel_encap_iff. split; auto. revert Hl. apply Forall_impl. intros t (H1 & H2 & H3).
      split; auto. revert H2. apply Forall_impl. intros s (_ & Hs & _). exact Hs.
    + apply tunnel_iff.
      * induction Hl as [|t l (H1 & H2 & H3) H IH]; [constructor|]. inv Hn. cbn [flat_map]. apply bytes_ok_app.
        split; auto. unfold tunnel_wire, tlv_wire. rewrite !bytes_ok_app; repeat split; auto using be_ok.
        apply subs_bytes_ok; auto.
      * exists l, []. rewrite app_nil_r. split; [auto|]. split; [cbn; lia|]. split; [auto|].
        clear Hl. induction Hn; [reflexivity|]. cbn [map]. rewrite report_named, IHHn; auto.
Qed.
Lemma tlv_reencode s : bytes_ok s ->
  (forall l, parse_sfp s = Ok l -> encode_sfp l = Ok s) /\
  (forall l, parse_prefix_sid s = Ok l -> encode_prefix_sid l = Ok s) /\
  (forall l, parse_bier s = Ok l -> encode_bier l = Ok s) /\
  (forall x, parse_bfd s = Ok x -> encode_bfd x = Ok s) /\
  (forall l, parse_aigp s = Ok l -> encode_aigp l = s) /\
  (forall t, parse_traffic_eng s = Ok t -> encode_traffic_eng t = s).
Proof.
  intros Hs. split; [|split; [|split; [|split; [|split]]]].
  - intros l. apply tlvs_reencode; auto.
  - intros l. apply tlvs_reencode; auto.
  - intros l. apply tlvs_reencode; auto.
  - intros x H. apply (proj1 (bfd_iff s x Hs)) in H as [H ->]. apply encode_bfd_iff. split; auto.
    destruct H as (_ & _ & H). apply tlv_ok_fit in H. exact H.
  - intros l H. apply (proj1 (aigp_iff s l Hs)) in H as [H ->]. apply encode_aigp_wire.
  - intros t H. apply (proj1 (te_iff s t Hs)) in H as [H ->]. reflexivity.
Qed.
Lemma tlv_no_panic s :
  np (parse_sfp s) /\ np (parse_prefix_sid s) /\ np (parse_bier s) /\ np (parse_bfd s) /\
  np (parse_aigp s) /\ np (parse_traffic_eng s) /\ np (parse_tunnel_encap s).
Proof.
  repeat split; auto using bfd_np, aigp_np, te_np, tunnel_np; apply tlvs_np; lia.
Qed.
Lemma find_skip {A} (f : A -> bool) pre a post :
  Forall (fun x => f x = false) pre -> f a = true -> find f (pre ++ a :: post) = Some a.
Proof. induction 1 as [|x l H F IH]; cbn [app find]; intros Ha; [rewrite Ha|rewrite H]; auto. Qed.
Lemma find_absent {A} (f : A -> bool) l : Forall (fun x => f x = false) l -> find f l = None.
Proof. induction 1 as [|x l H F IH]; cbn [find]; [|rewrite H]; auto. Qed.
Lemma metric_first pre v post n m : Forall (fun t => ai_type t <> 1) pre -> n < 2 ^ 64 ->
  accumulated_metric (pre ++ AigpTlv 1 m (be 8 n ++ v) :: post) = Some n.
Proof.
  intros F Hn. unfold accumulated_metric. rewrite find_skip; [|revert F; apply Forall_impl; intros; lia|reflexivity].
  cbn [ai_value]. rewrite app_length, be_length. cbn [Nat.leb plus].
  rewrite <- (be_length 8 n) at 1. rewrite firstn_app_len, be_val_be_small; auto.
Qed.
Lemma metric_absent l : Forall (fun t => ai_type t <> 1) l -> accumulated_metric l = None.
Proof.
  intros F. unfold accumulated_metric. rewrite find_absent; auto. revert F. apply Forall_impl. intros; lia.
Qed.
Lemma find_sub_first ty pre k v post : Forall (fun t => t_type t <> k) pre ->
  find_sub (Tunnel ty (pre ++ Tlv k v :: post)) k = Some v.
Proof.
  intros F. unfold find_sub. cbn [tn_subs]. rewrite find_skip; auto.
  - revert F. apply Forall_impl. intros; lia.
  - apply N.eqb_refl.
Qed.
Lemma first_be_app k n r : n < 256 ^ N.of_nat k -> first_be k (Some (be k n ++ r)) = Some n.
Proof.
  intros Hn. unfold first_be. rewrite app_length, be_length.
  destruct (Nat.leb_spec k (k + length r)); [|lia].
  rewrite <- (be_length k n) at 1. rewrite firstn_app_len, be_val_be_small; auto.
Qed.
Lemma tunnel_accessors ty pre post n r :
  (Forall (fun t => t_type t <> 6) pre -> n < 2 ^ 32 ->
     get_endpoint (Tunnel ty (pre ++ Tlv 6 (be 4 n) :: post)) = Some (V4 n)) /\
  (Forall (fun t => t_type t <> 6) pre -> n < 2 ^ 128 ->
     get_endpoint (Tunnel ty (pre ++ Tlv 6 (be 16 n) :: post)) = Some (V6 n)) /\
  (Forall (fun t => t_type t <> 4) pre -> n < 2 ^ 32 ->
     get_color (Tunnel ty (pre ++ Tlv 4 (be 4 n ++ r) :: post)) = Some n) /\
  (Forall (fun t => t_type t <> 8) pre -> n < 2 ^ 16 ->
     get_udp_port (Tunnel ty (pre ++ Tlv 8 (be 2 n ++ r) :: post)) = Some n) /\
  (Forall (fun t => t_type t <> 12) pre -> n < 2 ^ 32 ->
     get_preference (Tunnel ty (pre ++ Tlv 12 (be 4 n ++ r) :: post)) = Some n).
Proof.
  split; [|split; [|split; [|split]]]; intros F Hn.
  - unfold get_endpoint. rewrite find_sub_first, be_length by auto. cbn [Nat.eqb]. rewrite be_val_be_small; auto.
  - unfold get_endpoint. rewrite find_sub_first, be_length by auto. cbn [Nat.eqb]. rewrite be_val_be_small; auto.
  - unfold get_color. rewrite find_sub_first by auto. apply first_be_app; auto.
  - unfold get_udp_port. rewrite find_sub_first by auto. apply first_be_app; auto.
  - unfold get_preference. rewrite find_sub_first by auto. apply first_be_app; auto.
Qed.
