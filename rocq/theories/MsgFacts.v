(** Proofs about BGP messages. *)
From Coq Require Import ZifyBool ZifyNat ZifyN Lia.
From Verif Require Import Base BaseFacts Reader ReaderFacts Tac Net NetSpec NetFacts AsPath Mpls MplsFacts Tlv TlvFacts
  Nlri NlriSpec NlriFacts Attr AttrSpec AttrFacts Cap BgpError BgpMsg MsgSpec CapFacts.
Ltac Zify.zify_post_hook ::= Z.div_mod_to_equations.

(** * Loops over related items *)
Lemma many_rel {A B} m (p : P B) (enc : A -> bytes) (Q : A -> Prop) (R : A -> B -> Prop) : (0 < m)%nat ->
  (forall a b r, Q a -> R a b -> p (enc a ++ r) = Ok (b, r)) ->
  (forall s b r, p s = Ok (b, r) -> bytes_ok s -> exists a, s = enc a ++ r /\ Q a /\ R a b) ->
  (forall a, Q a -> (m <= length (enc a))%nat) ->
  forall s l, bytes_ok s ->
  (many_min m (length s) p s = Ok l <->
   exists x t, s = flat_map enc x ++ t /\ (length t < m)%nat /\ Forall Q x /\ Forall2 R x l).
Proof.
  intros Hm H1 H2 H3 s l Hs.
  rewrite (many_min_iff m p (fun x : A * B => enc (fst x)) snd (fun x => Q (fst x) /\ R (fst x) (snd x)) Hm); auto.
  - split.
    + intros (x & t & -> & Ht & F & <-). exists (map fst x), t. split.
      { f_equal. clear. induction x; cbn; congruence. }
      split; auto. clear - F. induction F as [|[a b] x [Ha Hb] F [I1 I2]]; cbn; split; constructor; auto.
    + intros (x & t & -> & Ht & F & G). exists (combine x l), t. split.
      { f_equal. clear - G. induction G; cbn; congruence. }
      split; auto. clear - F G. revert F. induction G as [|a b x l Hab G IH]; intros F; cbn; [auto|].
      inversion F; subst. destruct (IH H2) as [I1 I2]. split; [constructor; auto|congruence].
  - intros [a b] r [Ha Hb]. apply H1; auto.
  - intros s' b r Hp Hb. destruct (H2 _ _ _ Hp Hb) as (a & -> & Ha & Hr). exists (a, b). auto.
  - intros [a b] [Ha _]. apply H3; auto.
Qed.

(** * Capabilities of a parameter *)
Definition cap_rel (r : raw_item) (c : capability) : Prop :=
  cap_type c = fst r /\ cap_reads (fst r) (snd r) (cap_val c).
Lemma item_len w i : length (item_wire w i) = (1 + w + length (snd i))%nat.
Proof. unfold item_wire. rewrite !app_length, be_length. reflexivity. Qed.
Lemma read_cap_item i c r : item_ok 1 i -> cap_rel i c -> read_cap (item_wire 1 i ++ r) = Ok (c, r).
Proof.
  intros (H1 & H2 & H3) (E & R). unfold item_wire, read_cap. rewrite <- !app_assoc. cbn [app].
  rewrite (bind_ok _ _ _ _ _ (read_u8_cons (fst i) _)). change (256 ^ N.of_nat 1) with 256 in H3.
  rstep. rewrite (bind_ok _ _ _ _ _ (read_n_bytes_app _ (snd i) r eq_refl)).
  apply parse_cap_iff in R; auto. rewrite R. destruct c; cbn in *. subst. reflexivity.
Qed.
Lemma read_cap_inv s c r : read_cap s = Ok (c, r) -> bytes_ok s ->
  exists i, s = item_wire 1 i ++ r /\ item_ok 1 i /\ cap_rel i c.
Proof.
  intros H Hs. unfold read_cap in H. pstep H. pstep H. pstep H.
  apply bind_inv in H as (v & s' & Hv & H). apply lift_inv in Hv as [Hv <-]. apply ret_inv in H as [<- ->].
  exists (a, a1). unfold item_wire. cbn [fst snd]. lits. rewrite Hb1, !be_1 by auto. cbn [app]. split; auto. split.
  - unfold item_ok. cbn [fst snd]. rewrite Hb1. auto.
  - split; auto. cbn. apply parse_cap_iff; auto.
Qed.
Lemma caps_iff s l : bytes_ok s -> (many_min 2 (length s) read_cap s = Ok l <->
  exists cs t, s = flat_map (item_wire 1) cs ++ t /\ (length t < 2)%nat /\ Forall (item_ok 1) cs /\ Forall2 cap_rel cs l).
Proof.
  apply many_rel; [lia|apply read_cap_item|apply read_cap_inv|]. intros a _. rewrite item_len. lia.
Qed.
Lemma npp_read_cap : npp read_cap.
Proof.
  unfold read_cap. repeat (apply npp_bind; [first [apply npp_read_be|apply npp_read_n_bytes|apply npp_lift, parse_cap_np]|intros]).
  apply npp_ret.
Qed.
Lemma read_cap_progress s a r : read_cap s = Ok (a, r) -> (length r < length s)%nat.
Proof.
  apply bind_progress; [intros ? ? ?; apply read_be_progress; lia|]. intros.
  repeat (apply consumes_bind; [first [apply consumes_read_be|apply consumes_read_n_bytes|apply consumes_lift]|intros]).
  apply consumes_ret.
Qed.
Lemma caps_np s : np (many_min 2 (length s) read_cap s).
Proof. apply many_min_np; auto using npp_read_cap. apply read_cap_progress. Qed.

(** * Optional parameters *)
Definition width (ext : bool) : nat := if ext then 2%nat else 1%nat.
Lemma body_read_len (ext : bool) {A} (k : N -> P A) s : bind (if ext then read_u16 else read_u8) k s = bind (read_be (width ext)) k s.
Proof. destruct ext; reflexivity. Qed.
Lemma read_body_item ext t b p r : item_ok (width ext) (t, b) -> param_reads (t, b) p ->
  read_param_body ext t (be (width ext) (nlen b) ++ b ++ r) = Ok (p, r).
Proof.
  intros (H1 & H2 & H3) (E & R). cbn [fst snd] in *. unfold read_param_body. rewrite body_read_len.
  rewrite (bind_ok _ _ _ _ _ (read_be_be (width ext) (nlen b) _ H3)). destruct p as [ty v]; cbn [op_type op_value] in *. subst ty.
  destruct v as [x|l].
  - destruct R as [N2 ->]. destruct (N.eqb_spec t 2); [contradiction|].
    rewrite (bind_ok _ _ _ _ _ (read_n_bytes_app _ b r eq_refl)). reflexivity.
  - destruct R as [-> R]. cbn [N.eqb Pos.eqb].
    assert (L : nlen b <= nlen (b ++ r)) by (rewrite nlen_app; lia).
    rewrite (bind_ok _ _ _ _ _ (has_n_ok _ _ L)). rewrite to_nat_nlen.
    rewrite (bind_ok _ _ _ _ _ (split_to_app (length b) b r eq_refl)). apply caps_iff in R; auto. rewrite R. reflexivity.
Qed.
Lemma read_body_inv ext t s p r : read_param_body ext t s = Ok (p, r) -> bytes_ok s -> t < 256 ->
  exists b, s = be (width ext) (nlen b) ++ b ++ r /\ item_ok (width ext) (t, b) /\ param_reads (t, b) p /\ bytes_ok r.
Proof.
  intros H Hs Ht. unfold read_param_body in H. rewrite body_read_len in H.
  apply bind_inv in H as (n & s1 & Hn & H). apply read_be_inv_ok in Hn as (-> & Hb & Ho); auto.
  destruct (N.eqb_spec t 2) as [E|E].
  - apply bind_inv in H as ([] & s2 & H1 & H). apply has_n_inv in H1 as [-> Hl].
    apply bind_inv in H as (d & s3 & H1 & H). apply split_to_inv in H1 as [-> Hd].
    apply bind_inv in H as (l & s4 & H1 & H). apply lift_inv in H1 as [Hv <-]. apply ret_inv in H as [<- ->].
    apply bytes_ok_app in Ho as [Hod Hor]. assert (nlen d = n) as <- by (unfold nlen; lia).
    exists d. split; auto. split; [split; auto|]. split; auto. split; auto. cbn. split; auto. apply caps_iff in Hv; auto.
  - apply bind_inv in H as (d & s2 & H1 & H). apply read_n_bytes_inv in H1 as (-> & <-). apply ret_inv in H as [<- ->].
    apply bytes_ok_app in Ho as [Hod Hor]. exists d. split; auto. split; [split; auto|]. split; auto. split; auto. cbn. auto.
Qed.
Lemma item_wire_split w i r : item_wire w i ++ r = fst i :: be w (nlen (snd i)) ++ snd i ++ r.
Proof. unfold item_wire. rewrite <- !app_assoc. reflexivity. Qed.
Lemma read_param_item ext i p r : item_ok (width ext) i -> param_reads i p -> read_param ext (item_wire (width ext) i ++ r) = Ok (p, r).
Proof.
  intros H1 H2. rewrite item_wire_split. unfold read_param. rewrite (bind_ok _ _ _ _ _ (read_u8_cons (fst i) _)).
  destruct i; apply read_body_item; auto.
Qed.
Lemma read_param_inv ext s p r : read_param ext s = Ok (p, r) -> bytes_ok s ->
  exists i, s = item_wire (width ext) i ++ r /\ item_ok (width ext) i /\ param_reads i p.
Proof.
  intros H Hs. unfold read_param in H. pstep H. lits. apply read_body_inv in H as (b & -> & H1 & H2 & _); auto.
  exists (a, b). rewrite item_wire_split. cbn [fst snd]. rewrite be_1 by auto. auto.
Qed.
Lemma params_iff ext s l : bytes_ok s -> (many_min 2 (length s) (read_param ext) s = Ok l <->
  exists rs t, s = flat_map (item_wire (width ext)) rs ++ t /\ (length t < 2)%nat /\
    Forall (item_ok (width ext)) rs /\ Forall2 param_reads rs l).
Proof.
  apply many_rel; [lia|apply read_param_item|apply read_param_inv|]. intros a _. rewrite item_len. destruct ext; cbn; lia.
Qed.
Lemma npp_read_body ext t : npp (read_param_body ext t).
Proof.
  unfold read_param_body. apply npp_bind; [destruct ext; apply npp_read_be|]. intros n. destruct (t =? 2).
  - intros s. apply np_bind; [apply npp_has_n|]. intros [] s' H. apply has_n_inv in H as [-> H].
    apply np_bind; [apply np_split_to; unfold nlen in H; lia|]. intros d s' _. apply npp_bind; [apply npp_lift, caps_np|].
    intros. apply npp_ret.
  - apply npp_bind; [apply npp_read_n_bytes|]. intros; apply npp_ret.
Qed.
Lemma consumes_body ext t : consumes (read_param_body ext t).
Proof.
  unfold read_param_body. apply consumes_bind; [destruct ext; apply consumes_read_be|]. intros n. destruct (t =? 2).
  - repeat (apply consumes_bind; [first [apply consumes_has_n|apply consumes_split_to|apply consumes_lift]|intros]). apply consumes_ret.
  - apply consumes_bind; [apply consumes_read_n_bytes|]. intros; apply consumes_ret.
Qed.
Lemma npp_read_param ext : npp (read_param ext).
Proof. apply npp_bind; [apply npp_read_be|]. intros. apply npp_read_body. Qed.
Lemma read_param_progress ext s a r : read_param ext s = Ok (a, r) -> (length r < length s)%nat.
Proof. apply bind_progress; [intros ? ? ?; apply read_be_progress; lia|]. intros; apply consumes_body. Qed.
Lemma params_np ext s : np (many_min 2 (length s) (read_param ext) s).
Proof. apply many_min_np; auto using npp_read_param. apply read_param_progress. Qed.
Lemma open_params_np o s : np (open_params o s).
Proof.
  unfold open_params. destruct (Nat.ltb _ 2); [apply np_ok|]. apply np_rbind; [apply npp_read_be|]. intros [t s1] _.
  destruct (t =? 255).
  - destruct (o =? 0); [apply np_err|]. apply np_rbind; [apply npp_read_be|]. intros [n s2] _.
    destruct (n =? 0); [apply np_ok|]. apply np_rbind; [apply npp_read_be|]. intros [t' s3] _.
    apply np_rbind; [apply npp_read_body|]. intros [p s4] _. apply np_rbind; [apply params_np|]. intros; apply np_ok.
  - apply np_rbind; [apply npp_read_body|]. intros [p s4] _. apply np_rbind; [apply params_np|]. intros; apply np_ok.
Qed.

Lemma open_params_ok o r e ps : bytes_ok r -> open_tail o r e ps -> open_params o r = Ok (e, ps).
Proof.
  intros Hr. unfold open_tail. destruct e.
  - intros (Ho & [(rest & -> & ->)|(n & rs & t & -> & Hn & Hne & Ht & Hok & HR)]).
    + unfold open_params. cbn [app length Nat.ltb Nat.leb]. rewrite read_u8_cons. cbn [rbind N.eqb Pos.eqb].
      destruct (N.eqb_spec o 0); [contradiction|]. change (0 :: 0 :: rest) with (be 2 0 ++ rest).
      rewrite read_u16_be by lia. reflexivity.
    + destruct rs as [|i rs]; [contradiction|]. inversion HR as [|? p ? ps' HR1 HR2]; subst. inversion Hok; subst.
      unfold open_params. destruct (Nat.ltb_spec (length ([255] ++ be 2 n ++ flat_map (item_wire 2) (i :: rs) ++ t)) 2) as [L|L].
      { rewrite !app_length, be_length in L. cbn in L. lia. }
      clear L. cbn [app]. rewrite read_u8_cons. cbn [rbind N.eqb Pos.eqb].
      destruct (N.eqb_spec o 0); [contradiction|]. rewrite read_u16_be by lia. cbn [rbind].
      destruct (N.eqb_spec n 0); [lia|]. cbn [flat_map]. rewrite <- app_assoc, item_wire_split, read_u8_cons. cbn [rbind].
      rewrite (read_body_item true (fst i) (snd i) p) by (destruct i; auto). cbn [rbind].
      assert (B : bytes_ok (flat_map (item_wire 2) rs ++ t)).
      { cbn [flat_map] in Hr. rewrite !bytes_ok_app in Hr. rewrite bytes_ok_app. tauto. }
      rewrite (proj2 (params_iff true _ ps' B)); [reflexivity|exists rs, t; auto].
  - intros (rs & t & -> & Ht & Hok & HR & H255). unfold open_params. destruct rs as [|i rs].
    + cbn [flat_map app]. inversion HR; subst. destruct (Nat.ltb_spec (length t) 2); [reflexivity|lia].
    + inversion HR as [|? p ? ps' HR1 HR2]; subst. inversion Hok; subst.
      destruct (Nat.ltb_spec (length (flat_map (item_wire 1) (i :: rs) ++ t)) 2) as [L|L].
      { cbn [flat_map] in L. rewrite !app_length, item_len in L. lia. }
      assert (B : bytes_ok (flat_map (item_wire 1) rs ++ t)).
      { cbn [flat_map] in Hr. rewrite !bytes_ok_app in Hr. rewrite bytes_ok_app. tauto. }
      clear L. cbn [flat_map]. rewrite <- app_assoc, item_wire_split. rewrite read_u8_cons. cbn [rbind].
      destruct i as [t0 b0]. cbn [fst snd] in *. destruct (N.eqb_spec t0 255); [contradiction|].
      rewrite (read_body_item false t0 b0 p) by auto. cbn [rbind].
      rewrite (proj2 (params_iff false _ ps' B)); [reflexivity|exists rs, t; auto].
Qed.
Lemma open_params_inv o r e ps : bytes_ok r -> open_params o r = Ok (e, ps) -> open_tail o r e ps.
Proof.
  intros Hr H. unfold open_params in H. destruct (Nat.ltb_spec (length r) 2) as [L|L].
  - injection H as <- <-. exists [], r. repeat split; auto.
  - apply rbind_inv in H as ([t s1] & H1 & H). apply read_be_inv_ok in H1 as (-> & Hb & Ho); auto. lits.
    rewrite be_1 in * by auto. destruct (N.eqb_spec t 255) as [E|E].
    + destruct (N.eqb_spec o 0); [discriminate|]. apply rbind_inv in H as ([n' s2] & H1 & H).
      apply read_be_inv_ok in H1 as (-> & Hb1 & Ho1); auto. lits. destruct (N.eqb_spec n' 0) as [E'|E'].
      * injection H as <- <-. split; auto. left. exists s2. subst. auto.
      * apply rbind_inv in H as ([t' s3] & H1 & H). apply read_be_inv_ok in H1 as (-> & Hb2 & Ho2); auto. lits.
        apply rbind_inv in H as ([p s4] & H1 & H). apply read_body_inv in H1 as (b & -> & Hi & Hp & Ho3); auto.
        apply rbind_inv in H as (l & H1 & H). injection H as <- <-. apply params_iff in H1 as (rs & u & -> & Hu & Hok & HR); auto.
        split; auto. right. exists n', ((t', b) :: rs), u. subst t. split.
        { cbn [flat_map]. rewrite <- app_assoc, item_wire_split. cbn [fst snd]. rewrite be_1 by auto. reflexivity. }
        split; [lia|]. split; [discriminate|]. auto.
    + apply rbind_inv in H as ([p s4] & H1 & H). apply read_body_inv in H1 as (b & -> & Hi & Hp & Ho3); auto.
      apply rbind_inv in H as (l & H1 & H). injection H as <- <-. apply params_iff in H1 as (rs & u & -> & Hu & Hok & HR); auto.
      exists ((t, b) :: rs), u. split.
      { cbn [flat_map]. rewrite <- app_assoc, item_wire_split. reflexivity. }
      auto.
Qed.

(** * OPEN *)
Lemma open_head_len m : length (open_head m) = 9%nat.
Proof. unfold open_head. rewrite !app_length, !be_length. reflexivity. Qed.
Lemma parse_open_iff s m : bytes_ok s -> (parse_open s = Ok m <->
  o_version m < 256 /\ o_asn m < 65536 /\ o_hold m < 65536 /\ o_id m < 2 ^ 32 /\
  exists opl r, opl < 256 /\ s = open_head m ++ [opl] ++ r /\ open_tail opl r (o_extended m) (o_params m)).
Proof.
  intros Hs. unfold parse_open. split.
  - intros H. apply rbind_inv in H as ([h r] & H1 & H).
    apply bind_inv in H1 as ([] & s0 & H2 & H1). apply has_n_inv in H2 as [-> Hl].
    pstep H1. pstep H1. pstep H1. pstep H1. pstep H1. apply ret_inv in H1 as [<- <-].
    apply rbind_inv in H as ([e ps] & H2 & H). injection H as <-. lits.
    apply open_params_inv in H2; auto. cbn [o_version o_asn o_hold o_id o_extended o_params].
    do 4 (split; [assumption|]). exists a3, s0. split; auto. split; auto.
    unfold open_head. cbn [o_version o_asn o_hold o_id]. rewrite <- !app_assoc, (be_1 a3) by auto. reflexivity.
  - intros (H1 & H2 & H3 & H4 & opl & r & H5 & -> & HT).
    assert (L : 10 <= nlen (open_head m ++ [opl] ++ r)).
    { unfold nlen. rewrite !app_length, open_head_len. cbn [length]. lia. }
    rewrite (bind_ok _ _ _ _ _ (has_n_ok 10 _ L)). unfold open_head. rewrite <- !app_assoc.
    rewrite (bind_ok _ _ _ _ _ (read_u8_be _ _ H1)). rewrite (bind_ok _ _ _ _ _ (read_u16_be _ _ H2)).
    rewrite (bind_ok _ _ _ _ _ (read_u16_be _ _ H3)). rewrite (bind_ok _ _ _ _ _ (read_u32_be _ _ H4)).
    cbn [app]. rewrite (bind_ok _ _ _ _ _ (read_u8_cons opl r)). unfold ret. cbn [rbind].
    rewrite !bytes_ok_app in Hs. rewrite (open_params_ok opl r _ _ (proj2 (proj2 Hs)) HT). destruct m; reflexivity.
Qed.
Lemma parse_open_np s : np (parse_open s).
Proof.
  unfold parse_open. apply np_rbind.
  - apply npp_bind; [apply npp_has_n|]. intros. repeat (apply npp_bind; [apply npp_read_be|intros]). apply npp_ret.
  - intros [[[[[v a] h] i] o] r] _. apply np_rbind; [apply open_params_np|]. intros [e ps] _. apply np_ok.
Qed.

(** Encoding. *)
Lemma encode_cap_iff c b : encode_cap c = Ok b <->
  nlen (encode_cap_value (cap_val c)) < 256 /\
  b = be 1 (cap_type c) ++ be 1 (nlen (encode_cap_value (cap_val c))) ++ encode_cap_value (cap_val c).
Proof.
  unfold encode_cap. split.
  - intros H. apply rbind_inv in H as (x & H1 & H). apply put_len_slice_inv in H1 as [H1 ->]. injection H as <-. auto.
  - intros [H ->]. rewrite put_len_slice_ok by auto. reflexivity.
Qed.
Lemma encode_param_iff p i : encode_param p = Ok i <-> param_item p i /\ op_type p <> 255.
Proof.
  unfold encode_param, encode_param_value, param_item. destruct p as [t v]; destruct i as [t' b]; cbn [op_type op_value fst snd].
  destruct (N.eqb_spec t 255) as [E|E]; [split; [discriminate|tauto]|]. destruct v as [x|l].
  - cbn [rbind]. split; [intros H; injection H as <- <-; auto|intros [[<- ->] _]; reflexivity].
  - pose proof (rmap_enc_iff encode_cap _ _ encode_cap_iff l) as M. split.
    + intros H. apply rbind_inv in H as (y & H1 & H). apply M in H1 as [H1 ->]. injection H as <- <-. auto.
    + intros [[<- [H1 ->]] _]. rewrite (proj2 (M _) (conj H1 eq_refl)). reflexivity.
Qed.
Lemma nlen_items w ps : nlen (flat_map (item_wire w) ps) = (1 + N.of_nat w) * nlen ps + nlen (concat (map snd ps)).
Proof.
  induction ps as [|i ps IH]; cbn [flat_map map concat]; [unfold nlen; cbn [length N.of_nat]; lia|]. rewrite !nlen_app, IH, nlen_cons.
  unfold nlen at 1. rewrite item_len. unfold nlen. lia.
Qed.
Lemma items_eq w (ps : list raw_item) : Forall (fun i => fst i < 256) ps ->
  flat_map (fun p => be 1 (fst p) ++ be w (nlen (snd p)) ++ snd p) ps = flat_map (item_wire w) ps.
Proof. induction 1 as [|i ps Hi H IH]; cbn [flat_map]; auto. rewrite IH. unfold item_wire. rewrite be_1 by auto. reflexivity. Qed.
Lemma encode_open_iff m b : Forall (fun p => op_type p < 256) (o_params m) ->
  (encode_open m = Ok b <->
   exists ps, Forall2 param_item (o_params m) ps /\ Forall (fun p => op_type p <> 255) (o_params m) /\ open_written m ps b).
Proof.
  intros Ht. unfold encode_open.
  assert (R : forall ps, rmap encode_param (o_params m) = Ok ps <->
    Forall2 param_item (o_params m) ps /\ Forall (fun p => op_type p <> 255) (o_params m)).
  { intros ps. rewrite rmap_ok. clear. generalize (o_params m) as l. revert ps. intros ps l. split.
    - induction 1 as [|p i l ps H F [I1 I2]]; auto. apply encode_param_iff in H as [H1 H2]. auto.
    - intros [F G]. induction F; constructor; inversion G; subst; auto. apply encode_param_iff. auto. }
  assert (T : forall ps, Forall2 param_item (o_params m) ps -> Forall (fun i => fst i < 256) ps).
  { intros ps F. clear R. revert Ht. induction F as [|p i l ps [H _] F IH]; intros Ht; constructor; inversion Ht; subst; auto. congruence. }
  assert (W : forall ps, Forall2 param_item (o_params m) ps ->
    let n := nlen ps in let values := nlen (concat (map snd ps)) in
    let ext := o_extended m || (255 <? 2 * n + values) in
    let len := (if ext then 3 else 2) * n + values in
    let head := be 1 (o_version m) ++ be 2 (o_asn m) ++ be 2 (o_hold m) ++ be 4 (o_id m) ++ be 1 (if ext then 255 else len) in
    (agg <~ (if ext then _ <~ check_max len 65535 ;; Ok ([255] ++ be 2 len) else Ok []) ;;
      Ok (head ++ agg ++ flat_map (fun p => be 1 (fst p) ++ be (if ext then 2 else 1) (nlen (snd p)) ++ snd p) ps)) = Ok b
    <-> open_written m ps b).
  { intros ps F. cbv zeta. unfold open_written, needs_extended. rewrite !nlen_items.
    change (1 + N.of_nat 1) with 2. change (1 + N.of_nat 2) with 3.
    destruct (o_extended m || (255 <? 2 * nlen ps + nlen (concat (map snd ps)))) eqn:E.
    - unfold check_max. destruct (N.ltb_spec 65535 (3 * nlen ps + nlen (concat (map snd ps)))) as [L|L]; cbn [rbind].
      + split; [discriminate|lia].
      + rewrite items_eq by auto. unfold extended_open, open_head. rewrite nlen_items. change (1 + N.of_nat 2) with 3.
        rewrite (be_1 255) by lia. rewrite <- !app_assoc. cbn [app]. split; [intros H; injection H as <-|intros [_ ->]]; auto.
    - cbn [rbind]. rewrite items_eq by auto. unfold classic_open, open_head. rewrite nlen_items. change (1 + N.of_nat 1) with 2.
      apply Bool.orb_false_iff in E as [_ E]. rewrite (be_1 (2 * _ + _)) by lia. rewrite <- !app_assoc. cbn [app].
      split; [intros H; injection H as <-|intros ->]; auto. }
  split.
  - intros H. apply rbind_inv in H as (ps & H1 & H). apply R in H1 as [H1 H2]. exists ps. split; auto. split; auto.
    apply (W ps H1). exact H.
  - intros (ps & H1 & H2 & H3). rewrite (proj2 (R ps) (conj H1 H2)). cbn [rbind]. apply (W ps H1). exact H3.
Qed.
Lemma param_item_reads p i : param_ok p -> param_item p i -> param_reads i p /\ fst i < 256 /\ bytes_ok (snd i).
Proof.
  destruct p as [t v]. unfold param_ok, param_item, param_reads. destruct i as [t' b]. cbn [op_type op_value fst snd].
  intros (Ht & Hv) (<- & Hi). destruct v as [x|l].
  - destruct Hv as [N2 Hx]. subst b. auto.
  - destruct Hv as [E2 Hl]. destruct Hi as [Hlen ->]. split; [|split; auto].
    + split; auto. split; auto. exists (map cap_item l), []. split; [|split; [cbn; lia|]].
      * rewrite app_nil_r. clear - Hl. induction Hl as [|c l (Hc & _) Hl IH]; cbn [flat_map map]; auto.
        rewrite IH. unfold item_wire, cap_item. cbn [fst snd]. rewrite be_1 by auto. reflexivity.
      * split; clear - Hl Hlen; induction Hl as [|c l (Hc & Hf & Hr) Hl IH]; cbn [map]; constructor; inversion Hlen; subst; auto.
        split; auto. split; [apply encode_cap_ok; auto|exact H1].
    + clear Hlen. apply bytes_ok_flat. intros c Hc. rewrite Forall_forall in Hl. destruct (Hl c Hc) as (_ & Hf & _).
      rewrite !bytes_ok_app. repeat split; auto using be_ok, encode_cap_ok.
Qed.
Lemma Forall2_impl3 {A B} (P : A -> Prop) (R S : A -> B -> Prop) l l' :
  (forall a b, P a -> R a b -> S a b) -> Forall P l -> Forall2 R l l' -> Forall2 S l l'.
Proof. intros H F G. induction G; constructor; inversion F; subst; auto. Qed.
Lemma Forall2_flip' {A B} (R : A -> B -> Prop) l l' : Forall2 R l l' -> Forall2 (fun b a => R a b) l' l.
Proof. induction 1; constructor; auto. Qed.
Lemma item_len_le w (i : raw_item) ps : In i ps -> nlen (snd i) <= nlen (flat_map (item_wire w) ps).
Proof.
  induction ps as [|j ps IH]; intros []; cbn [flat_map]; rewrite nlen_app.
  - subst. unfold nlen at 2. rewrite item_len. unfold nlen, raw_item, bytes. lia.
  - specialize (IH H). lia.
Qed.
Lemma items_fit w ps : Forall (fun i : raw_item => fst i < 256 /\ bytes_ok (snd i)) ps ->
  nlen (flat_map (item_wire w) ps) < 256 ^ N.of_nat w -> Forall (item_ok w) ps.
Proof.
  intros F L. rewrite Forall_forall in *. intros i Hi. destruct (F i Hi). split; auto. split; auto.
  pose proof (item_len_le w i ps Hi). lia.
Qed.
Lemma open_ok_types m : open_ok m -> Forall (fun p => op_type p < 256) (o_params m).
Proof. intros (_ & _ & _ & _ & H). apply Forall_impl with (2 := H). intros p [Hp _]. exact Hp. Qed.
Lemma items_bytes_ok w ps : Forall (item_ok w) ps -> bytes_ok (flat_map (item_wire w) ps).
Proof.
  intros H. apply bytes_ok_flat. intros i Hi. rewrite Forall_forall in H. destruct (H i Hi) as (H1 & H2 & _).
  unfold item_wire. rewrite !bytes_ok_app. repeat split; auto using be_ok. repeat constructor; auto.
Qed.
Lemma open_roundtrip m b : open_ok m -> encode_open m = Ok b ->
  exists ps, Forall2 param_item (o_params m) ps /\ bytes_ok b /\ parse_open b = Ok (set_extended m (needs_extended m ps)).
Proof.
  intros Hm H. apply encode_open_iff in H as (ps & H1 & H2 & H3); [|apply open_ok_types; auto].
  destruct Hm as (V1 & V2 & V3 & V4 & Hp). exists ps. split; auto.
  assert (R : Forall2 (fun p i => param_reads i p /\ fst i < 256 /\ bytes_ok (snd i)) (o_params m) ps).
  { eapply Forall2_impl3; [|exact Hp|exact H1]. apply param_item_reads. }
  assert (R1 : Forall2 param_reads ps (o_params m)).
  { apply Forall2_flip'. clear - R. induction R as [|p i l l' (H & _) R IH]; constructor; auto. }
  assert (R2 : Forall (fun i : raw_item => fst i < 256 /\ bytes_ok (snd i)) ps).
  { clear - R. induction R as [|p i l l' (_ & H) R IH]; constructor; auto. }
  unfold open_written in H3. destruct (needs_extended m ps) eqn:E.
  - destruct H3 as [L ->]. assert (F : Forall (item_ok 2) ps) by (apply items_fit; auto; change (256 ^ N.of_nat 2) with 65536; lia).
    assert (B : bytes_ok (extended_open m ps)).
    { unfold extended_open, open_head. rewrite !bytes_ok_app. repeat split; auto using be_ok, items_bytes_ok. repeat constructor. }
    split; auto. apply parse_open_iff; auto. cbn [set_extended o_version o_asn o_hold o_id o_extended o_params].
    do 4 (split; [assumption|]). exists 255, ([255] ++ be 2 (nlen (flat_map (item_wire 2) ps)) ++ flat_map (item_wire 2) ps).
    split; [lia|]. split; [reflexivity|]. split; [lia|]. destruct ps as [|i ps].
    + left. exists []. inversion R1; subst. auto.
    + right. exists (nlen (flat_map (item_wire 2) (i :: ps))), (i :: ps), []. rewrite app_nil_r. split; auto.
      split; [|split; [discriminate|split; [cbn; lia|auto]]].
      rewrite nlen_items, nlen_cons in *. lia.
  - subst b. unfold needs_extended in E. apply Bool.orb_false_iff in E as [E1 E2].
    assert (F : Forall (item_ok 1) ps) by (apply items_fit; auto; change (256 ^ N.of_nat 1) with 256; lia).
    assert (B : bytes_ok (classic_open m ps)).
    { unfold classic_open, open_head. rewrite !bytes_ok_app. repeat split; auto using be_ok, items_bytes_ok. repeat constructor; lia. }
    split; auto. apply parse_open_iff; auto. cbn [set_extended o_version o_asn o_hold o_id o_extended o_params].
    do 4 (split; [assumption|]). exists (nlen (flat_map (item_wire 1) ps)), (flat_map (item_wire 1) ps).
    split; [lia|]. split; [reflexivity|]. exists ps, []. rewrite app_nil_r. split; auto. split; [cbn; lia|]. split; auto. split; auto.
    clear - H1 H2. destruct H1 as [|p i l ps [H _] F]; auto. destruct i as [t b]. cbn in H. inversion H2; subst. auto.
Qed.
Lemma np_check_max a b : np (check_max a b).
Proof. unfold check_max. destruct (_ <? _); [apply np_err|apply np_ok]. Qed.
Lemma encode_open_np m : np (encode_open m).
Proof.
  unfold encode_open. apply np_rbind.
  - apply np_rmap. intros p _. unfold encode_param. destruct (_ =? 255); [apply np_err|]. apply np_rbind; [|intros; apply np_ok].
    unfold encode_param_value. destruct (op_value p); [apply np_ok|]. apply np_rbind; [|intros; apply np_ok].
    apply np_rmap. intros c _. unfold encode_cap. apply np_rbind; [apply np_put_len|intros; apply np_ok].
  - intros ps _. cbv zeta. destruct (o_extended m || _).
    + apply np_rbind; [|intros; apply np_ok]. apply np_rbind; [apply np_check_max|intros; apply np_ok].
    + cbn [rbind]. apply np_ok.
Qed.

(** * ROUTE-REFRESH and NOTIFICATION *)
Lemma refresh_iff s m : bytes_ok s -> (parse_refresh s = Ok m <->
  rf_afi m < 65536 /\ rf_subtype m < 256 /\ rf_safi m < 256 /\ s = be 2 (rf_afi m) ++ [rf_subtype m; rf_safi m] ++ rf_data m).
Proof.
  intros Hs. unfold parse_refresh. split.
  - intros H. apply run_inv in H as (r & H). apply bind_inv in H as ([] & s0 & H1 & H). apply has_n_inv in H1 as [-> _].
    pstep H. pstep H. pstep H. apply bind_inv in H as (d & s2 & H1 & H). injection H1 as <- <-. apply ret_inv in H as [<- _].
    lits. cbn [rf_afi rf_subtype rf_safi rf_data]. rewrite !be_1 by auto. auto.
  - intros (H1 & H2 & H3 & ->). apply (run_ok _ _ _ (rf_data m)).
    assert (L : 4 <= nlen (be 2 (rf_afi m) ++ [rf_subtype m; rf_safi m] ++ rf_data m)).
    { unfold nlen. rewrite !app_length, be_length. cbn [length]. lia. }
    rewrite (bind_ok _ _ _ _ _ (has_n_ok 4 _ L)). rewrite (bind_ok _ _ _ _ _ (read_u16_be _ _ H1)). cbn [app].
    rewrite (bind_ok _ _ _ _ _ (read_u8_cons _ _)). rewrite (bind_ok _ _ _ _ _ (read_u8_cons _ _)). destruct m; reflexivity.
Qed.
Lemma refresh_np s : np (parse_refresh s).
Proof.
  apply np_run. apply npp_bind; [apply npp_has_n|intros]. repeat (apply npp_bind; [apply npp_read_be|intros]).
  apply npp_bind; [apply npp_peek|intros]. apply npp_ret.
Qed.
Lemma encode_refresh_eq m : rf_subtype m < 256 -> rf_safi m < 256 ->
  encode_refresh m = be 2 (rf_afi m) ++ [rf_subtype m; rf_safi m] ++ rf_data m.
Proof. intros. unfold encode_refresh. rewrite !be_1 by auto. reflexivity. Qed.
Lemma header_error_id n : header_error_code (header_error_of n) = n. Proof. code_cases n; reflexivity. Qed.
Lemma open_error_id n : open_error_code (open_error_of n) = n. Proof. code_cases n; reflexivity. Qed.
Lemma update_error_id n : update_error_code (update_error_of n) = n. Proof. code_cases n; reflexivity. Qed.
Lemma fsm_error_id n : fsm_error_code (fsm_error_of n) = n. Proof. code_cases n; reflexivity. Qed.
Lemma cease_id n : cease_code (cease_of n) = n. Proof. code_cases n; reflexivity. Qed.
Lemma refresh_error_id n : refresh_error_code (refresh_error_of n) = n. Proof. code_cases n; reflexivity. Qed.
Lemma error_codes_of c s : error_codes (error_of c s) = (c, s).
Proof.
  unfold error_of. code_cases c; cbn [error_codes]; rewrite ?header_error_id, ?open_error_id, ?update_error_id, ?fsm_error_id,
    ?cease_id, ?refresh_error_id; reflexivity.
Qed.
Lemma notif_iff s m : bytes_ok s -> (parse_notif s = Ok m <->
  exists c u, c < 256 /\ u < 256 /\ nt_error m = error_of c u /\ s = [c; u] ++ nt_data m).
Proof.
  intros Hs. unfold parse_notif. split.
  - intros H. apply run_inv in H as (r & H). pstep H. pstep H.
    apply bind_inv in H as (d & s2 & H1 & H). injection H1 as <- <-. apply ret_inv in H as [<- _].
    lits. exists a, a0. rewrite !be_1 by auto. auto.
  - intros (c & u & Hc & Hu & He & ->). apply (run_ok _ _ _ (nt_data m)). cbn [app].
    rewrite (bind_ok _ _ _ _ _ (read_u8_cons _ _)). rewrite (bind_ok _ _ _ _ _ (read_u8_cons _ _)). rewrite <- He. destruct m; reflexivity.
Qed.
Lemma notif_np s : np (parse_notif s).
Proof.
  apply np_run. repeat (apply npp_bind; [apply npp_read_be|intros]). apply npp_bind; [apply npp_peek|intros]. apply npp_ret.
Qed.

(** * UPDATE *)
Lemma read_nlri_iff s ap l : read_nlri s ap = Ok l <-> parse_nlri_list s ap AIpv4 = Ok l.
Proof.
  destruct s as [|b [|c s]]; cbn [read_nlri]; [reflexivity| |reflexivity]. destruct (N.eqb_spec b 0) as [E|E]; [reflexivity|].
  split; [discriminate|]. intros H. exfalso. unfold parse_nlri_list in H. cbn [length nlri_loop] in H.
  assert (R : forall p r, read_nlri_prefix AIpv4 ap [b] <> Ok (p, r)).
  { intros p r. unfold read_nlri_prefix. destruct ap.
    - intros X. apply bind_inv in X as (i & s' & H1 & _). apply bind_inv in H1 as (j & s'' & H1 & _).
      rewrite read_be_short in H1 by (cbn; lia). discriminate.
    - intros X. apply bind_inv in X as (i & s' & H1 & X). injection H1 as <- <-.
      rewrite (bind_ok _ _ _ _ _ (read_u8_cons b [])) in X. cbv zeta in X.
      destruct (32 <? b); [discriminate|]. destruct (4 <? byte_len b); [discriminate|]. apply bind_inv in X as (d & s' & H1 & _). apply read_n_bytes_inv in H1 as [H1 H2].
      destruct d; [|discriminate]. unfold byte_len, nlen in H2. cbn in H2. lia. }
  replace (b =? 0) with false in H by lia. rewrite Bool.andb_false_r, Bool.orb_false_r in H.
  destruct (read_nlri_prefix AIpv4 ap [b]) as [[p r]| |] eqn:X; [elim (R p r); auto|discriminate|discriminate].
Qed.
Lemma read_nlri_np s ap : np (read_nlri s ap).
Proof.
  destruct s as [|b [|c s]]; cbn [read_nlri]; [apply np_ok| |apply parse_nlri_list_np].
  destruct (b =? 0); [apply parse_nlri_list_np|apply np_err].
Qed.
Lemma nlri_section_spec an ap s : exists ws, nlri_section an ap s = Ok (routes_of ap s, ws) /\ section_warnings an ap s ws.
Proof.
  unfold nlri_section, routes_of, section_warnings, malformed. pose proof (read_nlri_iff s ap) as I. pose proof (read_nlri_np s ap) as Np.
  destruct (read_nlri s ap) as [l|e|] eqn:E; [| |elim (Np eq_refl)].
  - pose proof (proj1 (I l) eq_refl) as P. rewrite P. exists []. split; auto. left. eauto.
  - exists [WMalformedNlri an e s]. assert (M : forall l, parse_nlri_list s ap AIpv4 <> Ok l).
    { intros l Hl. apply I in Hl. discriminate. }
    split; [|right; split; eauto]. destruct (parse_nlri_list s ap AIpv4) as [l| |] eqn:X; auto. elim (M l); auto.
Qed.
Lemma fold_warn ws : forall A, at_inner (fold_left add_warning ws A) = at_inner A /\
  at_warnings (fold_left add_warning ws A) = at_warnings A ++ ws /\ at_mask (fold_left add_warning ws A) = at_mask A.
Proof.
  induction ws as [|w ws IH]; intros A; cbn [fold_left]; [rewrite app_nil_r; auto|].
  destruct (IH (add_warning A w)) as (H1 & H2 & H3). rewrite H1, H2, H3. cbn. rewrite <- app_assoc. auto.
Qed.
Lemma check_mandatory_same A x y : at_inner (check_mandatory A x y) = at_inner A /\ at_mask (check_mandatory A x y) = at_mask A.
Proof. unfold check_mandatory. destruct (negb x); auto. Qed.
Lemma parse_update_eq ap al w a n : nlen w < 65536 -> nlen a < 65536 ->
  parse_update ap al (update_sections w a n) =
  rbind (nlri_section false ap w) (fun '(wd, ww) =>
  rbind (parse_attributes (update_cfg ap al) a) (fun A =>
  rbind (nlri_section true ap n) (fun '(an, aw) =>
  Ok (Update wd (fold_left add_warning (ww ++ aw) (check_mandatory A (nonempty n || has_attr A 14) (nonempty n))) an)))).
Proof.
  intros Hw Ha. unfold parse_update, update_sections, run.
  rewrite (bind_ok _ _ _ _ _ (read_u16_be (nlen w) _ Hw)).
  assert (L : nlen w <= nlen (w ++ be 2 (nlen a) ++ a ++ n)) by (rewrite nlen_app; lia).
  rewrite (bind_ok _ _ _ _ _ (has_n_ok _ _ L)). rewrite to_nat_nlen.
  rewrite (bind_ok _ _ _ _ _ (split_to_app (length w) w _ eq_refl)).
  destruct (nlri_section false ap w) as [[wd ww]|e|]; [|reflexivity|reflexivity]. cbn [rbind].
  rewrite (bind_ok (lift (Ok (wd, ww))) _ _ _ _ eq_refl).
  rewrite (bind_ok _ _ _ _ _ (read_u16_be (nlen a) _ Ha)).
  assert (L2 : nlen a <= nlen (a ++ n)) by (rewrite nlen_app; lia).
  rewrite (bind_ok _ _ _ _ _ (has_n_ok _ _ L2)). rewrite to_nat_nlen.
  rewrite (bind_ok _ _ _ _ _ (split_to_app (length a) a _ eq_refl)).
  unfold update_cfg. destruct (parse_attributes (ACfg al ap None None None) a) as [A|e|]; [|reflexivity|reflexivity]. cbn [rbind].
  rewrite (bind_ok (lift (Ok A)) _ _ _ _ eq_refl). rewrite (bind_ok peek _ _ _ _ eq_refl).
  destruct (nlri_section true ap n) as [[an aw]|e|]; reflexivity.
Qed.
Lemma parse_update_ok ap al w a n A : nlen w < 65536 -> nlen a < 65536 -> parse_attributes (update_cfg ap al) a = Ok A ->
  exists m, parse_update ap al (update_sections w a n) = Ok m /\ update_reads ap A w n m.
Proof.
  intros Hw Ha HA. rewrite parse_update_eq by auto. destruct (nlri_section_spec false ap w) as (ww & -> & Sw).
  destruct (nlri_section_spec true ap n) as (wn & -> & Sn). cbn [rbind]. rewrite HA. cbn [rbind]. eexists. split; [reflexivity|].
  set (B := check_mandatory _ _ _). destruct (fold_warn (ww ++ wn) B) as (F1 & F2 & F3).
  destruct (check_mandatory_same A (nonempty n || has_attr A 14) (nonempty n)) as [C1 C2].
  unfold update_reads, has_attr in *. cbn [u_withdrawn u_announced u_attrs]. rewrite F1, F2, F3. unfold B. rewrite C1, C2. eauto 10.
Qed.
Lemma update_frame_inv ap al s m : bytes_ok s -> parse_update ap al s = Ok m ->
  exists w a n, s = update_sections w a n /\ nlen w < 65536 /\ nlen a < 65536.
Proof.
  intros Hs H. unfold parse_update in H. apply run_inv in H as (r & H). pstep H.
  apply bind_inv in H as ([] & q0 & H1 & H). apply has_n_inv in H1 as [-> Hl].
  apply bind_inv in H as (w & q1 & H1 & H). apply split_to_inv in H1 as [-> Hw].
  apply bind_inv in H as ([wd ww] & q2 & H1 & H). apply lift_inv in H1 as [_ <-].
  apply bytes_ok_app in Ho as [_ Ho]. pstep H.
  apply bind_inv in H as ([] & q3 & H1 & H). apply has_n_inv in H1 as [-> Hl2].
  apply bind_inv in H as (x & q4 & H1 & H). apply split_to_inv in H1 as [-> Hx]. lits.
  exists w, x, q4. unfold update_sections. assert (nlen w = a) by (unfold nlen; lia). assert (nlen x = a0) by (unfold nlen; lia).
  rewrite H0, H1. auto.
Qed.
Lemma parse_update_inv ap al s m : bytes_ok s -> parse_update ap al s = Ok m ->
  exists w a n A, s = update_sections w a n /\ nlen w < 65536 /\ nlen a < 65536 /\
    parse_attributes (update_cfg ap al) a = Ok A /\ update_reads ap A w n m.
Proof.
  intros Hs H. destruct (update_frame_inv _ _ _ _ Hs H) as (w & a & n & -> & Hw & Ha).
  destruct (parse_attributes (update_cfg ap al) a) as [A|e|] eqn:EA.
  - exists w, a, n, A. destruct (parse_update_ok ap al w a n A Hw Ha EA) as (m' & H1 & H2).
    assert (m' = m) by congruence. subst. auto.
  - rewrite parse_update_eq in H by auto. rewrite EA in H. destruct (nlri_section false ap w) as [[? ?]| |]; discriminate.
  - rewrite parse_update_eq in H by auto. rewrite EA in H. destruct (nlri_section false ap w) as [[? ?]| |]; discriminate.
Qed.
Lemma nlri_section_np an ap s : np (nlri_section an ap s).
Proof. destruct (nlri_section_spec an ap s) as (ws & -> & _). apply np_ok. Qed.
Lemma parse_update_np ap al s : np (parse_update ap al s).
Proof.
  apply np_run. apply np_bind; [apply npp_read_be|]. intros n s1 _. apply np_bind; [apply npp_has_n|].
  intros [] s2 H. apply has_n_inv in H as [-> H]. apply np_bind; [apply np_split_to; unfold nlen in H; lia|]. intros w s3 _.
  apply npp_bind; [apply npp_lift, nlri_section_np|]. intros [wd ww]. intros s4.
  apply np_bind; [apply npp_read_be|]. intros k s5 _. apply np_bind; [apply npp_has_n|].
  intros [] s6 H'. apply has_n_inv in H' as [-> H']. apply np_bind; [apply np_split_to; unfold nlen in H'; lia|]. intros x s7 _.
  apply npp_bind; [apply npp_lift, parse_attributes_np|]. intros A. apply npp_bind; [apply npp_peek|]. intros r.
  apply npp_bind; [apply npp_lift, nlri_section_np|]. intros [an aw]. apply npp_ret.
Qed.
Lemma encode_update_iff al m b : encode_update al m = Ok b <->
  exists a, encode_attributes al (at_inner (u_attrs m)) = Ok a /\ nlen (encode_nlri_prefixes (u_withdrawn m)) < 65536 /\ nlen a < 65536 /\
    b = update_sections (encode_nlri_prefixes (u_withdrawn m)) a (encode_nlri_prefixes (u_announced m)).
Proof.
  unfold encode_update, with_len, update_sections. split.
  - intros H. apply rbind_inv in H as (w & H1 & H). apply put_len_slice_inv in H1 as [H1 ->].
    apply rbind_inv in H as (x & H2 & H). apply rbind_inv in H2 as (a & H2 & H3). apply put_len_slice_inv in H3 as [H3 ->].
    exists a. split; auto. split; auto. split; auto. rewrite <- !app_assoc in H. congruence.
  - intros (a & H1 & H2 & H3 & ->). rewrite put_len_slice_ok by auto. cbn [rbind]. rewrite H1. cbn [rbind].
    rewrite put_len_slice_ok by auto. cbn [rbind]. rewrite <- !app_assoc. reflexivity.
Qed.
Lemma canonical_parse ap l : canonical_routes ap AIpv4 l -> routes_of ap (encode_nlri_prefixes l) = l.
Proof.
  intros ((H1 & H2 & H3 & H4) & H5). unfold routes_of. rewrite parse_encode_nlri by auto. apply map_sem_exact. auto.
Qed.
Lemma update_roundtrip ap al m b : update_ok ap al m -> encode_update al m = Ok b ->
  exists m', parse_update ap al b = Ok m' /\ u_withdrawn m' = u_withdrawn m /\ u_announced m' = u_announced m /\
    at_inner (u_attrs m') = at_inner (u_attrs m).
Proof.
  intros (Hw & Hn & Ha) H. apply encode_update_iff in H as (a & H1 & H2 & H3 & ->).
  destruct (attributes_roundtrip (update_cfg ap al) _ Ha) as (a' & rs & E1 & _ & _ & A & E2 & E3). cbn [update_cfg ac_asn] in E1.
  assert (a' = a) by congruence. subst a'.
  destruct (parse_update_ok ap al _ a (encode_nlri_prefixes (u_announced m)) A H2 H3 E2) as (m' & E4 & (U1 & U2 & U3 & _)).
  exists m'. split; auto. rewrite U1, U2, U3, !canonical_parse by auto. auto.
Qed.

(** * Framing *)
Lemma parse_body_np ap al t d : np (parse_body ap al t d).
Proof.
  assert (O := parse_open_np d). assert (U := parse_update_np ap al d). assert (Nt := notif_np d). assert (R := refresh_np d).
  unfold parse_body. code_cases t; try apply np_ok; apply np_rbind; auto; intros; apply np_ok.
Qed.
Lemma message_np ap al : npp (parse_bgp_message ap al).
Proof.
  intros s. unfold parse_bgp_message. apply np_bind; [apply npp_has_n|]. intros [] s1 H. apply has_n_inv in H as [-> H].
  apply np_bind; [apply npp_has_n|]. intros [] s2 H'. apply has_n_inv in H' as [-> H'].
  apply np_bind; [apply np_split_to; unfold nlen in H; lia|]. intros mk s3 _. apply np_bind; [apply npp_read_be|]. intros len s4 _.
  destruct (len <? 19); [apply npp_fail|]. apply np_bind; [apply npp_read_be|]. intros t s5 _.
  destruct ((t <? 1) || (5 <? t)); [apply npp_fail|]. destruct (((t =? 1) || (t =? 4)) && (4096 <? len)); [apply npp_fail|].
  apply np_bind; [apply npp_has_n|]. intros [] s6 H6. apply has_n_inv in H6 as [-> H6].
  apply np_bind; [apply np_split_to; unfold nlen in H6 at 3; lia|]. intros d s7 _. apply npp_lift, parse_body_np.
Qed.
Lemma header_len mk len t : length mk = 16%nat -> length (header_wire mk len t) = 19%nat.
Proof. intros H. unfold header_wire. rewrite !app_length, be_length, H. reflexivity. Qed.
Lemma frame_eq ap al mk len t body r : length mk = 16%nat -> 19 <= len < 65536 -> 1 <= t <= 5 ->
  ((t = 1 \/ t = 4) -> len <= 4096) -> takes len body r ->
  parse_bgp_message ap al (header_wire mk len t ++ body ++ r) = (m <~ parse_body ap al t body ;; Ok (m, r)).
Proof.
  intros Hm Hl Ht Hc Hb. unfold parse_bgp_message. cbv zeta.
  set (s := header_wire mk len t ++ body ++ r).
  assert (L : nlen s = 19 + nlen body + nlen r).
  { unfold s, nlen. rewrite !app_length, header_len by auto. lia. }
  assert (L19 : 19 <= nlen s) by lia. assert (L16 : 16 <= nlen s) by lia.
  rewrite (bind_ok _ _ _ _ _ (has_n_ok 19 s L19)), (bind_ok _ _ _ _ _ (has_n_ok 16 s L16)). clear L19 L16.
  assert (N1 : (if nlen s <? len then nlen s else len) - 19 = nlen body).
  { destruct (N.ltb_spec (nlen s) len) as [X|X]; destruct Hb as [Hb|[Hb ->]]; rewrite ?nlen_nil in *; lia. }
  generalize dependent (nlen s). intros total _ N1. unfold s, header_wire. rewrite <- !app_assoc.
  rewrite (bind_ok _ _ _ _ _ (split_to_app 16 mk _ Hm)). rewrite (bind_ok _ _ _ _ _ (read_u16_be len _ (proj2 Hl))).
  replace (len <? 19) with false by lia. rewrite N1. cbn [app]. rewrite (bind_ok _ _ _ _ _ (read_u8_cons t _)).
  replace ((t <? 1) || (5 <? t)) with false by lia. replace (((t =? 1) || (t =? 4)) && (4096 <? len)) with false by lia.
  assert (L2 : nlen body <= nlen (body ++ r)) by (rewrite nlen_app; lia).
  rewrite (bind_ok _ _ _ _ _ (has_n_ok _ _ L2)). rewrite to_nat_nlen.
  rewrite (bind_ok _ _ _ _ _ (split_to_app (length body) body r eq_refl)). reflexivity.
Qed.
Lemma frame_inv ap al s m r : bytes_ok s -> parse_bgp_message ap al s = Ok (m, r) ->
  exists mk len t body, s = header_wire mk len t ++ body ++ r /\ length mk = 16%nat /\ 19 <= len < 65536 /\ 1 <= t <= 5 /\
    ((t = 1 \/ t = 4) -> len <= 4096) /\ takes len body r /\ parse_body ap al t body = Ok m.
Proof.
  intros Hs H. unfold parse_bgp_message in H. cbv zeta in H.
  apply bind_inv in H as ([] & s0 & H1 & H). apply has_n_inv in H1 as [-> L1].
  apply bind_inv in H as ([] & s0 & H1 & H). apply has_n_inv in H1 as [-> _].
  apply bind_inv in H as (mk & s1 & H1 & H). apply split_to_inv in H1 as [E1 Hm].
  assert (Hs1 : bytes_ok s1) by (rewrite E1 in Hs; apply bytes_ok_app in Hs; tauto).
  apply bind_inv in H as (len & s2 & H1 & H). apply read_be_inv_ok in H1 as (-> & Hlen & Hs2); auto.
  destruct (N.ltb_spec len 19) as [|Hlen2]; [discriminate|].
  apply bind_inv in H as (t & s3 & H1 & H). apply read_be_inv_ok in H1 as (-> & Ht & Hs3); auto.
  destruct ((t <? 1) || (5 <? t)) eqn:T; [discriminate|].
  destruct (((t =? 1) || (t =? 4)) && (4096 <? len)) eqn:C; [discriminate|].
  apply bind_inv in H as ([] & s0 & H1 & H). apply has_n_inv in H1 as [-> L2].
  apply bind_inv in H as (d & s4 & H1 & H). apply split_to_inv in H1 as [-> Hd]. apply lift_inv in H as [HB <-]. lits.
  exists mk, len, t, d. rewrite be_1 in E1 by auto. unfold header_wire. rewrite <- !app_assoc. split; auto.
  split; auto. split; auto. split; [lia|]. split; [lia|]. split; auto. unfold takes.
  assert (L : nlen s = 19 + nlen d + nlen s4).
  { rewrite E1. unfold nlen. rewrite !app_length, be_length, Hm. cbn [length]. lia. }
  clear L1 L2 E1. assert (Hd' : nlen d = (if nlen s <? len then nlen s else len) - 19) by (unfold nlen at 1; rewrite Hd; lia).
  clear Hd. revert Hd'. destruct (N.ltb_spec (nlen s) len) as [X|X]; intros Hd'; [right|left; auto]. split; [lia|].
  destruct s4; auto. rewrite nlen_cons in L. lia.
Qed.
Lemma msg_type_range m : 1 <= msg_type m <= 5. Proof. destruct m; cbn; lia. Qed.
Lemma encode_message_iff al m b : encode_bgp_message al m = Ok b <->
  exists body, encode_body al m = Ok body /\ nlen body + 19 <= 65535 /\
    b = header_wire (repeat 255 16) (nlen body + 19) (msg_type m) ++ body.
Proof.
  unfold encode_bgp_message, check_max, header_wire. pose proof (msg_type_range m). split.
  - intros H0. apply rbind_inv in H0 as (body & H1 & H0). exists body. split; auto.
    destruct (N.ltb_spec 65535 (nlen body + 19)); [discriminate|]. cbn [rbind] in H0. split; auto.
    rewrite be_1 in H0 by lia. rewrite <- !app_assoc. congruence.
  - intros (body & H1 & H2 & ->). rewrite H1. cbn [rbind]. destruct (N.ltb_spec 65535 (nlen body + 19)); [lia|]. cbn [rbind].
    rewrite be_1 by lia. rewrite <- !app_assoc. reflexivity.
Qed.
Lemma body_roundtrip ap al m b : message_ok ap al m -> encode_body al m = Ok b ->
  exists m', parse_body ap al (msg_type m) b = Ok m' /\ same_message m m'.
Proof.
  destruct m as [o|u|n| |f]; cbn [message_ok encode_body msg_type parse_body].
  - intros H E. destruct (open_roundtrip o b H E) as (ps & _ & _ & R). rewrite R. cbn [rbind]. eexists. split; [reflexivity|].
    cbn. repeat split; auto. unfold needs_extended. intros ->. reflexivity.
  - intros H E. destruct (update_roundtrip ap al u b H E) as (m' & R & U1 & U2 & U3). rewrite R. cbn [rbind]. eexists.
    split; [reflexivity|]. cbn. auto.
  - intros [(c & s & Hc & Hs & He) Hd] E. injection E as <-. unfold encode_notif. rewrite He, error_codes_of. cbn [fst snd].
    rewrite !be_1 by auto. cbn [app]. exists (MNotif n). split; [|reflexivity].
    assert (B : bytes_ok (c :: s :: nt_data n)) by (repeat constructor; auto).
    rewrite (proj2 (notif_iff _ n B)); [reflexivity|]. exists c, s. auto.
  - intros _ E. injection E as <-. exists MKeepAlive. split; reflexivity.
  - intros (H1 & H2 & H3 & H4) E. injection E as <-. exists (MRefresh f). split; [|reflexivity].
    rewrite encode_refresh_eq by auto.
    assert (B : bytes_ok (be 2 (rf_afi f) ++ [rf_subtype f; rf_safi f] ++ rf_data f)).
    { rewrite !bytes_ok_app. split; [apply be_ok|]. split; auto. repeat constructor; auto. }
    rewrite (proj2 (refresh_iff _ f B)); [reflexivity|]. auto.
Qed.
Lemma message_roundtrip ap al m b r : message_ok ap al m -> encode_bgp_message al m = Ok b ->
  (msg_type m = 1 -> nlen b <= 4096) ->
  exists m', parse_bgp_message ap al (b ++ r) = Ok (m', r) /\ same_message m m'.
Proof.
  intros H E L. apply encode_message_iff in E as (body & E & Hl & ->).
  destruct (body_roundtrip ap al m body H E) as (m' & P & S). exists m'. split; auto.
  rewrite <- app_assoc. rewrite frame_eq.
  - rewrite P. reflexivity.
  - reflexivity.
  - lia.
  - apply msg_type_range.
  - assert (X : nlen (header_wire (repeat 255 16) (nlen body + 19) (msg_type m) ++ body) = 19 + nlen body).
    { unfold nlen. rewrite app_length, header_len by reflexivity. lia. }
    rewrite X in L. intros [T|T]; [specialize (L T); lia|]. destruct m; try discriminate. injection E as <-. cbn. lia.
  - left. lia.
Qed.

(** * End-of-RIB *)
Lemma eor_iff m : is_end_of_rib m = true <-> u_announced m = [] /\ u_withdrawn m = [] /\
  (at_inner (u_attrs m) = [] \/ exists a n, at_inner (u_attrs m) = [a] /\ a_value a = AMpUnreach n /\ nl_prefixes n = []).
Proof.
  unfold is_end_of_rib. destruct (u_announced m) as [|? ?]; [|split; [discriminate|intros (? & _); discriminate]].
  destruct (u_withdrawn m) as [|? ?]; [|split; [discriminate|intros (_ & ? & _); discriminate]].
  destruct (at_inner (u_attrs m)) as [|a [|? ?]]; [split; auto| |].
  - split.
    + destruct (a_value a) eqn:E; try discriminate. destruct (nl_prefixes n) eqn:E2; [|discriminate]. intros _.
      split; auto. split; auto. right. exists a, n. auto.
    + intros (_ & _ & [X|(a' & n & X & E & E2)]); [discriminate|]. injection X as <-. rewrite E, E2. reflexivity.
  - split; [discriminate|]. intros (_ & _ & [X|(a' & n & X & _)]); discriminate.
Qed.
Lemma unreach_empty a sf ap : a <> ALinkState -> exists n, parse_nlri (unreach_wire a sf []) None None None false ap = Ok n /\
  nl_prefixes n = [] /\ nl_afi n = a /\ nl_safi n = sf.
Proof.
  intros Ha. destruct (safi_eqb sf SMplsLabel) eqn:E.
  - assert (sf = SMplsLabel) as -> by (destruct sf; cbn in E; congruence). eexists. split.
    + apply (parse_labeled_unreach a [] ap [0; 0; 0] Ha eq_refl); constructor.
    + auto.
  - assert (N1 : sf <> SMplsLabel) by (intros ->; discriminate). eexists. split.
    + apply (parse_plain_unreach a sf [] ap Ha N1). repeat split; repeat constructor.
    + auto.
Qed.
Lemma eor_family ap al f a sf : f < 256 -> a <> ALinkState ->
  exists m n, parse_update ap al (update_sections [] (attr_wire (RawAttr f 15 (unreach_wire a sf []))) []) = Ok m /\
    at_inner (u_attrs m) = [Attr (AMpUnreach n) f] /\ nl_afi n = a /\ nl_safi n = sf /\ is_end_of_rib m = true.
Proof.
  intros Hf Ha. destruct (unreach_empty a sf ap Ha) as (n & Hn & E1 & E2 & E3).
  set (r := RawAttr f 15 (unreach_wire a sf [])).
  assert (Lr : nlen (r_value r) = 3) by (unfold r, unreach_wire, nlen; cbn [r_value]; rewrite !app_length, !be_length; reflexivity).
  assert (Hr : raw_ok r).
  { split; [exact Hf|]. split; [cbn; lia|]. split.
    - unfold r, unreach_wire. cbn [r_value]. rewrite !bytes_ok_app. repeat split; auto using be_ok. constructor.
    - rewrite Lr. unfold length_width. destruct (extended _); reflexivity. }
  assert (P : parse_attributes (update_cfg ap al) (attr_wire r) =
    Ok (Attrs [Attr (AMpUnreach n) f] (ws_of (update_cfg ap al) 0 [r] (EndShort [])) (mask_of 0 (headers [r] (EndShort []))))).
  { rewrite <- (app_nil_r (attr_wire r)). pose proof (parse_block (update_cfg ap al) [r] (EndShort [])) as B.
    cbn [flat_map map end_wire] in B. rewrite app_nil_r in B. rewrite B; [|apply raw_ok_fit; apply Forall_cons; [exact Hr|apply Forall_nil]|split; [cbn; lia|constructor]|intros []].
    do 2 f_equal. f_equal. destruct (attr_out_spec (update_cfg ap al) r) as (F1 & F2 & F3 & _); [apply Hr|].
    destruct (fst (attr_out (update_cfg ap al) r)) as [v fl]. cbn [a_flag a_value] in *. subst fl. f_equal.
    assert (V : parse_attr_value (update_cfg ap al) (r_code r) (r_value r) = Ok (AMpUnreach n)).
    { change (res_map AMpUnreach (parse_nlri (unreach_wire a sf []) None None None false ap) = Ok (AMpUnreach n)). rewrite Hn. reflexivity. }
    destruct F3 as [D|D|D1 D2 D3|v D E|e D E]; try congruence.
    - apply mem_In in D. discriminate.
    - apply mem_In in D. discriminate.
    - elim D3. apply mem_In. reflexivity. }
  assert (La : nlen (attr_wire r) < 65536).
  { unfold attr_wire, nlen. rewrite app_length, header_wire_length. unfold nlen in Lr.
    assert (length_width (r_flag r) <= 2)%nat by (unfold length_width; destruct (extended _); lia). lia. }
  destruct (parse_update_ok ap al [] (attr_wire r) [] _ ltac:(cbn; lia) La P) as (m & H1 & (U1 & U2 & U3 & _)).
  cbn [at_inner] in U3. exists m, n. split; auto. split; auto. split; auto. split; auto. apply eor_iff. split; [rewrite U2; reflexivity|].
  split; [rewrite U1; reflexivity|]. right. exists (Attr (AMpUnreach n) f), n. auto.
Qed.
Lemma routes_nil ap s : bytes_ok s -> ~ malformed ap s -> routes_of ap s = [] -> s = [].
Proof.
  intros Hs M R. unfold routes_of, malformed in *. destruct (parse_nlri_list s ap AIpv4) as [l|e|] eqn:E.
  - subst l. apply nlri_loop_inv in E as (-> & _); auto. discriminate.
  - elim M. congruence.
  - elim M. congruence.
Qed.
Lemma eor_wire ap al s m : bytes_ok s -> parse_update ap al s = Ok m -> is_end_of_rib m = true ->
  exists w a n A, s = update_sections w a n /\ parse_attributes (update_cfg ap al) a = Ok A /\
    (malformed ap w \/ w = []) /\ (malformed ap n \/ n = []) /\
    (at_inner A = [] \/ exists x l, at_inner A = [x] /\ a_value x = AMpUnreach l /\ nl_prefixes l = []).
Proof.
  intros Hs H E. destruct (parse_update_inv _ _ _ _ Hs H) as (w & a & n & A & -> & Hw & Ha & HA & (U1 & U2 & U3 & _)).
  apply eor_iff in E as (E1 & E2 & E3). exists w, a, n, A. split; auto. split; auto.
  unfold update_sections in Hs. rewrite !bytes_ok_app in Hs. destruct Hs as (_ & Hs1 & _ & _ & Hs2).
  assert (D : forall s, malformed ap s \/ ~ malformed ap s).
  { intros s. unfold malformed. destruct (parse_nlri_list s ap AIpv4) as [l| |]; [right; intros X; elim (X l); auto|left; congruence|left; congruence]. }
  split; [destruct (D w); auto; right; apply (routes_nil ap); auto; congruence|].
  split; [destruct (D n); auto; right; apply (routes_nil ap); auto; congruence|]. rewrite <- U3. exact E3.
Qed.
