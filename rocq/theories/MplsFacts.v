(** Proofs about labelled NLRI. *)
From Coq Require Import ZifyBool ZifyNat ZifyN Lia.
From Verif Require Import Base BaseFacts Reader ReaderFacts Net NetSpec NetFacts Tac Mpls MplsSpec.
Ltac Zify.zify_post_hook ::= Z.div_mod_to_equations.

(** * Guards *)
Lemma need_ok n e s : (n <= length s)%nat -> need n e s = Ok (tt, s).
Proof. unfold need. intros. destruct (Nat.ltb_spec (length s) n); auto; lia. Qed.
Lemma need_short n e s : (length s < n)%nat -> need n e s = Err e.
Proof. unfold need. intros. destruct (Nat.ltb_spec (length s) n); auto; lia. Qed.
Lemma need_inv n e s u r : need n e s = Ok (u, r) -> r = s /\ (n <= length s)%nat.
Proof. unfold need. intros H. destruct (Nat.ltb_spec (length s) n); inv H. split; auto. Qed.
Lemma npp_need n e : npp (need n e).
Proof. intros s. unfold need, np. destruct (_ <? _)%nat; discriminate. Qed.
Lemma np_need_bind {A} n e (k : P A) s : ((n <= length s)%nat -> np (k s)) -> np ((need n e ;;; k) s).
Proof.
  intros H. unfold bind, need. destruct (Nat.ltb_spec (length s) n); [discriminate|]. apply H; auto.
Qed.

(** * Labels *)
Lemma label_encode_wire l b : l < 2 ^ 20 -> label_encode l b = entry_wire l b.
Proof.
  intros H. unfold label_encode, entry_wire. f_equal.
  rewrite N.shiftl_mul_pow2. change (2 ^ 4) with 16. unfold u32. rewrite N.mod_small by lia.
  destruct b; [|rewrite N.lor_0_r; lia].
  assert (E : N.land (l * 16) 1 = 0) by (change 1 with (N.ones 1); rewrite N.land_ones; change (2 ^ 1) with 2; lia).
  rewrite <- N.lxor_lor, <- N.add_nocarry_lxor by auto. reflexivity.
Qed.
Lemma label_decode_raw raw : raw < 2 ^ 24 -> label_decode raw = (raw / 16, raw mod 2 =? 1).
Proof.
  intros H. unfold label_decode, label_masked, MAX_LABEL.
  change 0xFFFFF with (N.ones 20). rewrite N.land_ones, N.shiftr_div_pow2.
  change (2 ^ 4) with 16. rewrite N.mod_small by (change (2 ^ 20) with 1048576; lia).
  f_equal. change 1 with (N.ones 1) at 1. rewrite N.land_ones. change (2 ^ 1) with 2.
  destruct (N.eqb_spec (raw mod 2) 0), (N.eqb_spec (raw mod 2) 1); auto; lia.
Qed.
Lemma label_decode_bound raw l b : raw < 2 ^ 24 -> label_decode raw = (l, b) -> l < 2 ^ 20.
Proof. intros H. rewrite label_decode_raw by auto. intros E; inv E. lia. Qed.
Lemma label_decode_wire l (b : bool) : l < 2 ^ 20 ->
  label_decode (l * 16 + (if b then 1 else 0)) = (l, b).
Proof.
  intros H. rewrite label_decode_raw by (destruct b; lia). f_equal. destruct b; lia.
  destruct b; match goal with |- (?a =? 1) = ?b => destruct (N.eqb_spec a 1) end; auto; lia.
Qed.
Lemma encode_stack_wire ls : ls <> [] -> Forall (fun l => l < 2 ^ 20) ls ->
  encode_stack ls = stack_wire ls.
Proof.
  intros Hn H. unfold stack_wire. induction H as [|l ls Hl H IH]; [congruence|].
  destruct ls as [|l' ls]; [apply label_encode_wire; auto|].
  cbn [encode_stack removelast flat_map last]. rewrite <- app_assoc.
  f_equal; [apply label_encode_wire; auto|]. apply IH. discriminate.
Qed.
Lemma entry_wire_length l b : length (entry_wire l b) = 3%nat.
Proof. apply be_length. Qed.
Lemma encode_stack_length ls : length (encode_stack ls) = (3 * length ls)%nat.
Proof.
  induction ls as [|l ls IH]; auto. destruct ls as [|l' ls]; [apply be_length|].
  cbn [encode_stack] in *. rewrite app_length, IH. unfold label_encode. rewrite be_length. cbn [length]. lia.
Qed.
Lemma get_be_be k n r : n < 256 ^ N.of_nat k -> get_be k (be k n ++ r) = Ok (n, r).
Proof. intros. rewrite get_be_app by apply be_length. rewrite be_val_be_small; auto. Qed.

Lemma read_stack_enc ls : forall fuel mx peer cnt r,
  ls <> [] -> Forall (fun l => l < 2 ^ 20) ls ->
  cnt + nlen ls <= mx -> (forall p, peer = Some p -> cnt + nlen ls <= p) ->
  (length ls <= fuel)%nat ->
  read_stack fuel mx peer cnt (encode_stack ls ++ r) = Ok (ls, r).
Proof.
  induction ls as [|l ls IH]; intros fuel mx peer cnt r Hn Hok Hmx Hp Hf; [congruence|].
  inversion Hok as [|? ? Hl Hls]; subst. rewrite nlen_cons in *.
  destruct fuel as [|fuel]; [simpl in Hf; lia|].
  assert (G :
    read_stack (S fuel) mx peer cnt (encode_stack (l :: ls) ++ r) = 
    ('(raw, s') <~ get_be 3 (encode_stack (l :: ls) ++ r) ;;
    let '(l, bos) := label_decode raw in
    if (bos : bool) then Ok ([l], s')
    else '(ls, s'') <~ read_stack fuel mx peer (cnt + 1) s' ;; Ok (l :: ls, s''))).
  { cbn [read_stack].
    destruct (N.leb_spec mx cnt); [lia|].
    assert (E : match peer with Some p => p <=? cnt | None => false end = false).
    { destruct peer as [p|]; auto. specialize (Hp p eq_refl). apply N.leb_gt. lia. }
    rewrite E. destruct (Nat.ltb_spec (length (encode_stack (l :: ls) ++ r)) 3); auto.
    rewrite app_length, encode_stack_length in H0. cbn [length] in H0. lia. }
  rewrite G. clear G. destruct ls as [|l' ls].
  - cbn [encode_stack]. rewrite label_encode_wire by auto. unfold entry_wire.
    rewrite get_be_be by (change (256 ^ N.of_nat 3) with 16777216; lia). cbn [rbind].
    pose proof (label_decode_wire l true Hl) as E. cbn [N.add] in E. rewrite E. reflexivity.
  - replace (encode_stack (l :: l' :: ls)) with (label_encode l false ++ encode_stack (l' :: ls)) by reflexivity.
    rewrite label_encode_wire by auto. unfold entry_wire. rewrite <- app_assoc.
    rewrite get_be_be by (change (256 ^ N.of_nat 3) with 16777216; lia). cbn [rbind].
    pose proof (label_decode_wire l false Hl) as E. rewrite E.
    rewrite IH; auto; [discriminate|lia| |simpl in *; lia].
    intros p Ep. specialize (Hp p Ep). lia.
Qed.
(** A stack deeper than the limits is refused. *)
Lemma read_stack_deep ls : forall fuel mx peer cnt r,
  Forall (fun l => l < 2 ^ 20) ls ->
  cnt <= mx -> (forall p, peer = Some p -> cnt <= p) ->
  (mx < cnt + nlen ls \/ exists p, peer = Some p /\ p < cnt + nlen ls) ->
  (length ls <= fuel)%nat ->
  exists e, read_stack fuel mx peer cnt (encode_stack ls ++ r) = Err e /\ (e = EMaxLabel \/ e = EPeerMax).
Proof.
  induction ls as [|l ls IH]; intros fuel mx peer cnt r Hok Hmx Hp Hd Hf.
  { exfalso. rewrite nlen_nil in Hd. destruct Hd as [Hd|(p & Hp' & Hd)]; [lia|]. specialize (Hp p Hp'); lia. }
  inversion Hok as [|? ? Hl Hls]; subst. rewrite nlen_cons in *.
  destruct fuel as [|fuel]; [simpl in Hf; lia|]. cbn [read_stack].
  destruct (N.leb_spec mx cnt); [eauto|].
  destruct (match peer with Some p => p <=? cnt | None => false end) eqn:E; [eauto|].
  assert (Hp' : forall p, peer = Some p -> cnt + 1 <= p).
  { intros p ->. apply N.leb_gt in E. lia. }
  destruct (Nat.ltb_spec (length (encode_stack (l :: ls) ++ r)) 3).
  { rewrite app_length, encode_stack_length in H0. cbn [length] in H0. lia. }
  destruct ls as [|l' ls].
  { exfalso. rewrite nlen_nil in Hd. destruct Hd as [Hd|(p & Hp'' & Hd)]; [lia|]. specialize (Hp' p Hp''); lia. }
  replace (encode_stack (l :: l' :: ls)) with (label_encode l false ++ encode_stack (l' :: ls)) by reflexivity.
  rewrite label_encode_wire by auto. unfold entry_wire. rewrite <- app_assoc.
  rewrite get_be_be by (change (256 ^ N.of_nat 3) with 16777216; lia). cbn [rbind].
  rewrite (label_decode_wire l false Hl).
  destruct (IH fuel mx peer (cnt + 1) r) as (e & E1 & E2); auto; [lia| |simpl in *; lia|].
  { destruct Hd as [Hd|(p & Hpp & Hd)]; [left; lia|right; exists p; split; auto; lia]. }
  exists e. rewrite E1. auto.
Qed.
(** Whatever is read is within the limits, and consumes three octets a label. *)
Lemma read_stack_inv fuel : forall mx peer cnt s ls r,
  read_stack fuel mx peer cnt s = Ok (ls, r) -> bytes_ok s ->
  ls <> [] /\ cnt + nlen ls <= mx /\ (forall p, peer = Some p -> cnt + nlen ls <= p) /\
  Forall (fun l => l < 2 ^ 20) ls /\ exists w, s = w ++ r /\ length w = (3 * length ls)%nat.
Proof.
  induction fuel; intros mx peer cnt s ls r H Hs; cbn [read_stack] in H;
    destruct (N.leb_spec mx cnt); try discriminate;
    destruct (match peer with Some p => p <=? cnt | None => false end) eqn:E; try discriminate;
    destruct (Nat.ltb_spec (length s) 3); try discriminate.
  apply rbind_inv in H as ([raw s'] & H2 & H).
  apply get_be_inv in H2 as (l & -> & Hl & ->).
  apply bytes_ok_app in Hs as [Hlo Hs'].
  assert (Hraw : be_val l < 2 ^ 24) by (pose proof (be_val_bound l Hlo) as B; rewrite Hl in B; exact B).
  destruct (label_decode (be_val l)) as [lb bos] eqn:Ed.
  pose proof (label_decode_bound _ _ _ Hraw Ed) as Hlb.
  assert (Hp' : forall p, peer = Some p -> cnt + 1 <= p).
  { intros p ->. apply N.leb_gt in E. lia. }
  destruct bos.
  - inv H. split; [discriminate|]. rewrite nlen_cons, nlen_nil.
    split; [lia|]. split; [intros p Hp; specialize (Hp' p Hp); lia|]. split; [auto|].
    exists l. split; auto.
  - apply rbind_inv in H as ([ls' s''] & H2 & H). inv H.
    apply IHfuel in H2 as (Hn & Hm & Hp & Hf & w & -> & Hw); auto.
    split; [discriminate|]. rewrite nlen_cons.
    split; [lia|]. split; [intros p Hpp; specialize (Hp p Hpp); lia|]. split; [constructor; auto|].
    exists (l ++ w). rewrite <- app_assoc. split; auto. rewrite app_length. cbn [length]. lia.
Qed.
Lemma np_read_stack fuel : forall mx peer cnt s, (length s <= fuel)%nat -> np (read_stack fuel mx peer cnt s).
Proof.
  induction fuel; intros mx peer cnt s Hf; cbn [read_stack];
    destruct (mx <=? cnt); try discriminate;
    destruct (match peer with Some p => p <=? cnt | None => false end) eqn:E; try discriminate;
    destruct (Nat.ltb_spec (length s) 3); try discriminate; try lia.
  apply np_rbind; [apply np_get_be; lia|].
  intros [raw s'] H1. apply get_be_inv in H1 as (l & -> & Hl & ->).
  rewrite app_length in *.
  destruct (label_decode (be_val l)) as [lb []]; [discriminate|].
  apply np_rbind; [apply IHfuel; lia|]. intros [? ?] _; discriminate.
Qed.

(** * Masking *)
Lemma upd_octet_app k f l x r : length l = k -> upd_octet k f (l ++ x :: r) = l ++ f x :: r.
Proof. intros <-. induction l; simpl; auto. f_equal; auto. Qed.
Lemma land_mask b r : b < 256 -> 0 < r -> r < 8 ->
  N.land b (u8 (N.shiftl 255 (8 - r))) = b - b mod 2 ^ (8 - r).
Proof.
  intros Hb H0 H8.
  assert (E : forall b, b < 256 -> forallb (fun r => N.land b (u8 (N.shiftl 255 (8 - r))) =? b - b mod 2 ^ (8 - r)) [1;2;3;4;5;6;7] = true).
  { intros c Hc. 
    assert (A : forall n, (n < 256)%nat -> forallb (fun c => forallb (fun r => N.land c (u8 (N.shiftl 255 (8 - r))) =? c - c mod 2 ^ (8 - r)) [1;2;3;4;5;6;7]) (map N.of_nat (seq 0 256)) = true) by (intros; vm_compute; reflexivity).
    specialize (A 0%nat ltac:(lia)). rewrite forallb_forall in A. apply A.
    apply in_map_iff. exists (N.to_nat c). split; [lia|]. apply in_seq. lia. }
  specialize (E b Hb). rewrite forallb_forall in E. apply N.eqb_eq, E.
  assert (r = 1 \/ r = 2 \/ r = 3 \/ r = 4 \/ r = 5 \/ r = 6 \/ r = 7) by lia.
  cbn [In]. intuition.
Qed.
Lemma masked_octets_val w data bits : bytes_ok data ->
  length data = N.to_nat (byte_len bits) -> bits <= 8 * N.of_nat w ->
  be_val (masked_octets w data bits)
  = let v := be_val (data ++ repeat 0 (w - length data)) in v - v mod 2 ^ (8 * N.of_nat w - bits).
Proof.
  intros Hok Hl Hb. unfold byte_len in Hl. unfold masked_octets.
  assert (Hlw : (length data <= w)%nat) by lia.
  rewrite Nat.min_l by auto. rewrite firstn_all. cbv zeta.
  destruct (N.ltb_spec 0 (bits mod 8)).
  - destruct (Nat.ltb_spec (N.to_nat (bits / 8)) (length data)); [|lia]. cbn [andb].
    assert (Hl' : length data = S (N.to_nat (bits / 8))) by lia.
    destruct (exists_last (l := data)) as (l & b & ->); [intros ->; simpl in Hl'; lia|].
    rewrite app_length in *. cbn [length] in *.
    assert (Hll : length l = N.to_nat (bits / 8)) by lia.
    apply bytes_ok_app in Hok as [Hlo Hbo]. inversion Hbo as [|? ? Hb256 _]; subst.
    rewrite <- app_assoc. cbn [app]. rewrite upd_octet_app by auto.
    rewrite land_mask by lia.
    set (z := (w - (length l + 1))%nat).
    assert (V : forall x, be_val (l ++ x :: repeat 0 z) = (be_val l * 256 + x) * 256 ^ N.of_nat z).
    { intros x. change (x :: repeat 0 z) with ([x] ++ repeat 0 z). rewrite app_assoc, be_val_app, be_val_snoc, be_val_repeat0.
      unfold nlen. rewrite repeat_length. lia. }
    rewrite !V. set (r := bits mod 8) in *.
    replace (8 * N.of_nat w - bits) with (8 - r + 8 * N.of_nat z) by (subst r z; lia).
    rewrite N.pow_add_r, <- pow256_2. set (Z := 256 ^ N.of_nat z). assert (0 < Z) by apply pow256_pos.
    rewrite N.mul_mod_distr_r by (try lia; apply N.pow_nonzero; lia).
    rewrite <- N.mul_sub_distr_r. f_equal.
    assert (D : (be_val l * 256 + b) mod 2 ^ (8 - r) = b mod 2 ^ (8 - r)).
    { replace 256 with (2 ^ r * 2 ^ (8 - r)).
      - rewrite N.mul_assoc, N.add_comm. apply N.mod_add. apply N.pow_nonzero; lia.
      - rewrite <- N.pow_add_r. replace (r + (8 - r)) with 8 by lia. reflexivity. }
    rewrite D. pose proof (N.mod_le b (2 ^ (8 - r)) ltac:(apply N.pow_nonzero; lia)) as Hm.
    revert Hm. generalize (b mod 2 ^ (8 - r)) as m. clear. intros; lia.
  - cbn [andb]. set (z := (w - length data)%nat).
    replace (8 * N.of_nat w - bits) with (8 * N.of_nat z) by (subst z; lia).
    rewrite be_val_app, be_val_repeat0. unfold nlen. rewrite repeat_length, <- pow256_2, N.add_0_r.
    rewrite N.mod_mul by (pose proof (pow256_pos z); lia). lia.
Qed.
Lemma sub_mod_eq n m : m <> 0 -> n - n mod m = n / m * m.
Proof.
  intros H. pose proof (N.div_mod n m H) as E. rewrite (N.mul_comm (n / m)).
  revert E. generalize (n mod m) (m * (n / m)). clear. intros; lia.
Qed.
Lemma trunc_trunc n a b : a <= b -> (n - n mod 2 ^ a) - (n - n mod 2 ^ a) mod 2 ^ b = n - n mod 2 ^ b.
Proof.
  intros H.
  assert (Ha : 2 ^ a <> 0) by (apply N.pow_nonzero; lia).
  assert (Hb : 2 ^ b <> 0) by (apply N.pow_nonzero; lia).
  assert (E : 2 ^ b = 2 ^ (b - a) * 2 ^ a) by (rewrite <- N.pow_add_r; f_equal; lia).
  rewrite (sub_mod_eq n (2 ^ a) Ha), (sub_mod_eq n (2 ^ b) Hb), (sub_mod_eq _ (2 ^ b) Hb). f_equal.
  rewrite E. rewrite N.div_mul_cancel_r by (auto; apply N.pow_nonzero; lia).
  rewrite N.div_div, (N.mul_comm (2 ^ a)) by (auto; apply N.pow_nonzero; lia). reflexivity.
Qed.
Lemma prefix_slice_length x : net_ok x -> length (prefix_slice x) = N.to_nat (byte_len (net_len x)).
Proof.
  intros [_ H]. unfold prefix_slice. rewrite firstn_length, octets_length. unfold byte_len.
  destruct (net_addr x); cbn [net_width] in H; lia.
Qed.
Lemma parse_masked_slice x : net_ok x ->
  parse_prefix_with_masking (net_family x) (prefix_slice x) (net_len x) = Ok (net_trunc x).
Proof.
  intros Hx. pose proof (prefix_slice_length x Hx) as L. destruct Hx as [Hi Hl].
  destruct x as [[n|n] len]; cbn [net_family net_addr net_len net_width ip_ok] in *;
    unfold parse_prefix_with_masking, net_trunc; cbn [net_addr net_len].
  - destruct (N.leb_spec len 32); [|lia]. do 2 f_equal. f_equal.
    rewrite masked_octets_val; [| |auto|lia].
    + cbv zeta. rewrite L. unfold prefix_slice. cbn [net_len net_addr octets].
      rewrite pad_firstn; [|unfold byte_len; lia|exact Hi]. rewrite pow256_2.
      apply trunc_trunc. unfold byte_len. lia.
    + unfold prefix_slice. apply bytes_ok_firstn, be_ok.
  - destruct (N.leb_spec len 128); [|lia]. do 2 f_equal. f_equal.
    rewrite masked_octets_val; [| |auto|lia].
    + cbv zeta. rewrite L. unfold prefix_slice. cbn [net_len net_addr octets].
      rewrite pad_firstn; [|unfold byte_len; lia|exact Hi]. rewrite pow256_2.
      apply trunc_trunc. unfold byte_len. lia.
    + unfold prefix_slice. apply bytes_ok_firstn, be_ok.
Qed.

(** * Whole prefixes *)
Lemma head_ok (id : option N) total d r :
  id_ok id -> 24 <= total -> total < 256 -> length d = N.to_nat (byte_len total) ->
  read_label_head (is_some id) ((match id with Some i => be 4 i | None => [] end) ++ be 1 total ++ d ++ r)
  = Ok ((id, total, d), r).
Proof.
  intros Hid H24 H256 Hd. unfold read_label_head.
  assert (K : forall s, s = be 1 total ++ d ++ r ->
    (need 1 ELabTrunc ;;; total <- get_be 1 ;;
      if total <? 24 then fail ELabLen else
      need (N.to_nat (byte_len total)) ELabTrunc ;;;
      d <- split_to (N.to_nat (byte_len total)) ;;
      ret (id, total, d)) s = Ok ((id, total, d), r)).
  { intros s ->. rewrite (bind_ok _ _ _ tt (be 1 total ++ d ++ r)) by (apply need_ok; rewrite app_length, be_length; lia).
    rewrite (bind_ok _ _ _ total (d ++ r)) by (apply get_be_be; exact H256).
    destruct (N.ltb_spec total 24); [lia|].
    rewrite (bind_ok _ _ _ tt (d ++ r)) by (apply need_ok; rewrite app_length; lia).
    rewrite (bind_ok _ _ _ d r) by (apply split_to_app; auto). reflexivity. }
  destruct id as [i|]; cbn [is_some id_ok] in *.
  - rewrite (bind_ok _ _ _ (Some i) (be 1 total ++ d ++ r)); [apply K; auto|].
    rewrite (bind_ok _ _ _ tt (be 4 i ++ be 1 total ++ d ++ r)) by (apply need_ok; rewrite app_length, be_length; lia).
    rewrite (bind_ok _ _ _ i (be 1 total ++ d ++ r)) by (apply get_be_be; exact Hid). reflexivity.
  - rewrite (bind_ok _ _ _ None (be 1 total ++ d ++ r)) by reflexivity. apply K; auto.
Qed.
Lemma label_prefix_ok x n : net_ok x -> n * 24 + net_len x < 256 ->
  read_label_prefix (net_family x) (n * 24 + net_len x) n (prefix_slice x) = Ok (net_trunc x, []).
Proof.
  intros Hx Hb. pose proof (prefix_slice_length x Hx) as L. pose proof (parse_masked_slice x Hx) as PM.
  destruct Hx as [Hi Hl]. unfold read_label_prefix.
  destruct (N.ltb_spec (n * 24 + net_len x) (n * 24)); [lia|].
  replace (n * 24 + net_len x - n * 24) with (net_len x) by lia. cbv zeta.
  assert (K : (need (N.to_nat (byte_len (net_len x))) ETruncPfx ;;;
    d <- split_to (N.to_nat (byte_len (net_len x))) ;;
    x <- lift (parse_prefix_with_masking (net_family x) d (u8 (net_len x))) ;;
    rest <- remaining ;;
    if (0 <? rest)%nat then fail ELabLen else ret x) (prefix_slice x) = Ok (net_trunc x, [])).
  { rewrite (bind_ok _ _ _ tt (prefix_slice x)) by (apply need_ok; lia).
    rewrite (bind_ok _ _ _ (prefix_slice x) []) by (rewrite <- (app_nil_r (prefix_slice x)) at 1; apply split_to_app; auto).
    unfold u8. rewrite N.mod_small by lia. rewrite PM. reflexivity. }
  unfold net_family in *. destruct (net_addr x); cbn [net_width] in Hl.
  - destruct (N.ltb_spec 32 (net_len x)); [lia|]. exact K.
  - destruct (N.ltb_spec 128 (net_len x)); [lia|]. exact K.
Qed.

Lemma encode_labeled_ok p m ap peer : labeled_ok p ->
  is_some (lp_id p) = false \/ ap = true ->
  (m = SingleLabel -> nlen (lp_labels p) = 1) ->
  (m = MultiLabel -> forall q, peer = Some q -> nlen (lp_labels p) <= q) ->
  encode_labeled_prefix p m ap peer = Ok (labeled_wire p).
Proof.
  intros (Hx & Hid & Hls & Hn & Ht) Hap Hs Hm. unfold encode_labeled_prefix, labeled_wire.
  rewrite <- encode_stack_wire by auto. fold (prefix_slice (lp_net p)).
  assert (E : is_some (lp_id p) && negb ap = false) by (destruct Hap as [->| ->]; [reflexivity|apply andb_false_r]).
  rewrite E. rewrite (N.mul_comm (nlen (lp_labels p)) 24).
  destruct (N.ltb_spec 255 (24 * nlen (lp_labels p) + net_len (lp_net p))); [lia|].
  destruct (lp_labels p) as [|l ls] eqn:El; [congruence|].
  destruct m.
  - specialize (Hs eq_refl). rewrite nlen_cons in Hs. destruct ls; [|rewrite nlen_cons in Hs; lia].
    reflexivity.
  - assert (E2 : match peer with Some pm => pm <? nlen (l :: ls) | None => false end = false).
    { destruct peer as [q|]; auto. specialize (Hm eq_refl q eq_refl). apply N.ltb_ge; auto. }
    rewrite E2. reflexivity.
Qed.
Lemma encode_labeled_inv p m ap peer b : labeled_ok p -> encode_labeled_prefix p m ap peer = Ok b ->
  b = labeled_wire p /\ (is_some (lp_id p) = false \/ ap = true) /\
  (m = SingleLabel -> nlen (lp_labels p) = 1) /\
  (m = MultiLabel -> forall q, peer = Some q -> nlen (lp_labels p) <= q).
Proof.
  intros Hok H.
  assert (C : (is_some (lp_id p) = false \/ ap = true) /\
    (m = SingleLabel -> nlen (lp_labels p) = 1) /\
    (m = MultiLabel -> forall q, peer = Some q -> nlen (lp_labels p) <= q)).
  { unfold encode_labeled_prefix in H. destruct (lp_labels p) as [|l ls] eqn:El; [discriminate|].
    destruct (is_some (lp_id p) && negb ap) eqn:E; [discriminate|].
    split; [destruct (is_some (lp_id p)), ap; auto; discriminate|].
    destruct (255 <? _); [discriminate|].
    apply rbind_inv in H as (lb & H1 & _). destruct m; split; try discriminate; intros _.
    - destruct (N.ltb_spec 1 (nlen (l :: ls))); [discriminate|]. rewrite nlen_cons in *. lia.
    - intros q ->. destruct (N.ltb_spec q (nlen (l :: ls))); [discriminate|]. auto. }
  destruct C as (C1 & C2 & C3). rewrite encode_labeled_ok in H by auto. inv H. auto.
Qed.
Lemma byte_len_24 n b : byte_len (24 * n + b) = 3 * n + byte_len b.
Proof. unfold byte_len. lia. Qed.
Lemma read_labels_ok c ls r : ls <> [] -> Forall (fun l => l < 2 ^ 20) ls -> stack_allowed c ls ->
  read_labels c (encode_stack ls ++ r) = Ok (ls, r).
Proof.
  intros Hn Hok Ha. unfold read_labels, stack_allowed in *. destruct (lc_mode c).
  - destruct ls as [|l [|]]; [congruence| |rewrite !nlen_cons in Ha; lia].
    inversion Hok; subst. cbn [encode_stack]. rewrite label_encode_wire by auto. unfold entry_wire.
    rewrite (bind_ok _ _ _ tt (be 3 (l * 16 + 1) ++ r)) by (apply need_ok; rewrite app_length, be_length; lia).
    rewrite (bind_ok _ _ _ (l * 16 + 1) r) by (apply get_be_be; change (256 ^ N.of_nat 3) with 16777216; lia).
    pose proof (label_decode_wire l true ltac:(auto)) as E. rewrite E. reflexivity.
  - apply read_stack_enc; auto; try tauto. rewrite app_length, encode_stack_length. lia.
Qed.
Lemma read_labeled_ok c p r : labeled_ok p -> stack_allowed c (lp_labels p) -> is_some (lp_id p) = lc_add_path c ->
  read_labeled (net_family (lp_net p)) c (labeled_wire p ++ r)
  = Ok (Labeled (net_trunc (lp_net p)) (lp_labels p) (lp_id p), r).
Proof.
  intros (Hx & Hid & Hls & Hn & Ht) Ha Hap. unfold read_labeled, labeled_wire.
  rewrite <- encode_stack_wire by auto. fold (prefix_slice (lp_net p)). rewrite <- Hap.
  assert (1 <= nlen (lp_labels p)) by (destruct (lp_labels p); [congruence|rewrite nlen_cons; lia]).
  rewrite <- !app_assoc.
  rewrite (app_assoc (encode_stack (lp_labels p))).
  rewrite (bind_ok _ _ _ (lp_id p, 24 * nlen (lp_labels p) + net_len (lp_net p), encode_stack (lp_labels p) ++ prefix_slice (lp_net p)) r).
  - rewrite (run_ok _ _ (Labeled (net_trunc (lp_net p)) (lp_labels p) (lp_id p)) []); [reflexivity|].
    rewrite (bind_ok _ _ _ (lp_labels p) (prefix_slice (lp_net p))) by (apply read_labels_ok; auto).
    rewrite (N.mul_comm 24).
    rewrite (bind_ok _ _ _ (net_trunc (lp_net p)) []) by (apply label_prefix_ok; auto; lia). reflexivity.
  - apply head_ok; auto; try lia.
    rewrite app_length, encode_stack_length, prefix_slice_length, byte_len_24 by auto.
    unfold nlen. lia.
Qed.
Lemma labeled_wire_pos p : (0 < length (labeled_wire p))%nat.
Proof. unfold labeled_wire. rewrite !app_length, (be_length 1). lia. Qed.

Lemma many_p_app_map {A B} (p : P B) (enc : A -> bytes) (f : A -> B) (Q : A -> Prop) l fuel :
  (forall a r, Q a -> p (enc a ++ r) = Ok (f a, r)) ->
  (forall a, Q a -> (0 < length (enc a))%nat) ->
  Forall Q l -> (length (flat_map enc l) <= fuel)%nat -> many_p fuel p (flat_map enc l) = Ok (map f l).
Proof.
  intros Hp Hpos H. revert fuel. induction H as [|a l Ha H IH]; intros fuel Hf.
  - destruct fuel; reflexivity.
  - cbn [flat_map map] in *. pose proof (Hpos a Ha). rewrite app_length in Hf.
    destruct (enc a ++ flat_map enc l) eqn:E.
    { apply (f_equal (@length N)) in E. rewrite app_length in E. simpl in E. lia. }
    rewrite <- E. destruct fuel; [lia|]. 
    replace (many_p (S fuel) p (enc a ++ flat_map enc l)) with
      ('(x, s') <~ p (enc a ++ flat_map enc l) ;; l <~ many_p fuel p s' ;; Ok (x :: l)) by (rewrite E; reflexivity).
    rewrite Hp by auto. cbn [rbind]. rewrite IH by lia. reflexivity.
Qed.
Lemma labeled_list_roundtrip a c l bs :
  Forall labeled_ok l -> Forall (fun p => net_family (lp_net p) = a) l ->
  Forall (fun p => is_some (lp_id p) = lc_add_path c) l -> Forall (fun p => stack_allowed c (lp_labels p)) l ->
  rmap (fun p => encode_labeled_prefix p (lc_mode c) (lc_add_path c) (lc_peer c)) l = Ok bs ->
  parse_labeled_nlri (concat bs) a c = Ok (map labeled_trunc l).
Proof.
  intros H1 H2 H3 H4 H.
  assert (E : concat bs = flat_map labeled_wire l).
  { apply rmap_ok in H. clear H2 H3 H4. induction H as [|p b l bs Hp H IH]; auto.
    inversion H1; subst. cbn [concat flat_map]. rewrite IH by auto.
    apply encode_labeled_inv in Hp as (-> & _); auto. }
  rewrite E. unfold parse_labeled_nlri.
  apply many_p_app_map with (Q := fun p => labeled_ok p /\ net_family (lp_net p) = a /\
    is_some (lp_id p) = lc_add_path c /\ stack_allowed c (lp_labels p)); auto.
  - intros p r (Ho & <- & Hi & Hs). apply read_labeled_ok; auto.
  - intros; apply labeled_wire_pos.
  - rewrite Forall_forall in *. intros p Hp. auto.
Qed.

(** * Refusals *)
Lemma read_labeled_deep c p r : labeled_ok p -> lc_mode c = MultiLabel -> is_some (lp_id p) = lc_add_path c ->
  (lc_max c < nlen (lp_labels p) \/ exists q, lc_peer c = Some q /\ q < nlen (lp_labels p)) ->
  exists e, read_labeled (net_family (lp_net p)) c (labeled_wire p ++ r) = Err e /\ (e = EMaxLabel \/ e = EPeerMax).
Proof.
  intros (Hx & Hid & Hls & Hn & Ht) Hm Hap Hd. unfold read_labeled, labeled_wire.
  rewrite <- encode_stack_wire by auto. fold (prefix_slice (lp_net p)). rewrite <- Hap.
  assert (1 <= nlen (lp_labels p)) by (destruct (lp_labels p); [congruence|rewrite nlen_cons; lia]).
  rewrite <- !app_assoc.
  rewrite (app_assoc (encode_stack (lp_labels p))).
  rewrite (bind_ok _ _ _ (lp_id p, 24 * nlen (lp_labels p) + net_len (lp_net p), encode_stack (lp_labels p) ++ prefix_slice (lp_net p)) r).
  - unfold read_labels. rewrite Hm.
    destruct (read_stack_deep (lp_labels p) (length (encode_stack (lp_labels p) ++ prefix_slice (lp_net p))) (lc_max c) (lc_peer c) 0 (prefix_slice (lp_net p)))
      as (e & E & He); auto; try lia.
    + rewrite app_length, encode_stack_length. lia.
    + exists e. split; auto. unfold lift, run. unfold bind at 1. rewrite E. reflexivity.
  - apply head_ok; auto; try lia.
    rewrite app_length, encode_stack_length, prefix_slice_length, byte_len_24 by auto.
    unfold nlen. lia.
Qed.
Lemma many_p_first_err {A} (p : P A) s e fuel : s <> [] -> (0 < fuel)%nat -> p s = Err e -> many_p fuel p s = Err e.
Proof. destruct s; [congruence|]. destruct fuel; [lia|]. intros _ _ H. cbn [many_p]. rewrite H. reflexivity. Qed.

(** * What the parser accepts *)
Lemma read_label_head_inv ap s id total d r : read_label_head ap s = Ok ((id, total, d), r) -> bytes_ok s ->
  s = (match id with Some i => be 4 i | None => [] end) ++ be 1 total ++ d ++ r /\
  id_ok id /\ is_some id = ap /\ 24 <= total /\ total < 256 /\ length d = N.to_nat (byte_len total) /\ bytes_ok d.
Proof.
  unfold read_label_head. intros H Hs. apply bind_inv in H as (pid & s1 & H1 & H).
  assert (G : s = (match pid with Some i => be 4 i | None => [] end) ++ s1 /\ id_ok pid /\ is_some pid = ap /\ bytes_ok s1).
  { destruct ap.
    - apply bind_inv in H1 as (? & ? & Hn & H1). apply need_inv in Hn as [-> _].
      apply bind_inv in H1 as (i & ? & Hg & H1). apply ret_inv in H1 as [<- ->].
      apply get_be_inv in Hg as (l & -> & Hl & ->). apply bytes_ok_app in Hs as [Hlo Hs].
      rewrite <- Hl. rewrite be_be_val by auto. repeat split; auto.
      cbn [id_ok]. pose proof (be_val_bound l Hlo) as B. rewrite Hl in B. exact B.
    - apply ret_inv in H1 as [<- <-]. repeat split; auto. }
  destruct G as (-> & Hid & Hap & Hs1). clear H1 Hs.
  apply bind_inv in H as (? & ? & Hn & H). apply need_inv in Hn as [-> _].
  apply bind_inv in H as (t & s2 & Hg & H). apply get_be_inv in Hg as (l & -> & Hl & ->).
  apply bytes_ok_app in Hs1 as [Hlo Hs2].
  destruct (N.ltb_spec (be_val l) 24); [discriminate|].
  apply bind_inv in H as (? & ? & Hn & H). apply need_inv in Hn as [-> _].
  apply bind_inv in H as (d' & s3 & Hg & H). apply split_to_inv in Hg as [-> Hd].
  apply ret_inv in H as [E ->].
  assert (pid = id) by congruence. assert (be_val l = total) by congruence. assert (d' = d) by congruence. subst.
  rewrite <- Hl at 1. rewrite be_be_val by auto. apply bytes_ok_app in Hs2 as [? ?].
  repeat split; auto. pose proof (be_val_bound l Hlo) as B. rewrite Hl in B. exact B.
Qed.
Lemma read_label_prefix_inv a total n s x r : read_label_prefix a total n s = Ok (x, r) -> bytes_ok s -> total < 256 ->
  r = [] /\ net_ok x /\ canonical x /\ net_family x = a /\ total = 24 * n + net_len x /\
  length s = N.to_nat (byte_len (net_len x)) /\
  ip_val (net_addr x) = let v := be_val (s ++ repeat 0 ((match a with AIpv4 => 4 | _ => 16 end) - length s)) in
     v - v mod 2 ^ (net_width (net_addr x) - net_len x).
Proof.
  unfold read_label_prefix. intros H Hs Ht.
  destruct (N.ltb_spec total (n * 24)); [discriminate|]. cbv zeta in H.
  set (bits := total - n * 24) in *.
  assert (Hb : bits < 256) by lia.
  assert (exists w, (a = AIpv4 /\ w = 4%nat \/ a = AIpv6 /\ w = 16%nat)) as [w Hw]
    by (destruct a; [exists 4%nat|exists 16%nat|discriminate]; auto).
  assert (H' : (if 8 * N.of_nat w <? bits then fail ELabLen else
    need (N.to_nat (byte_len bits)) ETruncPfx ;;;
    d <- split_to (N.to_nat (byte_len bits)) ;;
    x <- lift (parse_prefix_with_masking a d (u8 bits)) ;;
    rest <- remaining ;;
    if (0 <? rest)%nat then fail ELabLen else ret x) s = Ok (x, r)).
  { destruct Hw as [[-> ->]|[-> ->]]; exact H. }
  clear H. rename H' into H. destruct (N.ltb_spec (8 * N.of_nat w) bits); [discriminate|].
  apply bind_inv in H as (? & ? & Hn & H). apply need_inv in Hn as [-> _].
  apply bind_inv in H as (d & s1 & Hg & H). apply split_to_inv in Hg as [-> Hd].
  apply bind_inv in H as (x' & s2 & Hl & H). apply lift_inv in Hl as [Hx ->].
  unfold bind, remaining in H. destruct (Nat.ltb_spec 0 (length s2)); [discriminate|].
  apply ret_inv in H as [-> ->]. destruct r; [|simpl in *; lia]. rewrite app_nil_r in *.
  unfold u8 in Hx. rewrite N.mod_small in Hx by lia.
  assert (Hd' : (length d <= w)%nat) by (unfold byte_len in Hd; lia).
  assert (V : be_val (d ++ repeat 0 (w - length d)) < 2 ^ (8 * N.of_nat w)).
  { rewrite <- pow256_2. pose proof (be_val_bound (d ++ repeat 0 (w - length d))) as B.
    rewrite app_length, repeat_length in B. replace (length d + (w - length d))%nat with w in B by lia.
    apply B. apply bytes_ok_app; split; auto. apply bytes_ok_repeat0. }
  pose proof (masked_octets_val w d bits Hs Hd ltac:(lia)) as M. cbv zeta in M.
  split; auto. split; [|split; [|split; [|split; [|split]]]].
  - destruct Hw as [[-> ->]|[-> ->]]; cbn [parse_prefix_with_masking] in Hx;
    destruct (N.leb_spec bits (8 * N.of_nat 4)), (N.leb_spec bits (8 * N.of_nat 16));
    try lia;
    (match type of Hx with (if ?c then _ else _) = _ => destruct c eqn:Ec; [|discriminate] end);
    (assert (Ex : x = ltac:(match type of Hx with Ok ?y = _ => exact y end)) by congruence);
    rewrite Ex; split; cbn [net_addr ip_ok net_len net_width]; try lia; rewrite M;
    match goal with |- ?v - _ < _ => change (v < 2 ^ 32) in V || change (v < 2 ^ 128) in V end; lia.
  - destruct Hw as [[-> ->]|[-> ->]]; cbn [parse_prefix_with_masking] in Hx;
    (match type of Hx with (if ?c then _ else _) = _ => destruct c eqn:Ec; [|discriminate] end);
    (assert (Ex : x = ltac:(match type of Hx with Ok ?y = _ => exact y end)) by congruence);
    rewrite Ex; unfold canonical; cbn [net_addr ip_val net_len net_width]; rewrite M;
    change (8 * N.of_nat 4) with 32; change (8 * N.of_nat 16) with 128;
    match goal with |- (?v - ?v mod ?m) mod _ = 0 =>
      let Hm := fresh in assert (Hm : m <> 0) by (apply N.pow_nonzero; lia);
      rewrite (sub_mod_eq v m Hm);
      apply N.mod_mul; auto end.
  - destruct Hw as [[-> ->]|[-> ->]]; cbn [parse_prefix_with_masking] in Hx;
    (match type of Hx with (if ?c then _ else _) = _ => destruct c eqn:Ec; [|discriminate] end);
    (assert (Ex : x = ltac:(match type of Hx with Ok ?y = _ => exact y end)) by congruence);
    rewrite Ex; reflexivity.
  - assert (net_len x = bits).
    { destruct Hw as [[-> ->]|[-> ->]]; cbn [parse_prefix_with_masking] in Hx;
      (match type of Hx with (if ?c then _ else _) = _ => destruct c eqn:Ec; [|discriminate] end);
      (assert (Ex : x = ltac:(match type of Hx with Ok ?y = _ => exact y end)) by congruence);
      rewrite Ex; reflexivity. }
    lia.
  - assert (net_len x = bits).
    { destruct Hw as [[-> ->]|[-> ->]]; cbn [parse_prefix_with_masking] in Hx;
      (match type of Hx with (if ?c then _ else _) = _ => destruct c eqn:Ec; [|discriminate] end);
      (assert (Ex : x = ltac:(match type of Hx with Ok ?y = _ => exact y end)) by congruence);
      rewrite Ex; reflexivity. }
    congruence.
  - cbv zeta. destruct Hw as [[-> ->]|[-> ->]]; cbn [parse_prefix_with_masking] in Hx;
      (match type of Hx with (if ?c then _ else _) = _ => destruct c eqn:Ec; [|discriminate] end);
      (assert (Ex : x = ltac:(match type of Hx with Ok ?y = _ => exact y end)) by congruence);
      rewrite Ex; cbn [net_addr ip_val net_len net_width]; exact M.
Qed.
Lemma read_labels_inv c s ls r : read_labels c s = Ok (ls, r) -> bytes_ok s ->
  ls <> [] /\ stack_allowed c ls /\ Forall (fun l => l < 2 ^ 20) ls /\
  exists w, s = w ++ r /\ length w = (3 * length ls)%nat.
Proof.
  unfold read_labels, stack_allowed. intros H Hs. destruct (lc_mode c).
  - apply bind_inv in H as (? & ? & Hn & H). apply need_inv in Hn as [-> _].
    apply bind_inv in H as (raw & s1 & Hg & H). apply get_be_inv in Hg as (l & -> & Hl & ->).
    apply ret_inv in H as [<- <-]. apply bytes_ok_app in Hs as [Hlo _].
    split; [discriminate|]. split; [reflexivity|]. split.
    + constructor; auto. destruct (label_decode (be_val l)) as [lb b] eqn:E. cbn [fst].
      eapply label_decode_bound; eauto. pose proof (be_val_bound l Hlo) as B; rewrite Hl in B; exact B.
    + exists l. auto.
  - apply read_stack_inv in H as (H1 & H2 & H3 & H4 & H5); auto.
Qed.
Lemma read_labeled_inv a c s p r : read_labeled a c s = Ok (p, r) -> bytes_ok s ->
  labeled_ok p /\ canonical (lp_net p) /\ net_family (lp_net p) = a /\ stack_allowed c (lp_labels p) /\
  is_some (lp_id p) = lc_add_path c /\
  exists w, s = w ++ r /\ length w = length (labeled_wire p).
Proof.
  unfold read_labeled. intros H Hs. apply bind_inv in H as ([[id total] d] & s1 & H1 & H).
  apply read_label_head_inv in H1 as (-> & Hid & Hap & H24 & H256 & Hd & Hdo); auto.
  apply lift_inv in H as [H ->]. apply run_inv in H as (r' & H).
  apply bind_inv in H as (ls & s2 & H1 & H). apply bind_inv in H as (x & s3 & H2 & H).
  apply ret_inv in H as [<- _].
  apply read_labels_inv in H1 as (Hn & Ha & Hls & w & -> & Hw); auto.
  apply bytes_ok_app in Hdo as [_ Hs2].
  apply read_label_prefix_inv in H2 as (-> & Hx & Hc & Hf & Ht & Hlen & _); auto.
  cbn [lp_net lp_labels lp_id] in *. split; [|split; [|split; [|split; [|split]]]]; auto.
  - unfold labeled_ok; cbn [lp_net lp_labels lp_id]. repeat split; auto; try apply Hx. lia.
  - eexists ((match id with Some i => be 4 i | None => [] end) ++ be 1 total ++ w ++ s2).
    rewrite <- !app_assoc. split; auto.
    unfold labeled_wire. cbn [lp_net lp_labels lp_id].
    rewrite <- encode_stack_wire by auto. fold (prefix_slice x).
    rewrite !app_length, encode_stack_length, prefix_slice_length, !be_length by auto. lia.
Qed.
Lemma many_p_forall {A} (p : P A) (Q : A -> Prop) :
  (forall s a r, p s = Ok (a, r) -> bytes_ok s -> Q a /\ exists w, s = w ++ r) ->
  forall fuel s l, many_p fuel p s = Ok l -> bytes_ok s -> Forall Q l.
Proof.
  intros Hp. induction fuel; intros s l H Hs; destruct s as [|b s]; cbn [many_p] in H.
  - inv H; auto.
  - discriminate.
  - inv H; auto.
  - apply rbind_inv in H as ([a s'] & H1 & H2). apply rbind_inv in H2 as (l' & H2 & H3).
    inv H3. apply Hp in H1 as (HQ & w & E); auto. rewrite E in Hs.
    apply bytes_ok_app in Hs as [_ Hs]. constructor; eauto.
Qed.
Lemma parse_labeled_inv s a c l : bytes_ok s -> parse_labeled_nlri s a c = Ok l ->
  Forall (fun p => labeled_ok p /\ canonical (lp_net p) /\ net_family (lp_net p) = a /\
    stack_allowed c (lp_labels p) /\ is_some (lp_id p) = lc_add_path c) l.
Proof.
  intros Hs H. revert H Hs. apply many_p_forall. intros s0 p r H Hs.
  apply read_labeled_inv in H as (H1 & H2 & H3 & H4 & H5 & w & -> & _); auto. split; eauto.
Qed.

(** * Withdrawals *)
Lemma get_be_3 b r : length b = 3%nat -> get_be 3 (b ++ r) = Ok (be_val b, r).
Proof. apply get_be_app. Qed.
Lemma read_labeled_withdrawal_ok p compat r : prefix_ok p -> length compat = 3%nat ->
  read_labeled_withdrawal (family p) (has_id p) (withdrawal_wire p compat ++ r)
  = Ok (Pfx (net_trunc (p_net p)) (p_id p), r).
Proof.
  intros [Hx Hid] Hc. unfold read_labeled_withdrawal, withdrawal_wire. fold (prefix_slice (p_net p)).
  change (has_id p) with (is_some (p_id p)). change (family p) with (net_family (p_net p)).
  rewrite <- !app_assoc, (app_assoc compat).
  assert (Hl : net_len (p_net p) <= 128) by (destruct Hx as [_ Hx]; destruct (net_addr (p_net p)); cbn [net_width] in Hx; lia).
  rewrite (bind_ok _ _ _ (p_id p, 24 + net_len (p_net p), compat ++ prefix_slice (p_net p)) r).
  - rewrite (run_ok _ _ (Pfx (net_trunc (p_net p)) (p_id p)) []); [reflexivity|].
    rewrite (bind_ok _ _ _ tt (compat ++ prefix_slice (p_net p))) by (apply need_ok; rewrite app_length; lia).
    rewrite (bind_ok _ _ _ (be_val compat) (prefix_slice (p_net p))) by (apply get_be_3; auto).
    rewrite (bind_ok _ _ _ (net_trunc (p_net p)) []); [reflexivity|].
    apply (label_prefix_ok (p_net p) 1); auto. lia.
  - apply head_ok; auto; try lia. rewrite app_length, prefix_slice_length by auto. unfold byte_len. lia.
Qed.
Lemma encode_withdrawal_ok p : prefix_ok p -> encode_labeled_withdrawal p = Ok (withdrawal_wire p [0x80; 0; 0]).
Proof.
  intros [Hx Hid]. unfold encode_labeled_withdrawal, withdrawal_wire.
  assert (Hl : net_len (p_net p) <= 128) by (destruct Hx as [_ Hx]; destruct (net_addr (p_net p)); cbn [net_width] in Hx; lia).
  destruct (N.ltb_spec 255 (24 + net_len (p_net p))); [lia|]. reflexivity.
Qed.
Lemma withdrawal_wire_pos p c : (0 < length (withdrawal_wire p c))%nat.
Proof. unfold withdrawal_wire. rewrite !app_length, (be_length 1). lia. Qed.
Lemma withdrawal_list_roundtrip a c l compat :
  Forall prefix_ok l -> Forall (fun p => family p = a) l -> Forall (fun p => has_id p = lc_add_path c) l ->
  length compat = 3%nat ->
  parse_labeled_withdrawal_nlri (flat_map (fun p => withdrawal_wire p compat) l) a c
  = Ok (map (fun p => Pfx (net_trunc (p_net p)) (p_id p)) l).
Proof.
  intros H1 H2 H3 Hc. unfold parse_labeled_withdrawal_nlri.
  apply (many_p_app_map _ (fun p => withdrawal_wire p compat) (fun p => Pfx (net_trunc (p_net p)) (p_id p))
    (fun p => prefix_ok p /\ family p = a /\ has_id p = lc_add_path c)); auto.
  - intros p r (Ho & <- & <-). apply read_labeled_withdrawal_ok; auto.
  - intros; apply withdrawal_wire_pos.
  - rewrite Forall_forall in *. auto.
Qed.

(** * No panic *)
Lemma np_split_bind {A} n (k : bytes -> P A) s : (n <= length s)%nat ->
  (forall l r, s = l ++ r -> length l = n -> np (k l r)) -> np (bind (split_to n) k s).
Proof.
  intros Hn Hk. apply np_bind; [apply np_split_to; auto|]. intros l r H. apply split_to_inv in H as [-> H]. auto.
Qed.
Lemma np_get_bind {A} n (k : N -> P A) s : (n <= length s)%nat ->
  (forall v r, np (k v r)) -> np (bind (get_be n) k s).
Proof. intros Hn Hk. apply np_bind; [apply np_get_be; auto|]. auto. Qed.
Lemma npp_label_head ap : npp (read_label_head ap).
Proof.
  unfold read_label_head. apply npp_bind.
  - destruct ap; auto with np. intros s. apply np_need_bind. intros H. apply np_get_bind; auto. intros; discriminate.
  - intros pid s. apply np_need_bind. intros H. apply np_get_bind; auto. intros v r.
    destruct (v <? 24); [discriminate|]. apply np_need_bind. intros H2.
    apply np_split_bind; auto. intros; discriminate.
Qed.
Lemma npp_label_prefix a t n : npp (read_label_prefix a t n).
Proof.
  unfold read_label_prefix. destruct (t <? n * 24); auto with np. cbv zeta.
  assert (M : forall d b, np (parse_prefix_with_masking a d b)).
  { intros d b. destruct a; cbn [parse_prefix_with_masking]; try discriminate;
    match goal with |- np (if ?c then _ else _) => destruct c end; discriminate. }
  assert (K : forall b, npp (need (N.to_nat (byte_len b)) ETruncPfx ;;;
    d <- split_to (N.to_nat (byte_len b)) ;;
    x <- lift (parse_prefix_with_masking a d (u8 b)) ;;
    rest <- remaining ;;
    if (0 <? rest)%nat then fail ELabLen else ret x)).
  { intros b s. apply np_need_bind. intros H. apply np_split_bind; auto. intros l r _ _.
    apply np_bind; [apply npp_lift; auto|]. intros x r' _. unfold bind, remaining. destruct (_ <? _)%nat; discriminate. }
  destruct a; auto with np; match goal with |- npp (if ?c then _ else _) => destruct c end; auto with np.
Qed.
Lemma npp_read_labels c : npp (read_labels c).
Proof.
  intros s. unfold read_labels. destruct (lc_mode c).
  - apply np_need_bind. intros. apply np_get_bind; auto. intros; discriminate.
  - apply np_read_stack; auto.
Qed.
Lemma npp_read_labeled a c : npp (read_labeled a c).
Proof.
  unfold read_labeled. apply npp_bind; [apply npp_label_head|]. intros [[id t] d]. apply npp_lift, np_run.
  apply npp_bind; [apply npp_read_labels|]. intros ls. apply npp_bind; [apply npp_label_prefix|]. auto with np.
Qed.
Lemma label_head_progress ap s x r : read_label_head ap s = Ok (x, r) -> (length r < length s)%nat.
Proof.
  unfold read_label_head. intros H. apply bind_inv in H as (pid & s1 & H1 & H).
  assert (G : (length s1 <= length s)%nat).
  { destruct ap.
    - apply bind_inv in H1 as (? & ? & Hn & H1). apply need_inv in Hn as [-> _].
      apply bind_inv in H1 as (i & ? & Hg & H1). apply ret_inv in H1 as [<- ->].
      apply get_be_inv in Hg as (l & -> & Hl & ->). rewrite app_length. lia.
    - apply ret_inv in H1 as [<- <-]. auto. }
  apply bind_inv in H as (? & ? & Hn & H). apply need_inv in Hn as [-> _].
  apply bind_inv in H as (t & s2 & Hg & H). apply get_be_inv in Hg as (l & -> & Hl & ->).
  destruct (_ <? _); [discriminate|].
  apply bind_inv in H as (? & ? & Hn & H). apply need_inv in Hn as [-> _].
  apply bind_inv in H as (d' & s3 & Hg & H). apply split_to_inv in Hg as [-> Hd].
  apply ret_inv in H as [E ->]. rewrite !app_length in G. lia.
Qed.
Lemma parse_labeled_np s a c : np (parse_labeled_nlri s a c).
Proof.
  apply many_p_np; auto. apply npp_read_labeled.
  intros s0 p r H. unfold read_labeled in H. apply bind_inv in H as ([[? ?] ?] & s' & H1 & H2).
  apply lift_inv in H2 as [_ ->]. apply label_head_progress in H1. lia.
Qed.
Lemma npp_read_labeled_withdrawal a ap : npp (read_labeled_withdrawal a ap).
Proof.
  unfold read_labeled_withdrawal. apply npp_bind; [apply npp_label_head|]. intros [[id t] d]. apply npp_lift, np_run.
  apply np_need_bind. intros. apply np_get_bind; auto. intros v r.
  apply np_bind; [apply npp_label_prefix|]. intros; discriminate.
Qed.
Lemma parse_labeled_withdrawal_np s a c : np (parse_labeled_withdrawal_nlri s a c).
Proof.
  apply many_p_np; auto. apply npp_read_labeled_withdrawal.
  intros s0 p r H. unfold read_labeled_withdrawal in H. apply bind_inv in H as ([[? ?] ?] & s' & H1 & H2).
  apply lift_inv in H2 as [_ ->]. apply label_head_progress in H1. lia.
Qed.
Lemma net_trunc_canonical x : canonical x -> net_trunc x = x.
Proof.
  destruct x as [[n|n] l]; unfold canonical, net_trunc; cbn [net_addr net_len net_width ip_val]; intros ->;
  rewrite N.sub_0_r; reflexivity.
Qed.
Lemma encode_labeled_iff p m ap peer : labeled_ok p ->
  (encode_labeled_prefix p m ap peer = Ok (labeled_wire p) <->
   (lp_id p = None \/ ap = true) /\
   (m = SingleLabel -> nlen (lp_labels p) = 1) /\
   (m = MultiLabel -> forall q, peer = Some q -> nlen (lp_labels p) <= q)) /\
  (forall b, encode_labeled_prefix p m ap peer = Ok b -> b = labeled_wire p).
Proof.
  intros H. assert (I : lp_id p = None <-> is_some (lp_id p) = false) by (destruct (lp_id p); split; cbn; congruence).
  split; [split|].
  - intros E. apply encode_labeled_inv in E as (_ & E1 & E2); auto. rewrite I. auto.
  - rewrite I. intros (H1 & H2 & H3). apply encode_labeled_ok; auto.
  - intros b E. apply encode_labeled_inv in E as (-> & _); auto.
Qed.
Lemma parse_labeled_deep c p r : labeled_ok p -> lc_mode c = MultiLabel ->
  is_some (lp_id p) = lc_add_path c ->
  (lc_max c < nlen (lp_labels p) \/ exists q, lc_peer c = Some q /\ q < nlen (lp_labels p)) ->
  exists e, parse_labeled_nlri (labeled_wire p ++ r) (net_family (lp_net p)) c = Err e /\
    (e = EMaxLabel \/ e = EPeerMax).
Proof.
  intros H1 H2 H3 H4. destruct (read_labeled_deep c p r H1 H2 H3 H4) as (e & E & He).
  exists e. split; auto. pose proof (labeled_wire_pos p). apply many_p_first_err; auto.
  - intros X. apply (f_equal (@length N)) in X. rewrite app_length in X. simpl in X. lia.
  - rewrite app_length. lia.
Qed.
