(** Proofs about RPKI-to-router PDUs. *)
From Coq Require Import Lia.
From Verif Require Import Base BaseFacts Reader ReaderFacts Net NetFacts Stream FramingFacts TableDumpSpec TableDumpFacts Utf8 Rtr RtrSpec Tac.

Lemma list2 (l : bytes) : length l = 2%nat -> exists a b, l = [a; b].
Proof. destruct l as [|a [|b [|? ?]]]; try discriminate. eauto. Qed.
Lemma list4 (l : bytes) : length l = 4%nat -> exists a b c d, l = [a; b; c; d].
Proof. destruct l as [|a [|b [|c [|d [|? ?]]]]]; try discriminate. eauto 6. Qed.
Lemma at_app a b r : at_ (length a) (a ++ b :: r) = TOk b.
Proof. unfold at_. rewrite nth_error_app2 by lia. rewrite Nat.sub_diag. reflexivity. Qed.
Lemma at_skip k a s : length a = k -> forall j, at_ (k + j) (a ++ s) = at_ j s.
Proof. intros <- j. unfold at_. rewrite nth_error_app2 by lia. f_equal. rewrite Nat.add_comm, Nat.add_sub. reflexivity. Qed.
Lemma u32_skip k a s : length a = k -> forall j, u32_at (k + j) (a ++ s) = u32_at j s.
Proof.
  intros L j. unfold u32_at. rewrite (at_skip k a s L j). replace (1 + (k + j))%nat with (k + (1 + j))%nat by lia. replace (2 + (k + j))%nat with (k + (2 + j))%nat by lia. replace (3 + (k + j))%nat with (k + (3 + j))%nat by lia.
  rewrite !(at_skip k a s L). reflexivity.
Qed.
Lemma slice_skip k a s : length a = k -> forall j n, slice (k + j) n (a ++ s) = slice j n s.
Proof.
  intros L j n. unfold slice. rewrite app_length, L. replace (Nat.leb (k + j + n) (k + length s)) with (Nat.leb (j + n) (length s)) by lia.
  rewrite skipn_app, L. replace (k + j - k)%nat with j by lia. rewrite (skipn_all2 a) by lia. reflexivity.
Qed.
Lemma u32_head n r : u32 n -> u32_at 0 (be 4 n ++ r) = TOk n.
Proof.
  intros H. destruct (list4 (be 4 n) (be_length 4 n)) as (a & b & c & d & E). pose proof (be_val_be_small 4 n H) as V. rewrite E in *. cbn. rewrite <- V. reflexivity.
Qed.
Lemma u16_head n r : u16 n -> u16_at 0 (be 2 n ++ r) = TOk n.
Proof.
  intros H. destruct (list2 (be 2 n) (be_length 2 n)) as (a & b & E). pose proof (be_val_be_small 2 n H) as V. rewrite E in *. cbn. rewrite <- V. reflexivity.
Qed.
Lemma slice_head l r n : length l = n -> slice 0 n (l ++ r) = TOk l.
Proof. intros <-. unfold slice. cbn [Nat.add skipn]. rewrite app_length. replace (Nat.leb (length l) (length l + length r)) with true by lia. rewrite firstn_app, Nat.sub_diag, firstn_all, app_nil_r. reflexivity. Qed.
Lemma u16_skip k a s : length a = k -> forall j, u16_at (k + j) (a ++ s) = u16_at j s.
Proof. intros L j. unfold u16_at. rewrite (at_skip k a s L j). replace (1 + (k + j))%nat with (k + (1 + j))%nat by lia. rewrite !(at_skip k a s L). reflexivity. Qed.
Lemma u32_pos k a n r : length a = k -> u32 n -> u32_at k (a ++ be 4 n ++ r) = TOk n.
Proof. intros L H. rewrite <- (Nat.add_0_r k), (u32_skip k a _ L). apply u32_head, H. Qed.
Lemma slice_pos k a l r n : length a = k -> length l = n -> slice k n (a ++ l ++ r) = TOk l.
Proof. intros L H. rewrite <- (Nat.add_0_r k), (slice_skip k a _ L). apply slice_head, H. Qed.
(** ** The header *)
Lemma header_len v ty code len : length (header_bits v ty code len) = 8%nat.
Proof. unfold header_bits. rewrite !app_length, !be_length. reflexivity. Qed.
Lemma header_bits_head v ty code len : rtr_head v ty code len = header_bits v ty code len.
Proof. destruct v; reflexivity. Qed.
Lemma parse_head v ty code len d : u16 code -> u32 len -> parse_rtr (header_bits v ty code len ++ d) =
  if 8 + nlen d <? len then TErr (TIncomplete (8 + nlen d) len) else
  if negb (pdu_type_known ty) then TErr (TBadType ty) else
  p <! parse_pdu_body v ty code len (header_bits v ty code len ++ d) ;; TOk (p, len).
Proof.
  intros Hc Hl. unfold parse_rtr. assert (L : length (header_bits v ty code len ++ d) = (8 + length d)%nat) by (rewrite app_length, header_len; reflexivity).
  rewrite L. replace (Nat.ltb (8 + length d) 8) with false by lia. replace (nlen (header_bits v ty code len ++ d)) with (8 + nlen d) by (unfold nlen; rewrite L; lia).
  assert (A0 : at_ 0 (header_bits v ty code len ++ d) = TOk (match v with RV0 => 0 | RV1 => 1 end)) by reflexivity.
  assert (A1 : at_ 1 (header_bits v ty code len ++ d) = TOk ty) by reflexivity.
  assert (A2 : u16_at 2 (header_bits v ty code len ++ d) = TOk code).
  { unfold header_bits. rewrite <- !app_assoc. change 2%nat with (2 + 0)%nat. rewrite (u16_skip 2) by reflexivity. apply u16_head, Hc. }
  assert (A3 : u32_at 4 (header_bits v ty code len ++ d) = TOk len).
  { unfold header_bits. rewrite <- !app_assoc. rewrite app_assoc. change 4%nat with (4 + 0)%nat. rewrite (u32_skip 4) by (rewrite app_length, be_length; reflexivity). apply u32_head, Hl. }
  rewrite A0, A1, A2, A3. cbn [tbind]. destruct v; reflexivity.
Qed.
Lemma header_split s : (8 <= length s)%nat -> bytes_ok s -> exists v ty code len d, s = v :: ty :: be 2 code ++ be 4 len ++ d /\ u8 v /\ u8 ty /\ u16 code /\ u32 len /\ bytes_ok d.
Proof.
  intros L B. destruct s as [|v [|ty [|b2 [|b3 [|b4 [|b5 [|b6 [|b7 d]]]]]]]]; cbn [length] in L; try lia.
  unfold bytes_ok in B. repeat match goal with H : Forall _ (_ :: _) |- _ => inversion H; clear H; subst end.
  assert (K2 : bytes_ok [b2; b3]) by (repeat constructor; auto). assert (K4 : bytes_ok [b4; b5; b6; b7]) by (repeat constructor; auto).
  exists v, ty, (be_val [b2; b3]), (be_val [b4; b5; b6; b7]), d. pose proof (be_be_val _ K2) as W2. pose proof (be_be_val _ K4) as W4. cbn [length] in *. rewrite W2, W4. pose proof (be_val_bound _ K2). pose proof (be_val_bound _ K4).
  repeat split; auto.
Qed.

(** ** Bodies *)
Lemma take_be k d : (k <= length d)%nat -> bytes_ok d -> exists n r, d = be k n ++ r /\ n < 256 ^ N.of_nat k /\ bytes_ok r.
Proof.
  intros L B. exists (be_val (firstn k d)), (skipn k d). rewrite <- (firstn_skipn k d) in B. apply bytes_ok_app in B as (B1 & B2).
  pose proof (be_be_val _ B1) as W. pose proof (be_val_bound _ B1) as V. rewrite firstn_length_le in W, V by lia. rewrite W. split; [symmetry; apply firstn_skipn|auto].
Qed.
Lemma take_n k d : (k <= length d)%nat -> bytes_ok d -> exists x r, d = x ++ r /\ length x = k /\ bytes_ok x /\ bytes_ok r.
Proof.
  intros L B. exists (firstn k d), (skipn k d). rewrite <- (firstn_skipn k d) in B. apply bytes_ok_app in B as (B1 & B2). rewrite firstn_skipn, firstn_length_le by lia. auto.
Qed.
Lemma take_1 d : (1 <= length d)%nat -> bytes_ok d -> exists b r, d = b :: r /\ u8 b /\ bytes_ok r.
Proof. destruct d as [|b r]; cbn [length]; [lia|]. intros _ B. inversion B; subst. eauto. Qed.

Lemma app_eq_length {A} (a b c d : list A) : length a = length c -> a ++ b = c ++ d -> a = c /\ b = d.
Proof.
  revert c. induction a as [|x a IH]; intros [|y c] L E; try discriminate; [auto|]. cbn [length app] in *. injection E as <- E.
  destruct (IH c) as (-> & ->); auto.
Qed.
Definition body_spec (v : rtr_version) (ty code len : N) (d : bytes) : Prop :=
  let h := header_bits v ty code len in
  match parse_pdu_body v ty code len (h ++ d) with
  | TOk p => exists x r, h ++ d = x ++ r /\ nlen x = len /\ pdu_wire p x
  | TErr _ => True
  | TPanic => False
  end.
Lemma body_ok v ty code len d : pdu_type_known ty = true -> u8 ty -> u16 code -> u32 len -> len <= 8 + nlen d -> bytes_ok d -> body_spec v ty code len d.
Proof.
  intros K Hy Hc Hl Hd B. unfold body_spec. cbv zeta.
  assert (C : ty = 0 \/ ty = 1 \/ ty = 2 \/ ty = 3 \/ ty = 4 \/ ty = 6 \/ ty = 7 \/ ty = 8 \/ ty = 9 \/ ty = 10).
  { unfold pdu_type_known in K. cbn [existsb] in K. lia. }
  set (h := header_bits v ty code len). pose proof (header_len v ty code len : length h = 8%nat) as Lh.
  assert (U : forall j, u32_at (8 + j) (h ++ d) = u32_at j d) by (apply u32_skip, Lh).
  assert (A : forall j, at_ (8 + j) (h ++ d) = at_ j d) by (apply at_skip, Lh).
  assert (S : forall j n, slice (8 + j) n (h ++ d) = slice j n d) by (apply slice_skip, Lh).
  assert (Ln : nlen d = N.of_nat (length d)) by reflexivity.
  assert (Nh : forall l, nlen (h ++ l) = 8 + nlen l) by (intros; rewrite nlen_app; unfold nlen at 1; rewrite Lh; reflexivity).
  unfold parse_pdu_body. cbv zeta.
  destruct C as [-> | [-> | [-> | [-> | [-> | [-> | [-> | [-> | [-> | ->]]]]]]]]]; unfold validate_length.
  - destruct (N.eqb_spec len 12) as [->|]; cbn [tbind]; [|exact I]. rewrite ?(A 0%nat : at_ 8 _ = _), ?(U 0%nat : u32_at 8 _ = _), ?(S 0%nat _ : slice 8 _ _ = _).
    destruct (take_be 4 d) as (n & r & -> & Hn & Br); [lia|auto|]. rewrite u32_head by exact Hn. cbn [tbind]. exists (h ++ be 4 n), r. rewrite <- app_assoc, Nh, nlen_be. split; [auto|split; [reflexivity|constructor; auto]].
  - destruct (N.eqb_spec len 12) as [->|]; cbn [tbind]; [|exact I]. rewrite ?(A 0%nat : at_ 8 _ = _), ?(U 0%nat : u32_at 8 _ = _), ?(S 0%nat _ : slice 8 _ _ = _).
    destruct (take_be 4 d) as (n & r & -> & Hn & Br); [lia|auto|]. rewrite u32_head by exact Hn. cbn [tbind]. exists (h ++ be 4 n), r. rewrite <- app_assoc, Nh, nlen_be. split; [auto|split; [reflexivity|constructor; auto]].
  - destruct (N.eqb_spec len 8) as [->|]; cbn [tbind]; [|exact I]. exists h, d. split; [auto|split; [unfold nlen; rewrite Lh; reflexivity|constructor; auto]].
  - destruct (N.eqb_spec len 8) as [->|]; cbn [tbind]; [|exact I]. exists h, d. split; [auto|split; [unfold nlen; rewrite Lh; reflexivity|constructor; auto]].
  - destruct (N.eqb_spec len 20) as [->|]; cbn [tbind]; [|exact I].
    rewrite ?(A 0%nat : at_ 8 _ = _), ?(U 0%nat : u32_at 8 _ = _), ?(S 0%nat _ : slice 8 _ _ = _). rewrite ?(A 1%nat : at_ 9 _ = _), ?(U 1%nat : u32_at 9 _ = _), ?(S 1%nat _ : slice 9 _ _ = _). rewrite ?(A 2%nat : at_ 10 _ = _), ?(U 2%nat : u32_at 10 _ = _), ?(S 2%nat _ : slice 10 _ _ = _). rewrite ?(A 4%nat : at_ 12 _ = _), ?(U 4%nat : u32_at 12 _ = _), ?(S 4%nat _ : slice 12 _ _ = _). rewrite ?(A 8%nat : at_ 16 _ = _), ?(U 8%nat : u32_at 16 _ = _), ?(S 8%nat _ : slice 16 _ _ = _).
    destruct (take_1 d) as (f & d1 & -> & Hf & B1); [lia|auto|]. destruct (take_1 d1) as (p & d2 & -> & Hp & B2); [cbn [length] in *; lia|auto|]. destruct (take_1 d2) as (m & d3 & -> & Hm & B3); [cbn [length] in *; lia|auto|]. destruct (take_1 d3) as (z & d4 & -> & Hz & B4); [cbn [length] in *; lia|auto|].
    cbn [length] in Ln. destruct (take_be 4 d4) as (i & d5 & -> & Hi & B5); [lia|auto|]. rewrite app_length, be_length in Ln. destruct (take_be 4 d5) as (a & r & -> & Ha & Br); [lia|auto|].
    unfold at_. cbn [nth_error tbind]. unfold validate_prefix. destruct ((m <? p) || (32 <? m)) eqn:V; cbn [tbind]; [exact I|].
    change (f :: p :: m :: z :: be 4 i ++ be 4 a ++ r) with ([f; p; m; z] ++ (be 4 i ++ be 4 a ++ r)).
    replace (slice 4 4 ([f; p; m; z] ++ be 4 i ++ be 4 a ++ r)) with (TOk (be 4 i)) by (symmetry; apply slice_pos; [reflexivity|apply be_length]).
    replace (u32_at 8 ([f; p; m; z] ++ be 4 i ++ be 4 a ++ r)) with (TOk a).
    2: { symmetry. rewrite app_assoc. apply u32_pos; [rewrite app_length, be_length; reflexivity|exact Ha]. }
    cbn [tbind]. rewrite be_val_be_small by exact Hi. exists (h ++ [f; p; m; z] ++ be 4 i ++ be 4 a), r. rewrite <- !app_assoc. split; [auto|]. split; [rewrite Nh, !nlen_app, !nlen_be; reflexivity|]. constructor; auto; lia.
  - destruct (N.eqb_spec len 32) as [->|]; cbn [tbind]; [|exact I].
    rewrite ?(A 0%nat : at_ 8 _ = _), ?(U 0%nat : u32_at 8 _ = _), ?(S 0%nat _ : slice 8 _ _ = _). rewrite ?(A 1%nat : at_ 9 _ = _), ?(U 1%nat : u32_at 9 _ = _), ?(S 1%nat _ : slice 9 _ _ = _). rewrite ?(A 2%nat : at_ 10 _ = _), ?(U 2%nat : u32_at 10 _ = _), ?(S 2%nat _ : slice 10 _ _ = _). rewrite ?(A 4%nat : at_ 12 _ = _), ?(U 4%nat : u32_at 12 _ = _), ?(S 4%nat _ : slice 12 _ _ = _). rewrite ?(A 20%nat : at_ 28 _ = _), ?(U 20%nat : u32_at 28 _ = _), ?(S 20%nat _ : slice 28 _ _ = _).
    destruct (take_1 d) as (f & d1 & -> & Hf & B1); [lia|auto|]. destruct (take_1 d1) as (p & d2 & -> & Hp & B2); [cbn [length] in *; lia|auto|]. destruct (take_1 d2) as (m & d3 & -> & Hm & B3); [cbn [length] in *; lia|auto|]. destruct (take_1 d3) as (z & d4 & -> & Hz & B4); [cbn [length] in *; lia|auto|].
    cbn [length] in Ln. destruct (take_be 16 d4) as (i & d5 & -> & Hi & B5); [lia|auto|]. rewrite app_length, be_length in Ln. destruct (take_be 4 d5) as (a & r & -> & Ha & Br); [lia|auto|].
    unfold at_. cbn [nth_error tbind]. unfold validate_prefix. destruct ((m <? p) || (128 <? m)) eqn:V; cbn [tbind]; [exact I|].
    change (f :: p :: m :: z :: be 16 i ++ be 4 a ++ r) with ([f; p; m; z] ++ (be 16 i ++ be 4 a ++ r)).
    replace (slice 4 16 ([f; p; m; z] ++ be 16 i ++ be 4 a ++ r)) with (TOk (be 16 i)) by (symmetry; apply slice_pos; [reflexivity|apply be_length]).
    replace (u32_at 20 ([f; p; m; z] ++ be 16 i ++ be 4 a ++ r)) with (TOk a).
    2: { symmetry. rewrite app_assoc. apply u32_pos; [rewrite app_length, be_length; reflexivity|exact Ha]. }
    cbn [tbind]. rewrite be_val_be_small by exact Hi. exists (h ++ [f; p; m; z] ++ be 16 i ++ be 4 a), r. rewrite <- !app_assoc. split; [auto|]. split; [rewrite Nh, !nlen_app, !nlen_be; reflexivity|]. constructor; auto; lia.
  - destruct v.
    + destruct (N.eqb_spec len 12) as [->|]; cbn [tbind]; [|exact I]. rewrite ?(A 0%nat : at_ 8 _ = _), ?(U 0%nat : u32_at 8 _ = _), ?(S 0%nat _ : slice 8 _ _ = _).
      destruct (take_be 4 d) as (n & r & -> & Hn & Br); [lia|auto|]. rewrite u32_head by exact Hn. cbn [tbind]. exists (h ++ be 4 n), r. rewrite <- app_assoc, Nh, nlen_be. split; [auto|split; [reflexivity|constructor; auto]].
    + destruct (N.eqb_spec len 24) as [->|]; cbn [tbind]; [|exact I]. rewrite ?(A 0%nat : at_ 8 _ = _), ?(U 0%nat : u32_at 8 _ = _), ?(S 0%nat _ : slice 8 _ _ = _). rewrite ?(A 4%nat : at_ 12 _ = _), ?(U 4%nat : u32_at 12 _ = _), ?(S 4%nat _ : slice 12 _ _ = _). rewrite ?(A 8%nat : at_ 16 _ = _), ?(U 8%nat : u32_at 16 _ = _), ?(S 8%nat _ : slice 16 _ _ = _). rewrite ?(A 12%nat : at_ 20 _ = _), ?(U 12%nat : u32_at 20 _ = _), ?(S 12%nat _ : slice 20 _ _ = _).
      destruct (take_be 4 d) as (n & d1 & -> & Hn & B1); [lia|auto|]. rewrite app_length, be_length in Ln. destruct (take_be 4 d1) as (a & d2 & -> & Ha & B2); [lia|auto|]. rewrite app_length, be_length in Ln.
      destruct (take_be 4 d2) as (b & d3 & -> & Hb & B3); [lia|auto|]. rewrite app_length, be_length in Ln. destruct (take_be 4 d3) as (c & r & -> & Hx & Br); [lia|auto|].
      rewrite u32_head by exact Hn.
      replace (u32_at 4 (be 4 n ++ be 4 a ++ be 4 b ++ be 4 c ++ r)) with (TOk a) by (symmetry; apply u32_pos; [apply be_length|exact Ha]).
      replace (u32_at 8 (be 4 n ++ be 4 a ++ be 4 b ++ be 4 c ++ r)) with (TOk b) by (symmetry; rewrite app_assoc; apply u32_pos; [rewrite app_length, !be_length; reflexivity|exact Hb]).
      replace (u32_at 12 (be 4 n ++ be 4 a ++ be 4 b ++ be 4 c ++ r)) with (TOk c) by (symmetry; rewrite (app_assoc (be 4 a)), app_assoc; apply u32_pos; [rewrite !app_length, !be_length; reflexivity|exact Hx]).
      cbn [tbind]. exists (h ++ be 4 n ++ be 4 a ++ be 4 b ++ be 4 c), r. rewrite <- !app_assoc. split; [auto|]. split; [rewrite Nh, !nlen_app, !nlen_be; reflexivity|]. constructor; auto.
  - destruct (N.eqb_spec len 8) as [->|]; cbn [tbind]; [|exact I]. exists h, d. split; [auto|split; [unfold nlen; rewrite Lh; reflexivity|constructor; auto]].
  - destruct v; [exact I|]. destruct (N.ltb_spec len 34) as [|G]; [exact I|]. rewrite ?(A 0%nat : at_ 8 _ = _), ?(U 0%nat : u32_at 8 _ = _), ?(S 0%nat _ : slice 8 _ _ = _). rewrite ?(A 2%nat : at_ 10 _ = _), ?(U 2%nat : u32_at 10 _ = _), ?(S 2%nat _ : slice 10 _ _ = _). rewrite ?(A 22%nat : at_ 30 _ = _), ?(U 22%nat : u32_at 30 _ = _), ?(S 22%nat _ : slice 30 _ _ = _). rewrite ?(A 26%nat : at_ 34 _ = _), ?(U 26%nat : u32_at 34 _ = _), ?(S 26%nat _ : slice 34 _ _ = _).
    destruct (take_1 d) as (f & d1 & -> & Hf & B1); [lia|auto|]. cbn [length] in Ln. destruct (take_1 d1) as (z & d2 & -> & Hz & B2); [lia|auto|]. cbn [length] in Ln.
    destruct (take_n 20 d2) as (k & d3 & -> & Lk & Bk & B3); [lia|auto|]. rewrite app_length in Ln. destruct (take_be 4 d3) as (a & d4 & -> & Ha & B4); [lia|auto|]. rewrite app_length, be_length in Ln.
    destruct (take_n (N.to_nat (len - 34)) d4) as (sp & r & -> & Ls & Bs & Br); [lia|auto|].
    unfold at_. cbn [nth_error tbind]. change (f :: z :: k ++ be 4 a ++ sp ++ r) with ([f; z] ++ k ++ be 4 a ++ sp ++ r).
    replace (slice 2 20 ([f; z] ++ k ++ be 4 a ++ sp ++ r)) with (TOk k) by (symmetry; apply slice_pos; [reflexivity|exact Lk]).
    replace (u32_at 22 ([f; z] ++ k ++ be 4 a ++ sp ++ r)) with (TOk a) by (symmetry; rewrite app_assoc; apply u32_pos; [rewrite app_length, Lk; reflexivity|exact Ha]).
    replace (slice 26 (N.to_nat (len - 34)) ([f; z] ++ k ++ be 4 a ++ sp ++ r)) with (TOk sp).
    2: { symmetry. rewrite (app_assoc k), app_assoc. apply slice_pos; [rewrite !app_length, Lk, be_length; reflexivity|exact Ls]. }
    cbn [tbind]. assert (Z : len = 34 + nlen sp) by (unfold nlen; lia).
    assert (Q : (if 0 <? len - 34 then @TOk bytes sp else @TOk bytes []) = @TOk bytes sp) by (destruct (N.ltb_spec 0 (len - 34)); [reflexivity|]; destruct sp; [reflexivity|cbn [length] in Ls; lia]). unfold bytes in Q |- *. rewrite Q.
    cbn [tbind]. exists (h ++ [f; z] ++ k ++ be 4 a ++ sp), r. rewrite <- !app_assoc. split; [auto|]. unfold h. rewrite Z. split; [unfold nlen; rewrite !app_length, header_len, be_length, Lk; cbn [length]; lia|]. constructor; auto. rewrite <- Z; exact Hl.
  - destruct (N.ltb_spec len 16) as [|G]; [exact I|]. destruct (error_code_known code) eqn:Ek; cbn [negb]; [|exact I]. rewrite ?(A 0%nat : at_ 8 _ = _), ?(U 0%nat : u32_at 8 _ = _), ?(S 0%nat _ : slice 8 _ _ = _).
    destruct (take_be 4 d) as (n & d1 & -> & Hn & B1); [lia|auto|]. rewrite app_length, be_length in Ln. rewrite u32_head by exact Hn. cbn [tbind]. destruct (N.ltb_spec (len - 16) n) as [|G2]; [exact I|].
    destruct (take_n (N.to_nat n) d1) as (e & d2 & -> & Le & Be & B2); [lia|auto|]. rewrite app_length in Ln. destruct (take_be 4 d2) as (k & d3 & -> & Hk & B3); [lia|auto|]. rewrite app_length, be_length in Ln.
    replace (slice 12 (N.to_nat n) (h ++ be 4 n ++ e ++ be 4 k ++ d3)) with (TOk e).
    2: { symmetry. rewrite app_assoc. apply slice_pos; [rewrite app_length, Lh, be_length; reflexivity|exact Le]. }
    assert (Q0 : (if 0 <? n then @TOk bytes e else @TOk bytes []) = @TOk bytes e) by (destruct (N.ltb_spec 0 n); [reflexivity|]; destruct e; [reflexivity|cbn [length] in Le; lia]). unfold bytes in Q0 |- *. rewrite Q0.
    cbn [tbind].
    replace (u32_at (N.to_nat (12 + n)) (h ++ be 4 n ++ e ++ be 4 k ++ d3)) with (TOk k).
    2: { symmetry. rewrite (app_assoc (be 4 n)), app_assoc. apply u32_pos; [rewrite !app_length, Lh, be_length; lia|exact Hk]. }
    cbn [tbind]. destruct (N.ltb_spec (len - (12 + n + 4)) k) as [|G3]; [exact I|].
    destruct (take_n (N.to_nat k) d3) as (t & d4 & -> & Lt & Bt & B4); [lia|auto|]. rewrite app_length in Ln.
    replace (slice (N.to_nat (12 + n + 4)) (N.to_nat k) (h ++ be 4 n ++ e ++ be 4 k ++ t ++ d4)) with (TOk t).
    2: { symmetry. rewrite (app_assoc e), (app_assoc (be 4 n)), app_assoc. apply slice_pos; [rewrite !app_length, Lh, !be_length; lia|exact Lt]. }
    cbn [tbind].
    assert (Q : (if 0 <? k then (if utf8_ok t then @TOk bytes t else @TErr bytes TBadUtf8) else @TOk bytes []) = if utf8_ok t then @TOk bytes t else @TErr bytes TBadUtf8).
    { destruct (N.ltb_spec 0 k); [reflexivity|]. destruct t; [reflexivity|cbn [length] in Lt; lia]. }
    unfold bytes in Q |- *. rewrite Q. destruct (utf8_ok t) eqn:Ut; cbn [tbind]; [|exact I]. apply utf8_ok_iff in Ut.
    destruct (take_n (N.to_nat (len - (16 + n + k))) d4) as (z & r & -> & Lz & Bz & Br); [lia|auto|].
    assert (N1 : n = nlen e) by (unfold nlen; lia). assert (N2 : k = nlen t) by (unfold nlen; lia). assert (Z : len = 16 + nlen e + nlen t + nlen z) by (unfold nlen in *; lia).
    exists (h ++ be 4 n ++ e ++ be 4 k ++ t ++ z), r. rewrite <- !app_assoc. split; [auto|]. unfold h. rewrite Z, N1, N2. split; [unfold nlen; rewrite !app_length, header_len, !be_length; lia|].
    constructor; auto; [unfold error_code_known in Ek; cbn [existsb] in Ek; lia|rewrite <- Z; exact Hl].
Qed.
Lemma at_pos k a b r : length a = k -> at_ k (a ++ b :: r) = TOk b.
Proof. intros <-. apply at_app. Qed.
Ltac hlen := rewrite ?app_length, ?header_len, ?be_length; cbn [length]; try reflexivity; try lia.
Lemma parse_wire p x r : pdu_wire p x -> parse_rtr (x ++ r) = TOk (p, nlen x).
Proof.
  intros W. destruct W; rewrite <- ?app_assoc;
  rewrite parse_head by (auto; unfold u16, u32 in *; lia).
  - replace (8 + nlen (be 4 n ++ r) <? 12) with false by (unfold nlen; hlen). cbn [pdu_type_known existsb N.eqb Pos.eqb orb negb]. unfold parse_pdu_body. rewrite u32_pos by (hlen || assumption). cbn [validate_length N.eqb Pos.eqb tbind]. unfold nlen; hlen.
  - replace (8 + nlen (be 4 n ++ r) <? 12) with false by (unfold nlen; hlen). cbn [pdu_type_known existsb N.eqb Pos.eqb orb negb]. unfold parse_pdu_body. rewrite u32_pos by (hlen || assumption). cbn [validate_length N.eqb Pos.eqb tbind]. unfold nlen; hlen.
  - replace (8 + nlen r <? 8) with false by lia. cbn. unfold nlen; hlen.
  - replace (8 + nlen r <? 8) with false by lia. cbn. unfold nlen; hlen.
  - match goal with |- context [?a <? 20] => replace (a <? 20) with false by (unfold nlen; hlen) end. cbn [pdu_type_known existsb N.eqb Pos.eqb orb negb]. unfold parse_pdu_body. cbn [app]. rewrite at_pos by hlen.
    set (h := header_bits v 4 z 20). assert (Lh : length h = 8%nat) by apply header_len.
    assert (E9 : at_ 9 (h ++ f :: p :: m :: z' :: be 4 i ++ be 4 a ++ r) = TOk p) by exact (at_skip 8 h (f :: p :: m :: z' :: _) Lh 1).
    assert (E10 : at_ 10 (h ++ f :: p :: m :: z' :: be 4 i ++ be 4 a ++ r) = TOk m) by exact (at_skip 8 h (f :: p :: m :: z' :: _) Lh 2).
    assert (E12 : slice 12 4 (h ++ f :: p :: m :: z' :: be 4 i ++ be 4 a ++ r) = TOk (be 4 i)) by (change (f :: p :: m :: z' :: be 4 i ++ be 4 a ++ r) with ([f; p; m; z'] ++ be 4 i ++ be 4 a ++ r); rewrite app_assoc; apply slice_pos; [rewrite app_length, Lh; reflexivity|apply be_length]).
    assert (E16 : u32_at 16 (h ++ f :: p :: m :: z' :: be 4 i ++ be 4 a ++ r) = TOk a) by (change (f :: p :: m :: z' :: be 4 i ++ be 4 a ++ r) with ([f; p; m; z'] ++ be 4 i ++ be 4 a ++ r); rewrite (app_assoc _ (be 4 i)), app_assoc; apply u32_pos; [rewrite !app_length, Lh, be_length; reflexivity|assumption]).
    rewrite E9, E10, E12, E16. cbn [validate_length N.eqb Pos.eqb tbind]. unfold validate_prefix. replace ((m <? p) || (32 <? m)) with false by lia. cbn [tbind]. rewrite be_val_be_small by assumption. unfold nlen. rewrite app_length, Lh. hlen.
  - match goal with |- context [?a <? 32] => replace (a <? 32) with false by (unfold nlen; hlen) end. cbn [pdu_type_known existsb N.eqb Pos.eqb orb negb]. unfold parse_pdu_body. cbn [app]. rewrite at_pos by hlen.
    set (h := header_bits v 6 z 32). assert (Lh : length h = 8%nat) by apply header_len.
    assert (E9 : at_ 9 (h ++ f :: p :: m :: z' :: be 16 i ++ be 4 a ++ r) = TOk p) by exact (at_skip 8 h (f :: p :: m :: z' :: _) Lh 1).
    assert (E10 : at_ 10 (h ++ f :: p :: m :: z' :: be 16 i ++ be 4 a ++ r) = TOk m) by exact (at_skip 8 h (f :: p :: m :: z' :: _) Lh 2).
    assert (E12 : slice 12 16 (h ++ f :: p :: m :: z' :: be 16 i ++ be 4 a ++ r) = TOk (be 16 i)) by (change (f :: p :: m :: z' :: be 16 i ++ be 4 a ++ r) with ([f; p; m; z'] ++ be 16 i ++ be 4 a ++ r); rewrite app_assoc; apply slice_pos; [rewrite app_length, Lh; reflexivity|apply be_length]).
    assert (E16 : u32_at 28 (h ++ f :: p :: m :: z' :: be 16 i ++ be 4 a ++ r) = TOk a) by (change (f :: p :: m :: z' :: be 16 i ++ be 4 a ++ r) with ([f; p; m; z'] ++ be 16 i ++ be 4 a ++ r); rewrite (app_assoc _ (be 16 i)), app_assoc; apply u32_pos; [rewrite !app_length, Lh, be_length; reflexivity|assumption]).
    rewrite E9, E10, E12, E16. cbn [validate_length N.eqb Pos.eqb tbind]. unfold validate_prefix. replace ((m <? p) || (128 <? m)) with false by lia. cbn [tbind]. rewrite be_val_be_small by assumption. unfold nlen. rewrite app_length, Lh. hlen.
  - replace (8 + nlen (be 4 n ++ r) <? 12) with false by (unfold nlen; hlen). cbn [pdu_type_known existsb N.eqb Pos.eqb orb negb]. unfold parse_pdu_body. rewrite u32_pos by (hlen || assumption). cbn [validate_length N.eqb Pos.eqb tbind]. unfold nlen; hlen.
  - match goal with |- context [?a <? 24] => replace (a <? 24) with false by (unfold nlen; hlen) end. cbn [pdu_type_known existsb N.eqb Pos.eqb orb negb]. unfold parse_pdu_body. rewrite u32_pos by (hlen || assumption).
    set (h := header_bits RV1 7 i 24). assert (Lh : length h = 8%nat) by apply header_len.
    assert (E1 : u32_at 12 (h ++ be 4 n ++ be 4 r0 ++ be 4 t ++ be 4 e ++ r) = TOk r0) by (rewrite app_assoc; apply u32_pos; [rewrite !app_length, Lh, be_length; reflexivity|assumption]).
    assert (E2 : u32_at 16 (h ++ be 4 n ++ be 4 r0 ++ be 4 t ++ be 4 e ++ r) = TOk t) by (rewrite (app_assoc _ (be 4 r0)), app_assoc; apply u32_pos; [rewrite !app_length, Lh, !be_length; reflexivity|assumption]).
    assert (E3 : u32_at 20 (h ++ be 4 n ++ be 4 r0 ++ be 4 t ++ be 4 e ++ r) = TOk e) by (rewrite (app_assoc (be 4 r0)), (app_assoc (be 4 n)), (app_assoc h); apply u32_pos; [rewrite !app_length, Lh, !be_length; reflexivity|assumption]).
    rewrite E1, E2, E3. cbn [validate_length N.eqb Pos.eqb tbind]. unfold nlen. rewrite app_length, Lh. hlen.
  - replace (8 + nlen r <? 8) with false by lia. cbn. unfold nlen; hlen.
  - match goal with |- context [?a <? 34 + nlen s] => replace (a <? 34 + nlen s) with false by (unfold nlen; hlen) end. cbn [pdu_type_known existsb N.eqb Pos.eqb orb negb]. unfold parse_pdu_body. cbv zeta. replace (34 + nlen s <? 34) with false by lia. cbn [app]. rewrite at_pos by hlen.
    set (h := header_bits RV1 9 z (34 + nlen s)). assert (Lh : length h = 8%nat) by apply header_len.
    change (f :: z' :: k ++ be 4 a ++ s ++ r) with ([f; z'] ++ k ++ be 4 a ++ s ++ r).
    assert (E1 : slice 10 20 (h ++ [f; z'] ++ k ++ be 4 a ++ s ++ r) = TOk k) by (rewrite app_assoc; apply slice_pos; [rewrite !app_length, Lh; reflexivity|assumption]).
    assert (E2 : u32_at 30 (h ++ [f; z'] ++ k ++ be 4 a ++ s ++ r) = TOk a) by (rewrite (app_assoc _ k), app_assoc; apply u32_pos; [rewrite !app_length, Lh, H0; reflexivity|assumption]).
    assert (E3 : slice 34 (N.to_nat (34 + nlen s - 34)) (h ++ [f; z'] ++ k ++ be 4 a ++ s ++ r) = TOk s).
    { rewrite (app_assoc k), (app_assoc [f; z']), app_assoc. apply slice_pos; [rewrite !app_length, Lh, H0, be_length; reflexivity|unfold nlen; lia]. }
    rewrite E1, E2, E3. cbn [tbind].
    assert (Q : (if 0 <? 34 + nlen s - 34 then @TOk bytes s else @TOk bytes []) = @TOk bytes s) by (destruct (N.ltb_spec 0 (34 + nlen s - 34)); [reflexivity|]; destruct s; [reflexivity|rewrite nlen_cons in *; lia]).
    unfold bytes in Q |- *. rewrite Q. cbn [tbind]. f_equal. f_equal. unfold nlen. rewrite app_length, Lh. cbn [length]. rewrite !app_length, H0, be_length. lia.
  - set (len := 16 + nlen e + nlen t + nlen z). match goal with |- context [?a <? len] => replace (a <? len) with false by (unfold len, nlen; hlen) end. cbn [pdu_type_known existsb N.eqb Pos.eqb orb negb]. unfold parse_pdu_body. cbv zeta. replace (len <? 16) with false by (unfold len; lia).
    replace (negb (error_code_known c)) with false by (unfold error_code_known; cbn [existsb]; lia). assert (He : u32 (nlen e)) by (unfold u32 in *; lia). assert (Ht : u32 (nlen t)) by (unfold u32 in *; lia). rewrite u32_pos by (hlen || assumption).
    set (h := header_bits v 10 c len). assert (Lh : length h = 8%nat) by apply header_len.
    cbn [tbind]. replace (len - 16 <? nlen e) with false by (unfold len; lia).
    assert (E1 : slice 12 (N.to_nat (nlen e)) (h ++ be 4 (nlen e) ++ e ++ be 4 (nlen t) ++ t ++ z ++ r) = TOk e) by (rewrite app_assoc; apply slice_pos; [rewrite !app_length, Lh, be_length; reflexivity|unfold nlen; lia]).
    assert (E2 : u32_at (N.to_nat (12 + nlen e)) (h ++ be 4 (nlen e) ++ e ++ be 4 (nlen t) ++ t ++ z ++ r) = TOk (nlen t)) by (rewrite (app_assoc _ e), app_assoc; apply u32_pos; [rewrite !app_length, Lh, be_length; unfold nlen; lia|assumption]).
    assert (E3 : slice (N.to_nat (12 + nlen e + 4)) (N.to_nat (nlen t)) (h ++ be 4 (nlen e) ++ e ++ be 4 (nlen t) ++ t ++ z ++ r) = TOk t) by (rewrite (app_assoc e), (app_assoc (be 4 (nlen e))), app_assoc; apply slice_pos; [rewrite !app_length, Lh, !be_length; unfold nlen; lia|unfold nlen; lia]).
    rewrite E1.
    assert (Q0 : (if 0 <? nlen e then @TOk bytes e else @TOk bytes []) = @TOk bytes e) by (destruct e; reflexivity). unfold bytes in Q0 |- *. rewrite Q0. cbn [tbind]. rewrite E2. cbn [tbind].
    replace (len - (12 + nlen e + 4) <? nlen t) with false by (unfold len; lia). unfold bytes in E3 |- *. rewrite E3. cbn [tbind]. apply utf8_ok_iff in H1. rewrite H1.
    assert (Q : (if 0 <? nlen t then @TOk bytes t else @TOk bytes []) = @TOk bytes t) by (destruct t; reflexivity). unfold bytes in Q |- *. rewrite Q. cbn [tbind].
    f_equal. f_equal. unfold len, nlen. rewrite !app_length, Lh, !be_length. lia.
Qed.

(** ** Whole PDUs *)
Lemma header_cons v ty code len d v' : version_of v = Some v' -> v :: ty :: be 2 code ++ be 4 len ++ d = header_bits v' ty code len ++ d.
Proof. intros H. unfold header_bits. rewrite <- !app_assoc. cbn [app]. f_equal. unfold version_of in H. destruct v as [|p]; [|destruct p; try discriminate H]; injection H as <-; reflexivity. Qed.
Lemma parse_cases s : bytes_ok s ->
  match parse_rtr s with
  | TOk (p, n) => exists x r, s = x ++ r /\ nlen x = n /\ pdu_wire p x
  | TErr _ => True
  | TPanic => False
  end.
Proof.
  intros B. destruct (Nat.ltb_spec (length s) 8) as [S|G].
  { unfold parse_rtr. replace (Nat.ltb (length s) 8) with true by lia. exact I. }
  destruct (header_split s G B) as (v & ty & code & len & d & -> & Hv & Hy & Hc & Hl & Bd).
  destruct (version_of v) as [v'|] eqn:V.
  - rewrite (header_cons v ty code len d v' V), parse_head by assumption. destruct (N.ltb_spec (8 + nlen d) len); [exact I|]. destruct (pdu_type_known ty) eqn:K; cbn [negb]; [|exact I].
    pose proof (body_ok v' ty code len d K Hy Hc Hl ltac:(lia) Bd) as W. unfold body_spec in W. destruct (parse_pdu_body v' ty code len (header_bits v' ty code len ++ d)); cbn [tbind]; auto.
  - unfold parse_rtr. replace (Nat.ltb _ 8) with false by lia. set (s := v :: ty :: be 2 code ++ be 4 len ++ d) in *.
    destruct (list2 (be 2 code) (be_length _ _)) as (x & y & E2). destruct (list4 (be 4 len) (be_length _ _)) as (x1 & x2 & x3 & x4 & E4).
    assert (E : s = v :: ty :: x :: y :: x1 :: x2 :: x3 :: x4 :: d) by (unfold s; rewrite E2, E4; reflexivity). rewrite E. unfold u16_at, u32_at, at_. cbn [nth_error tbind Nat.add]. rewrite V.
    destruct (_ <? _); exact I.
Qed.
Lemma parse_iff s p n : bytes_ok s -> (parse_rtr s = TOk (p, n) <-> exists x r, s = x ++ r /\ nlen x = n /\ pdu_wire p x).
Proof.
  intros B. split.
  - intros H. pose proof (parse_cases s B) as W. rewrite H in W. exact W.
  - intros (x & r & -> & <- & W). apply parse_wire, W.
Qed.
Lemma encode_wire p : pdu_ok p -> pdu_wire p (encode_rtr p).
Proof.
  destruct p; cbn [pdu_ok encode_rtr]; rewrite ?header_bits_head; intros H.
  - destruct H. constructor; auto.
  - destruct H. constructor; auto.
  - constructor. reflexivity.
  - constructor. auto.
  - destruct H as (? & (? & ?) & ? & ?). constructor; auto; reflexivity.
  - destruct H as (? & (? & ?) & ? & ?). constructor; auto; reflexivity.
  - destruct v.
    + destruct H as (? & ? & -> & -> & ->). rewrite app_nil_r. constructor; auto.
    + destruct H as (? & ? & a & b & c & -> & -> & -> & ? & ? & ?). cbn [or_default]. constructor; auto.
  - constructor. reflexivity.
  - destruct H as (-> & ? & ? & ? & ? & ? & ?). constructor; auto; reflexivity.
  - destruct H as (? & ? & ? & ?). pose proof (w_error v code erroneous text []) as W. rewrite nlen_nil, N.add_0_r, app_nil_r in W. apply W; auto. constructor.
Qed.
Lemma wire_header p x : pdu_wire p x -> exists v ty code d, x = header_bits v ty code (nlen x) ++ d /\ u16 code /\ u32 (nlen x) /\ 8 <= nlen x.
Proof.
  intros W.
  assert (Z : forall v ty code len d, x = header_bits v ty code len ++ d -> nlen x = len -> u16 code -> u32 len -> exists v ty code d, x = header_bits v ty code (nlen x) ++ d /\ u16 code /\ u32 (nlen x) /\ 8 <= nlen x).
  { intros v ty code len d E L ? ?. exists v, ty, code, d. rewrite L, E at 1. repeat split; auto; [congruence|]. rewrite E. unfold nlen. rewrite app_length, header_len. lia. }
  destruct W; first
  [ eapply Z; [symmetry; apply app_nil_r|unfold nlen; rewrite header_len; reflexivity|assumption|reflexivity]
  | eapply Z; [reflexivity| |first [assumption|reflexivity|apply (N.le_lt_trans _ 8); [assumption|reflexivity]]|];
    [unfold nlen; rewrite ?app_length, ?header_len, ?be_length; cbn [length]; try reflexivity; try lia|try assumption; reflexivity] ].
Qed.
Lemma parse_prefix p x y z : pdu_wire p x -> x = y ++ z -> z <> [] ->
  parse_rtr y = TErr (TIncomplete (nlen y) (if nlen y <? 8 then 8 else nlen x)).
Proof.
  intros W E Z. destruct (wire_header p x W) as (v & ty & code & d & H & Hc & Hl & _).
  destruct (N.ltb_spec (nlen y) 8) as [S|G].
  { unfold parse_rtr. replace (Nat.ltb (length y) 8) with true by (unfold nlen in S; lia). reflexivity. }
  set (h := header_bits v ty code (nlen x)) in *. assert (Lh : length h = 8%nat) by apply header_len.
  assert (Y : y = h ++ skipn 8 y).
  { rewrite <- (firstn_skipn 8 y) at 1. f_equal. rewrite E in H. assert (K : firstn 8 (y ++ z) = firstn 8 (h ++ d)) by (rewrite H; reflexivity). unfold nlen in G.
    rewrite !firstn_app, Lh, Nat.sub_diag, (firstn_all2 h) in K by lia. replace (8 - length y)%nat with 0%nat in K by lia. rewrite !firstn_O, !app_nil_r in K. exact K. }
  rewrite Y at 1. unfold h. rewrite parse_head by assumption.
  assert (Q : 8 + nlen (skipn 8 y) = nlen y) by (rewrite Y at 2; rewrite nlen_app; unfold nlen at 2; rewrite Lh; reflexivity). rewrite Q.
  replace (nlen y <? nlen x) with true; [reflexivity|]. symmetry. apply N.ltb_lt. rewrite E, nlen_app. destruct z; [congruence|]. rewrite nlen_cons. lia.
Qed.

(** ** Streams *)
Lemma read_cases s : no_fail s -> bytes_ok (sbytes s) -> exists s', no_fail s' /\
  ((nlen (sbytes s) < 8 /\ read_rtr s = (TErr TIo, s') /\ sbytes s' = []) \/
   exists v ty code len d, sbytes s = v :: ty :: be 2 code ++ be 4 len ++ d /\ u16 code /\ u32 len /\
     ((len < 8 /\ read_rtr s = (TErr (TBadLength 8 len ty), s') /\ sbytes s' = d) \/
      (MAX_REPORT < len /\ read_rtr s = (TErr (TBadLength MAX_REPORT len ty), s') /\ sbytes s' = d) \/
      (8 <= len <= MAX_REPORT /\ nlen (sbytes s) < len /\ read_rtr s = (TErr TIo, s') /\ sbytes s' = []) \/
      (8 <= len <= MAX_REPORT /\ exists x r, sbytes s = x ++ r /\ nlen x = len /\ read_rtr s = (q <! parse_rtr x ;; TOk (fst q), s') /\ sbytes s' = r))).
Proof.
  intros F B. destruct (read_upto_flat 8 s F) as (s1 & F1 & B1 & R1). unfold read_rtr. rewrite R1.
  destruct (Nat.leb_spec 8 (length (sbytes s))) as [G|S].
  2: { exists s1. split; [exact F1|]. left. split; [unfold nlen; lia|]. split; [reflexivity|]. rewrite B1. apply skipn_all2. lia. }
  destruct (header_split _ G B) as (v & ty & code & len & d & E & Hv & Hy & Hc & Hl & Bd).
  destruct (list2 (be 2 code) (be_length _ _)) as (x & y & E2). destruct (list4 (be 4 len) (be_length _ _)) as (x1 & x2 & x3 & x4 & E4).
  assert (E' : sbytes s = v :: ty :: x :: y :: x1 :: x2 :: x3 :: x4 :: d) by (rewrite E, E2, E4; reflexivity).
  rewrite E' in B1 |- *. cbn [firstn skipn] in B1 |- *. unfold u32_at, at_. cbn [nth_error tbind Nat.add]. pose proof (be_val_be_small 4 len Hl) as V. rewrite E4 in V. rewrite V.
  destruct (N.ltb_spec len 8) as [S|G8].
  { exists s1. split; [exact F1|]. right. exists v, ty, code, len, d. rewrite E2, E4. repeat split; auto. }
  destruct (N.ltb_spec MAX_REPORT len) as [M|GM].
  { exists s1. split; [exact F1|]. right. exists v, ty, code, len, d. rewrite E2, E4. repeat split; auto. }
  destruct (read_upto_flat (N.to_nat (len - 8)) s1 F1) as (s2 & F2 & B2 & R2). rewrite R2, B1.
  exists s2. split; [exact F2|]. right. exists v, ty, code, len, d. rewrite E2, E4. repeat split; auto. right. right.
  destruct (Nat.leb_spec (N.to_nat (len - 8)) (length d)) as [G2|S].
  - right. split; [lia|]. exists (v :: ty :: x :: y :: x1 :: x2 :: x3 :: x4 :: firstn (N.to_nat (len - 8)) d), (skipn (N.to_nat (len - 8)) d).
    repeat split.
    + cbn [app]. rewrite firstn_skipn. reflexivity.
    + unfold nlen. cbn [length]. rewrite firstn_length_le by lia. lia.
    + rewrite B2, B1. reflexivity.
  - left. repeat split; auto. { unfold nlen. cbn [length]. lia. } rewrite B2, B1. apply skipn_all2. lia.
Qed.
Lemma read_wire s p x r : no_fail s -> sbytes s = x ++ r -> pdu_wire p x -> nlen x <= MAX_REPORT -> exists s', read_rtr s = (TOk p, s') /\ no_fail s' /\ sbytes s' = r.
Proof.
  intros F E W M. destruct (wire_header p x W) as (v & ty & code & d & H & Hc & Hl & G).
  destruct (read_upto_flat 8 s F) as (s1 & F1 & B1 & R1). unfold read_rtr. rewrite R1.
  set (h := header_bits v ty code (nlen x)) in *. assert (Lh : length h = 8%nat) by apply header_len.
  assert (Lx : length x = (8 + length d)%nat) by (rewrite H, app_length, Lh; reflexivity).
  assert (E' : sbytes s = h ++ d ++ r) by (rewrite E, H, <- app_assoc; reflexivity). clear E.
  rewrite E' in B1 |- *. rewrite app_length, Lh. replace (Nat.leb 8 _) with true by lia.
  rewrite firstn_app, Lh, Nat.sub_diag, (firstn_all2 h) by lia. rewrite skipn_app, Lh, Nat.sub_diag, (skipn_all2 h) in B1 by lia. cbn [firstn skipn app] in *. rewrite app_nil_r.
  assert (A4 : u32_at 4 h = TOk (nlen x)).
  { unfold h, header_bits. rewrite app_assoc, <- (app_nil_r (be 4 _)). apply u32_pos; [rewrite app_length, be_length; reflexivity|exact Hl]. }
  rewrite A4. assert (A1 : at_ 1 h = TOk ty) by reflexivity. rewrite A1. replace (nlen x <? 8) with false by lia. replace (MAX_REPORT <? nlen x) with false by lia.
  destruct (read_upto_flat (N.to_nat (nlen x - 8)) s1 F1) as (s2 & F2 & B2 & R2). rewrite R2.
  assert (Ld : N.to_nat (nlen x - 8) = length d) by (unfold nlen; lia). rewrite Ld, B1 in *. rewrite app_length. replace (Nat.leb _ _) with true by lia.
  rewrite firstn_app, Nat.sub_diag, firstn_all. rewrite skipn_app, Nat.sub_diag, skipn_all in B2. cbn [firstn skipn app] in *. rewrite app_nil_r, <- H.
  pose proof (parse_wire p x [] W) as P. rewrite app_nil_r in P. rewrite P. cbn [tbind fst]. eauto.
Qed.
Lemma reads_wire ps xs : Forall2 pdu_wire ps xs -> Forall (fun x => nlen x <= MAX_REPORT) xs -> forall s r, no_fail s -> sbytes s = concat xs ++ r ->
  exists s', reads_rtr (length ps) s = (map TOk ps, s') /\ no_fail s' /\ sbytes s' = r.
Proof.
  induction 1 as [|p x ps xs W _ IH]; intros M s r F E.
  - exists s. auto.
  - inversion M; subst. cbn [concat] in E. rewrite <- app_assoc in E. destruct (read_wire s p x _ F E W) as (s1 & R1 & F1 & B1); [assumption|].
    destruct (IH ltac:(assumption) s1 r F1 B1) as (s2 & R2 & F2 & B2). exists s2. cbn [length reads_rtr map]. rewrite R1, R2. auto.
Qed.
Lemma read_agree s1 s2 : no_fail s1 -> no_fail s2 -> sbytes s1 = sbytes s2 ->
  exists o s1' s2', read_rtr s1 = (o, s1') /\ read_rtr s2 = (o, s2') /\ no_fail s1' /\ no_fail s2' /\ sbytes s1' = sbytes s2'.
Proof.
  intros F1 F2 E. unfold read_rtr. destruct (read_upto_agree 8 s1 s2 F1 F2 E) as (st & g & t1 & t2 & -> & -> & G1 & G2 & E2 & _).
  destruct st; [|eexists _, _, _; eauto|eexists _, _, _; eauto].
  destruct (u32_at 4 g) as [len| |]; try (eexists _, _, _; eauto; fail). destruct (at_ 1 g) as [ty| |]; try (eexists _, _, _; eauto; fail).
  destruct (len <? 8); [eexists _, _, _; eauto|]. destruct (MAX_REPORT <? len); [eexists _, _, _; eauto|].
  destruct (read_upto_agree (N.to_nat (len - 8)) t1 t2 G1 G2 E2) as (st & g' & u1 & u2 & -> & -> & K1 & K2 & E3 & _).
  destruct st; eexists _, _, _; eauto.
Qed.
Lemma reads_agree n s1 s2 : no_fail s1 -> no_fail s2 -> sbytes s1 = sbytes s2 -> fst (reads_rtr n s1) = fst (reads_rtr n s2).
Proof.
  revert s1 s2. induction n as [|n IH]; intros s1 s2 F1 F2 E; [reflexivity|]. cbn [reads_rtr].
  destruct (read_agree s1 s2 F1 F2 E) as (o & t1 & t2 & -> & -> & G1 & G2 & E2). pose proof (IH t1 t2 G1 G2 E2) as W.
  destruct (reads_rtr n t1), (reads_rtr n t2). cbn [fst] in *. congruence.
Qed.
(** Undersize and oversize declarations never touch what follows the header. *)
Lemma read_refused v ty code len rest : u16 code -> u32 len -> len < 8 \/ MAX_REPORT < len ->
  exists e, read_rtr (Data (v :: ty :: be 2 code ++ be 4 len) :: rest) = (TErr e, Data [] :: rest) /\ e = TBadLength (if len <? 8 then 8 else MAX_REPORT) len ty.
Proof.
  intros Hc Hl C. eexists. split; [|reflexivity]. unfold read_rtr.
  destruct (list2 (be 2 code) (be_length _ _)) as (x & y & E2). destruct (list4 (be 4 len) (be_length _ _)) as (x1 & x2 & x3 & x4 & E4).
  pose proof (be_val_be_small 4 len Hl) as V. rewrite E2, E4 in *. cbn [app read_upto length Nat.leb firstn skipn]. unfold u32_at, at_. cbn [nth_error tbind Nat.add]. rewrite V.
  destruct (N.ltb_spec len 8); [reflexivity|]. replace (MAX_REPORT <? len) with true by lia. reflexivity.
Qed.
Lemma read_no_panic s : Forall (fun e => match e with Data l => bytes_ok l | _ => True end) s -> fst (read_rtr s) <> TPanic.
Proof.
  intros B. unfold read_rtr. destruct (read_upto 8 s) as [[st g] s1] eqn:E. assert (K : bytes_ok (sbytes s)).
  { clear E. induction B as [|e s He _ IH]; [constructor|]. destruct e; cbn [sbytes]; auto. apply bytes_ok_app; auto. }
  pose proof (read_upto_bytes _ _ _ _ _ E) as E1. rewrite E1 in K. apply bytes_ok_app in K as (Kg & K1). destruct st; try discriminate.
  apply read_upto_full in E. assert (U : exists n, u32_at 4 g = TOk n). { destruct g as [|? [|? [|? [|? [|? [|? [|? [|? [|? ?]]]]]]]]]; try discriminate E. eexists; reflexivity. }
  assert (A : exists n, at_ 1 g = TOk n). { destruct g as [|? [|? ?]]; try discriminate E. eexists; reflexivity. }
  destruct U as (len & ->). destruct A as (ty & ->). destruct (len <? 8); [discriminate|]. destruct (MAX_REPORT <? len); [discriminate|].
  destruct (read_upto (N.to_nat (len - 8)) s1) as [[st g'] s2] eqn:E2. destruct st; try discriminate. pose proof (read_upto_bytes _ _ _ _ _ E2) as E3. rewrite E3 in K1. apply bytes_ok_app in K1 as (Kb & _).
  pose proof (parse_cases (g ++ g')) as W. destruct (parse_rtr (g ++ g')) as [[p n]| |]; cbn [tbind fst]; try discriminate. exfalso. apply W. apply bytes_ok_app; auto.
Qed.
