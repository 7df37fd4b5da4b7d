(** Proofs about AS numbers. *)
From Coq Require Import ZifyBool ZifyNat ZifyN Lia.
From Verif Require Import Base BaseFacts Reader ReaderFacts Net Text FilterFacts AsnNum AsnNumSpec.

Lemma between_iff lo hi n : between lo hi n = true <-> lo <= n <= hi.
Proof. unfold between. rewrite Bool.andb_true_iff, !N.leb_le. tauto. Qed.
Ltac reg := unfold registered, registry; cbn [In].
Lemma registered_private n : registered n Private <-> 64512 <= n <= 65534 \/ 4200000000 <= n <= 4294967294.
Proof.
  reg. split.
  - intros (lo & hi & H & B). repeat destruct H as [H|H]; try discriminate H; try contradiction; injection H as <- <-; lia.
  - intros [B|B]; [exists 64512, 65534|exists 4200000000, 4294967294]; split; auto 12.
Qed.
Lemma registered_doc n : registered n Documentation <-> 64496 <= n <= 64511 \/ 65536 <= n <= 65551.
Proof.
  reg. split.
  - intros (lo & hi & H & B). repeat destruct H as [H|H]; try discriminate H; try contradiction; injection H as <- <-; lia.
  - intros [B|B]; [exists 64496, 64511|exists 65536, 65551]; split; auto 12.
Qed.
Lemma registered_any n : (exists p, registered n p) <->
  n = 0 \/ n = 112 \/ n = 23456 \/ 64496 <= n <= 64511 \/ 64512 <= n <= 65534 \/ n = 65535 \/ 65536 <= n <= 65551
  \/ 4200000000 <= n <= 4294967294 \/ n = 4294967295.
Proof.
  reg. split.
  - intros (p & lo & hi & H & B). repeat destruct H as [H|H]; try contradiction; injection H as <- <- <-; lia.
  - intros H. repeat destruct H as [H|H].
    + exists Zero, 0, 0. split; [auto 12|lia].
    + exists As112, 112, 112. split; [auto 12|lia].
    + exists Transition, 23456, 23456. split; [auto 12|lia].
    + exists Documentation, 64496, 64511. split; [auto 12|lia].
    + exists Private, 64512, 65534. split; [auto 12|lia].
    + exists Last16, 65535, 65535. split; [auto 12|lia].
    + exists Documentation, 65536, 65551. split; [auto 12|lia].
    + exists Private, 4200000000, 4294967294. split; [auto 12|lia].
    + exists Last32, 4294967295, 4294967295. split; [auto 12|lia].
Qed.
Lemma private_iff a : is_private a = true <-> registered (nm_value a) Private.
Proof. rewrite registered_private. unfold is_private. rewrite Bool.orb_true_iff, !between_iff. tauto. Qed.
Lemma documentation_iff a : is_documentation a = true <-> registered (nm_value a) Documentation.
Proof. rewrite registered_doc. unfold is_documentation. rewrite Bool.orb_true_iff, !between_iff. tauto. Qed.
Lemma reserved_iff a : is_reserved a = true <-> exists p, registered (nm_value a) p.
Proof. rewrite registered_any. unfold is_reserved. cbv zeta. rewrite !Bool.orb_true_iff, !between_iff, !N.eqb_eq. tauto. Qed.
Lemma registered_once n p q : registered n p -> registered n q -> p = q.
Proof.
  reg. intros (l1 & h1 & H & B) (l2 & h2 & H' & B').
  repeat destruct H as [H|H]; try contradiction; injection H as <- <- <-;
  repeat destruct H' as [H'|H']; try contradiction; injection H' as <- <- <-; try reflexivity; exfalso; lia.
Qed.

Lemma worth_digits_val d acc : fold_left (fun v c => v * 10 + (c - 48)) d acc = digits_val acc d.
Proof. revert acc. induction d as [|c d IH]; intros acc; cbn [fold_left digits_val]; auto. Qed.
Lemma parse_u32_iff s n : parse_u32 s = Some n <->
  exists sign d, s = sign ++ d /\ (sign = [] \/ sign = [43]) /\ digits d /\ worth d = n /\ n < 2 ^ 32.
Proof.
  assert (L : 0 < 2 ^ 32) by reflexivity.
  assert (G : forall t, t <> [] -> parse_digits 0 t = Some n <-> digits t /\ worth t = n /\ n < 2 ^ 32).
  { intros t Ht. rewrite (parse_digits_iff t 0 n L). unfold digits, worth. rewrite worth_digits_val. unfold all_digits. split.
    - intros (A & -> & B). auto.
    - intros ((_ & A) & <- & B). auto. }
  assert (C : s = [] \/ (exists t, s = 43 :: t) \/ (exists c t, s = c :: t /\ c <> 43)).
  { destruct s as [|c t]; auto. right. destruct (N.eq_dec c 43) as [->|]; [left; eauto|right; eauto]. }
  destruct C as [->|[(t & ->)|(c & t & -> & H)]].
  - split; [discriminate|]. intros (sg & d & E & _ & (D & _) & _). destruct sg; [|discriminate E]. cbn [app] in E. congruence.
  - destruct t as [|c t].
    + split; [discriminate|]. intros (sg & d & E & [->| ->] & (D & F) & _); cbn [app] in E.
      * subst d. apply Forall_inv in F. lia.
      * congruence.
    + change (parse_u32 (43 :: c :: t)) with (parse_digits 0 (c :: t)). rewrite G by discriminate. split.
      * intros K. exists [43], (c :: t). split; [reflexivity|]. tauto.
      * intros (sg & d & E & [->| ->] & (D & F) & K); cbn [app] in E.
        -- subst d. apply Forall_inv in F. lia.
        -- injection E as <-. split; auto. split; auto.
  - assert (X : parse_u32 (c :: t) = parse_digits 0 (c :: t)).
    { unfold parse_u32. destruct c as [|q]; [reflexivity|]. do 6 (destruct q as [q|q|]; try reflexivity). congruence. }
    rewrite X, G by discriminate. split.
    + intros K. exists [], (c :: t). split; [reflexivity|]. tauto.
    + intros (sg & d & E & [->| ->] & K); cbn [app] in E; [subst d; auto|congruence].
Qed.
Lemma strip_as s : (exists t, s = 65 :: 83 :: t) \/
  (match s with 65 :: 83 :: s' => parse_u32 s' | _ => parse_u32 s end = parse_u32 s /\ forall t, s <> 65 :: 83 :: t).
Proof.
  destruct s as [|a [|b t]].
  - right. split; [reflexivity|discriminate].
  - right. split; [|discriminate]. destruct a as [|q]; [reflexivity|]. do 7 (destruct q as [q|q|]; try reflexivity).
  - destruct (N.eq_dec a 65) as [->|Ha].
    + destruct (N.eq_dec b 83) as [->|Hb]; [left; eauto|]. right. split; [|congruence].
      destruct b as [|q]; [reflexivity|]. do 7 (destruct q as [q|q|]; try reflexivity). congruence.
    + right. split; [|congruence]. destruct a as [|q]; [reflexivity|]. do 7 (destruct q as [q|q|]; try reflexivity). congruence.
Qed.
Lemma from_str_iff s a : num_from_str s = Some a <-> exists n, a = new_32bit n /\ written s n.
Proof.
  unfold num_from_str.
  assert (O : forall o : option N, match o with Some n => Some (new_32bit n) | None => None end = Some a <-> exists n, a = new_32bit n /\ o = Some n).
  { intros [m|]; split; try discriminate.
    - intros H. injection H as <-. eauto.
    - intros (n & -> & H). injection H as ->. reflexivity.
    - intros (n & _ & H). discriminate. }
  rewrite O. clear O.
  assert (K : forall n, match s with 65 :: 83 :: s' => parse_u32 s' | _ => parse_u32 s end = Some n <-> written s n).
  { intros n. destruct (strip_as s) as [(t & ->)|(E & Hn)].
    - rewrite parse_u32_iff. unfold written. split.
      + intros (sg & d & -> & A). exists [65; 83], sg, d. split; [reflexivity|]. tauto.
      + intros (pre & sg & d & E & [->| ->] & B & (D & F) & K).
        * destruct B as [->| ->]; cbn [app] in E; [subst d; apply Forall_inv in F; lia|discriminate E].
        * cbn [app] in E. injection E as ->. exists sg, d. unfold digits. auto.
    - rewrite E, parse_u32_iff. unfold written. split.
      + intros (sg & d & -> & A). exists [], sg, d. split; [reflexivity|]. tauto.
      + intros (pre & sg & d & -> & [->| ->] & B); [exists sg, d; auto|]. cbn [app] in Hn. exfalso. exact (Hn _ eq_refl). }
  split; intros (n & A & B); exists n; (split; [exact A|]); apply K; exact B.
Qed.
Lemma written_show n : n < 2 ^ 32 -> written (dec n) n /\ written ([65; 83] ++ dec n) n.
Proof.
  intros H. destruct (dec_ok n) as (A & B & C). rewrite <- (worth_digits_val (dec n) 0) in C.
  split; [exists [], [], (dec n)|exists [65; 83], [], (dec n)]; unfold digits; cbn [app]; auto 10.
Qed.
Lemma held_bound a : held a -> nm_value a < 2 ^ 32.
Proof. intros [n H|n H]; cbn [nm_value new_16bit new_32bit]; lia. Qed.
Lemma text_back a : held a ->
  num_from_str (show_num a) = Some (new_32bit (nm_value a)) /\ num_from_str ([65; 83] ++ show_num a) = Some (new_32bit (nm_value a)).
Proof. intros H. destruct (written_show _ (held_bound a H)) as [W V]. split; apply from_str_iff; exists (nm_value a); auto. Qed.

Lemma be_bytes_iff k n : (exists b, length b = k /\ bytes_ok b /\ be_val b = n) <-> n < 256 ^ N.of_nat k.
Proof.
  split.
  - intros (b & <- & B & <-). apply be_val_bound; auto.
  - intros H. exists (be k n). split; [apply be_length|]. split; [apply be_ok|]. apply be_val_be_small; auto.
Qed.
Lemma encode_back a r : held a -> num_read (if nm_four a then Bits32 else Bits16) (num_encode a ++ r) = Ok (a, r).
Proof.
  intros [n H|n H]; unfold num_encode, num_read; cbn [nm_four nm_value new_16bit new_32bit].
  - rewrite N.mod_small by exact H. unfold read_u16. rewrite (bind_ok _ _ _ _ _ (read_be_be 2 n r H)). reflexivity.
  - unfold read_u32. rewrite (bind_ok _ _ _ _ _ (read_be_be 4 n r H)). reflexivity.
Qed.
Lemma i32_back z : is_i32 z -> u32_as_i32 (i32_as_u32 z) = z.
Proof.
  unfold is_i32, u32_as_i32, i32_as_u32. change (2 ^ 31)%Z with 2147483648%Z. intros H.
  assert (M : (z mod 4294967296 = if z <? 0 then z + 4294967296 else z)%Z).
  { destruct (Z.ltb_spec z 0).
    - symmetry. apply (Z.mod_unique z 4294967296 (-1)); lia.
    - apply Z.mod_small. lia. }
  rewrite M. destruct (Z.ltb_spec z 0).
  - destruct (N.ltb_spec (Z.to_N (z + 4294967296)) 2147483648); lia.
  - destruct (N.ltb_spec (Z.to_N z) 2147483648); lia.
Qed.
Lemma u32_back n : n < 2 ^ 32 -> i32_as_u32 (u32_as_i32 n) = n /\ is_i32 (u32_as_i32 n).
Proof.
  change (2 ^ 32) with 4294967296. intros H. unfold is_i32, u32_as_i32, i32_as_u32. change (2 ^ 31)%Z with 2147483648%Z.
  destruct (N.ltb_spec n 2147483648).
  - rewrite Z.mod_small by lia. lia.
  - assert (M : ((Z.of_N n - 4294967296) mod 4294967296 = Z.of_N n)%Z) by (symmetry; apply (Z.mod_unique _ 4294967296 (-1)); lia).
    rewrite M. lia.
Qed.
