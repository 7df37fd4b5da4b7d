(** Proofs about the text forms of communities. *)
From Coq Require Import String Lia ZifyBool ZifyNat ZifyN.
From Verif Require Import Base BaseFacts Net NetSpec AsPath Community CommunitySpec Attr Elem Filter FilterFacts Text Psv PsvSpec PsvFacts.

(** * Hexadecimal digits and lengths *)
Lemma hex_digit_inj m n : m < 16 -> n < 16 -> hex_digit m = hex_digit n -> m = n.
Proof. unfold hex_digit. destruct (N.ltb_spec m 10), (N.ltb_spec n 10); lia. Qed.
Lemma show_hex_inj a b : bytes_ok a -> bytes_ok b -> show_hex a = show_hex b -> a = b.
Proof.
  intros A. revert b. induction A as [|x a X A IH]; intros [|y b] B E; try discriminate E; [reflexivity|]. apply Forall_cons_iff in B as [Y B].
  unfold show_hex in E. cbn [flat_map hex_octet app] in E. injection E as E1 E2 E3. destruct (octet_halves x X) as (X1 & X2 & X3), (octet_halves y Y) as (Y1 & Y2 & Y3).
  apply hex_digit_inj in E1; auto. apply hex_digit_inj in E2; auto. rewrite (IH b B E3). f_equal. lia.
Qed.
Lemma show_hex_length b : length (show_hex b) = (2 * length b)%nat.
Proof. induction b as [|x b IH]; [reflexivity|]. unfold show_hex in *. cbn [flat_map hex_octet app length]. rewrite IH. lia. Qed.
Lemma show_hex_no c b : (c < 48 \/ 57 < c) -> (c < 65 \/ 70 < c) -> bytes_ok b -> ~ In c (show_hex b).
Proof. intros C D B I. pose proof (show_hex_chars b B) as F. rewrite Forall_forall in F. apply F in I. lia. Qed.
Lemma dec_digits_length f : forall n acc k, n < 10 ^ N.of_nat k -> (0 < k)%nat -> (length (dec_digits f n acc) <= k + length acc)%nat.
Proof.
  induction f as [|f IH]; intros n acc k H K; cbn [dec_digits]; [lia|]. destruct (N.eqb_spec (n / 10) 0) as [E|E]; [cbn [length]; lia|].
  destruct k as [|k]; [lia|]. rewrite Nat2N.inj_succ, N.pow_succ_r' in H. assert (D : n / 10 < 10 ^ N.of_nat k) by (apply N.div_lt_upper_bound; lia).
  destruct k as [|k]; [cbn in D; lia|]. specialize (IH (n / 10) ((48 + n mod 10) :: acc) (S k) D ltac:(lia)). cbn [length] in IH. lia.
Qed.
Lemma dec_length n : n < 2 ^ 32 -> (length (dec n) <= 10)%nat.
Proof. intros H. pose proof (dec_digits_length (S (N.to_nat (N.size n))) n [] 10) as L. cbn [length] in L. rewrite Nat.add_0_r in L. apply L; [|lia]. eapply N.lt_trans; [exact H|reflexivity]. Qed.

(** * Parts between colons *)
Lemma split_app c s t : split_on c (s ++ c :: t) = split_on c s ++ split_on c t.
Proof.
  induction s as [|x s IH]; cbn [app split_on]; [rewrite N.eqb_refl; reflexivity|]. destruct (x =? c); [rewrite IH; reflexivity|]. rewrite IH.
  destruct (split_on c s) as [|h l] eqn:E; [|reflexivity]. destruct s as [|y s]; [discriminate E|]. cbn [split_on] in E. destruct (y =? c); [discriminate E|]. destruct (split_on c s); discriminate E.
Qed.
Lemma split_ne c s : split_on c s <> [].
Proof. induction s as [|x s IH]; cbn [split_on]; [discriminate|]. destruct (x =? c); [discriminate|]. destruct (split_on c s); discriminate. Qed.
Lemma join_split c s : join [c] (split_on c s) = s.
Proof.
  induction s as [|x s IH]; [reflexivity|]. cbn [split_on]. pose proof (split_ne c s) as N. destruct (N.eqb_spec x c) as [-> |].
  - destruct (split_on c s) as [|h t]; [congruence|]. change (join [c] ([] :: h :: t)) with ([c] ++ join [c] (h :: t)). rewrite IH. reflexivity.
  - destruct (split_on c s) as [|h t]; [congruence|]. rewrite <- IH. destruct t; reflexivity.
Qed.
Lemma split_count c a b d : (3 <= length (split_on c (a ++ [c] ++ b ++ [c] ++ d)))%nat.
Proof.
  cbn [app]. rewrite !split_app, !app_length. pose proof (split_ne c a). pose proof (split_ne c b). pose proof (split_ne c d).
  destruct (split_on c a), (split_on c b), (split_on c d); try congruence; cbn [length]; lia.
Qed.
Lemma split_flat c l : l <> [] -> split_on c (join [c] l) = flat_map (split_on c) l.
Proof.
  induction l as [|x l IH]; intros N; [congruence|]. destruct l as [|y l]; [cbn [join flat_map]; rewrite app_nil_r; reflexivity|].
  change (join [c] (x :: y :: l)) with (x ++ c :: join [c] (y :: l)). rewrite split_app, IH by discriminate. reflexivity.
Qed.

(** The kind of a community, from its parts. *)
Definition tag (l : list bytes) : N :=
  match l with
  | [a] => if hd 0 a =? 110 then nlen a else 1
  | [a; b] => if hd 0 a =? 114 then 2 else if hd 0 a =? 97 then 3 else if hd 0 a =? 109 then 4 else 5
  | [a; b; c] => if hd 0 a =? 114 then 6 else if nlen c =? 12 then (if bytes_eqb a (str "3") then 7 else 107) else 8
  | [a; b; c; d] =>
      if bytes_eqb a (str "0") then (if bytes_eqb b (str "4") then 30 else 31)
      else if bytes_eqb a (str "64") then (if bytes_eqb b (str "4") then 32 else 33)
      else if bytes_eqb a (str "1") then 34 else if bytes_eqb a (str "65") then 35
      else if bytes_eqb a (str "2") then 36 else 37
  | _ => 40
  end.
Definition code (c : meta_community) : N :=
  match c with
  | MPlain CNoExport => 9 | MPlain CNoAdvertise => 12 | MPlain CNoExportSubConfed => 20 | MPlain (CCustom _ _) => 5
  | MLarge _ => 8 | MIpv6Extended _ => 40
  | MExtended x =>
      match x with
      | XTwoOctet t _ _ _ => if t then 31 else 33 | XIpv4 t _ _ _ => if t then 34 else 35 | XFourOctet t _ _ _ => if t then 36 else 37
      | XOpaque t _ _ => if t then 7 else 107 | XTrafficRate _ _ => 2 | XTrafficAction _ _ _ => 3 | XRedirect _ _ _ => 6
      | XTrafficMarking _ _ => 4 | XLinkBandwidth t _ _ => if t then 30 else 32 | XRaw _ => 1
      end
  end.
(** The parts of each. *)
Definition parts (T : shows) (c : meta_community) : list bytes :=
  match c with
  | MPlain CNoExport => [str "no-export"] | MPlain CNoAdvertise => [str "no-advertise"] | MPlain CNoExportSubConfed => [str "no-export-sub-confed"]
  | MPlain (CCustom a v) => [dec a; dec v]
  | MLarge c => [dec (lc_admin c); dec (lc_d0 c); dec (lc_d1 c)]
  | MIpv6Extended x => [dec (ect_code (ie_type x)); dec (ie_subtype x)] ++ split_on 58 (sh_ip T (V6 (ie_admin x))) ++ [show_hex [ie_l0 x; ie_l1 x]]
  | MExtended x =>
      let t := dec (ect_code (ext_type x)) in
      match x with
      | XTwoOctet _ st a l | XFourOctet _ st a l => [t; dec st; dec a; show_hex l]
      | XIpv4 _ st a l => [t; dec st; sh_ip T (V4 a); show_hex l]
      | XOpaque _ st v => [t; dec st; show_hex v]
      | XTrafficRate a r => [str "rate"; sh_single T r ++ str " bytes/sec (AS " ++ dec a ++ str ")"]
      | XTrafficAction a te sa => [str "action"; (if te then if sa then str "terminal,sample" else str "terminal" else if sa then str "sample" else []) ++ str " (AS " ++ dec a ++ str ")"]
      | XRedirect _ a l => [str "redirect"; str "AS" ++ dec a; show_hex l]
      | XTrafficMarking a d => [str "mark"; str "DSCP" ++ dec d ++ str " (AS " ++ dec a ++ str ")"]
      | XLinkBandwidth _ a b => [t; dec 4; dec a; sh_single T b]
      | XRaw b => [show_hex b]
      end
  end.
Lemma show_parts T c : show_meta T c = join [58] (parts T c).
Proof.
  destruct c as [[| | |a v]|x|x|x]; try reflexivity.
  - destruct x as [t st a l|t st a l|t st a l|t st v|a r|a te sa|st a l|a d|t a b|b]; try reflexivity.
    destruct te, sa; reflexivity.
  - cbn [show_meta parts]. unfold show_ipv6_ext, colons. rewrite <- (join_split 58 (sh_ip T (V6 (ie_admin x)))) at 1. set (s := split_on 58 _). assert (N : s <> []) by apply split_ne. clearbody s.
    change (join [58] [dec (ect_code (ie_type x)); dec (ie_subtype x); join [58] s; show_hex [ie_l0 x; ie_l1 x]]) with (dec (ect_code (ie_type x)) ++ [58] ++ dec (ie_subtype x) ++ [58] ++ (join [58] s ++ 58 :: join [58] [show_hex [ie_l0 x; ie_l1 x]])).
    rewrite <- (join_app 58 s) by (auto; discriminate). destruct s as [|y s]; [congruence|]. reflexivity.
Qed.
Lemma str_no c s : listed s c = false -> ~ In c s.
Proof. intros E I. apply listed_iff in I. congruence. Qed.
Lemma figs_no c s : Forall figure s -> listed (str "0123456789.-infNa") c = false -> ~ In c s.
Proof. intros F E I. rewrite Forall_forall in F. apply F in I. apply listed_iff in I. congruence. Qed.
Lemma dots_no c s : Forall dotted s -> listed (str "0123456789.") c = false -> ~ In c s.
Proof. intros F E I. rewrite Forall_forall in F. apply F in I. apply listed_iff in I. congruence. Qed.
Lemma cols_no c s : Forall coloned s -> listed (str "0123456789abcdef:.") c = false -> ~ In c s.
Proof. intros F E I. rewrite Forall_forall in F. apply F in I. apply listed_iff in I. congruence. Qed.
Lemma app_no {A} (c : A) s t : ~ In c s -> ~ In c t -> ~ In c (s ++ t).
Proof. rewrite in_app_iff. tauto. Qed.
Lemma split_no c s : Forall (fun p => ~ In c p) (split_on c s).
Proof.
  induction s as [|x s IH]; cbn [split_on]; [repeat constructor; intros []|]. destruct (N.eqb_spec x c) as [E|E]; [constructor; [intros []|exact IH]|].
  destruct (split_on c s) as [|h t]; [repeat constructor; intros [H|[]]; congruence|]. apply Forall_cons_iff in IH as [H F]. constructor; [|exact F]. intros [K|K]; [congruence|exact (H K)].
Qed.
Lemma parts_no T c : shows_ok T -> comm_ok c -> Forall (fun s => ~ In 58 s) (parts T c).
Proof.
  intros (_ & _ & S & _ & _ & I4 & I6 & _) C. destruct c as [[| | |a v]|x|x|x]; cbn [parts comm_ok] in *.
  1-4: repeat (apply Forall_cons || apply Forall_nil); try (apply dec_no; lia); apply str_no; reflexivity.
  - destruct x as [t st a l|t st a l|t st a l|t st v|a r|a te sa|st a l|a d|t a b|b]; cbn [ext_ok] in C;
      repeat (apply Forall_cons || apply Forall_nil); repeat apply app_no; try (apply dec_no; lia); try (apply str_no; reflexivity);
      try (apply show_hex_no; [lia|lia|]; unfold octets_of in C; tauto); try (apply (figs_no _ _ (S _ (proj2 C))); reflexivity).
    + destruct C as (_ & A & _). destruct (I4 _ A) as [_ F]. apply (dots_no _ _ F). reflexivity.
    + destruct te, sa; apply str_no; reflexivity.
  - destruct C as (_ & _ & A & B0 & B1). destruct (I6 _ A) as [F _].
    apply Forall_cons; [apply dec_no; lia|]. apply Forall_cons; [apply dec_no; lia|]. apply Forall_app. split; [apply split_no|]. apply Forall_cons; [|apply Forall_nil].
    apply show_hex_no; [lia|lia|]. repeat constructor; assumption.
  - repeat (apply Forall_cons || apply Forall_nil); apply dec_no; lia.
Qed.
Lemma hd_dec n : 48 <= hd 0 (dec n) <= 57.
Proof. pose proof (dec_ne n). pose proof (dec_digit n) as F. destruct (dec n); [congruence|]. apply Forall_cons_iff in F as [F _]. exact F. Qed.
Lemma eqb_dec n m s : str s = dec m -> n <> m -> bytes_eqb (dec n) (str s) = false.
Proof. intros S N. destruct (bytes_eqb (dec n) (str s)) eqn:E; [|reflexivity]. apply bytes_eqb_eq in E. rewrite S in E. apply dec_inj in E. contradiction. Qed.
Lemma tag_code T c : shows_ok T -> comm_ok c -> tag (parts T c) = code c.
Proof.
  intros (_ & _ & S & _ & _ & I4 & I6 & _) C. destruct c as [[| | |a v]|x|x|x]; cbn [parts comm_ok code] in *; try reflexivity.
  - unfold tag. pose proof (hd_dec a). destruct (N.eqb_spec (hd 0 (dec a)) 114); [lia|]. destruct (N.eqb_spec (hd 0 (dec a)) 97); [lia|]. destruct (N.eqb_spec (hd 0 (dec a)) 109); [lia|reflexivity].
  - destruct x as [t st a l|t st a l|t st a l|t st v|a r|a te sa|st a l|a d|t a b|b]; cbn [ext_ok] in C; try reflexivity.
    + destruct t; cbn [tag]; change (dec (ect_code (ext_type (XTwoOctet true st a l)))) with (str "0") || change (dec (ect_code (ext_type (XTwoOctet false st a l)))) with (str "64"); rewrite (eqb_dec st 4 "4" eq_refl); try reflexivity;
        destruct C as (_ & _ & _ & N); intros E; apply N; left; symmetry; exact E.
    + destruct t; reflexivity.
    + destruct t; reflexivity.
    + destruct C as (_ & L & _). destruct t; unfold tag, nlen; rewrite show_hex_length, L; reflexivity.
    + destruct t; reflexivity.
    + destruct C as ((L & B) & _). destruct b as [|x b]; [discriminate L|]. apply Forall_cons_iff in B as [X _]. destruct (octet_halves x X) as (H & _). apply hex_digit_chars in H.
      unfold tag, show_hex. cbn [flat_map hex_octet app hd]. destruct (N.eqb_spec (hex_digit (x / 16)) 110); [lia|reflexivity].
  - destruct C as (_ & _ & A & _). destruct (I6 _ A) as (_ & a & b & d & E). rewrite E. pose proof (split_count 58 a b d) as L. destruct (split_on 58 (a ++ [58] ++ b ++ [58] ++ d)) as [|s1 [|s2 [|s3 s]]]; cbn [length] in L; try lia. reflexivity.
  - destruct C as (_ & _ & D). apply dec_length in D. unfold tag. pose proof (hd_dec (lc_admin x)). destruct (N.eqb_spec (hd 0 (dec (lc_admin x))) 114); [lia|]. unfold nlen. destruct (N.eqb_spec (N.of_nat (length (dec (lc_d1 x)))) 12); [lia|reflexivity].
Qed.
Lemma parts_ne T c : parts T c <> [].
Proof. destruct c as [[]|[]|x|x]; discriminate. Qed.
Lemma as_tail a b s t : s ++ str " (AS " ++ dec a ++ str ")" = t ++ str " (AS " ++ dec b ++ str ")" -> s = t /\ a = b.
Proof.
  intros E. change (str ")") with [41] in E. rewrite !app_assoc in E. apply app_inj_tail in E as [E _]. rewrite <- !app_assoc in E.
  assert (G : forall u, exists v, dec u = v) by eauto.
  assert (K : forall s t x y, ~ In 32 x -> ~ In 32 y -> s ++ (32 :: str "(AS") ++ 32 :: x = t ++ (32 :: str "(AS") ++ 32 :: y -> s = t /\ x = y).
  { clear. intros s t x y X Y E. apply (f_equal (split_on 32)) in E. change ((32 :: str "(AS") ++ 32 :: x) with (32 :: (str "(AS" ++ 32 :: x)) in E. change ((32 :: str "(AS") ++ 32 :: y) with (32 :: (str "(AS" ++ 32 :: y)) in E.
    rewrite !split_app in E. rewrite (split_plain 32 x X), (split_plain 32 y Y) in E. change (split_on 32 (str "(AS")) with [str "(AS"] in E. cbn [app] in E.
    change [str "(AS"; x] with ([str "(AS"] ++ [x]) in E. change [str "(AS"; y] with ([str "(AS"] ++ [y]) in E. rewrite !app_assoc in E. apply app_inj_tail in E as [E ->]. apply app_inj_tail in E as [E _]. split; [|reflexivity].
    rewrite <- (join_split 32 s), <- (join_split 32 t), E. reflexivity. }
  destruct (K s t (dec a) (dec b)) as [A B]; [apply dec_no; lia|apply dec_no; lia|exact E|]. apply dec_inj in B. auto.
Qed.
Lemma ect_code_inj t u : ect_ok t -> ect_ok u -> ect_code t = ect_code u -> t = u.
Proof. destruct t, u; cbn [ect_ok ect_code In]; intros A B E; try discriminate E; try reflexivity; subst; try reflexivity; exfalso; intuition lia. Qed.
Lemma meta_inj T c d : shows_ok T -> comm_ok c -> comm_ok d -> show_meta T c = show_meta T d -> same_comm c d.
Proof.
  intros O C D E. rewrite !show_parts in E. apply join_inj in E; try apply parts_no; try apply parts_ne; auto.
  assert (G : code c = code d) by (rewrite <- (tag_code T c), <- (tag_code T d), E; auto).
  pose proof O as (_ & _ & _ & SI & _ & _ & _ & II).
  destruct c as [[| | |a v]|x|x|x], d as [[| | |a' v']|y|y|y]; try (left; reflexivity); cbn [code] in G; try discriminate G;
    try (destruct y as [[|] ? ? ?|[|] ? ? ?|[|] ? ? ?|[|] ? ?|? ?|? ? ?|? ? ?|? ?|[|] ? ?|?]; discriminate G);
    try (destruct x as [[|] ? ? ?|[|] ? ? ?|[|] ? ? ?|[|] ? ?|? ?|? ? ?|? ? ?|? ?|[|] ? ?|?]; discriminate G).
  - left. cbn [parts] in E. injection E as E1 E2. apply dec_inj in E1, E2. subst. reflexivity.
  - cbn [comm_ok] in C, D.
    destruct x as [t st a l|t st a l|t st a l|t st v|a r|a te sa|st a l|a m|t a b|b], y as [t' st' a' l'|t' st' a' l'|t' st' a' l'|t' st' v'|a' r'|a' te' sa'|st' a' l'|a' m'|t' a' b'|b'];
      try (destruct t, t'; discriminate G); try (destruct t; discriminate G); try (destruct t'; discriminate G); try discriminate G;
      cbn [parts ext_ok] in *; unfold octets_of in *.
    + assert (t = t') by (destruct t, t'; try discriminate G; reflexivity). injection E as _ E2 E3 E4. apply dec_inj in E2, E3. apply show_hex_inj in E4; [|tauto|tauto]. left. subst. reflexivity.
    + assert (t = t') by (destruct t, t'; try discriminate G; reflexivity). injection E as _ E2 E3 E4. apply dec_inj in E2. apply II in E3; [|apply C|apply D]. injection E3 as E3. apply show_hex_inj in E4; [|tauto|tauto]. left. subst. reflexivity.
    + assert (t = t') by (destruct t, t'; try discriminate G; reflexivity). injection E as _ E2 E3 E4. apply dec_inj in E2, E3. apply show_hex_inj in E4; [|tauto|tauto]. left. subst. reflexivity.
    + assert (t = t') by (destruct t, t'; try discriminate G; reflexivity). injection E as _ E2 E3. apply dec_inj in E2. apply show_hex_inj in E3; [|tauto|tauto]. left. subst. reflexivity.
    + assert (E' : sh_single T r ++ str " bytes/sec" ++ (str " (AS " ++ dec a ++ str ")") = sh_single T r' ++ str " bytes/sec" ++ (str " (AS " ++ dec a' ++ str ")")) by exact (f_equal (fun l => nth 1 l []) E).
      rewrite (app_assoc (sh_single T r)), (app_assoc (sh_single T r')) in E'.
      apply as_tail in E' as [E' ->]. apply app_inv_tail in E'. apply SI in E'; [|tauto|tauto]. destruct E' as [-> |E']; [left; reflexivity|right; auto].
    + assert (E' := f_equal (fun l => nth 1 l []) E). cbn [nth] in E'. clear E. apply as_tail in E' as [E ->]. left. destruct te, sa, te', sa'; try discriminate E; reflexivity.
    + assert (E1 := f_equal (fun l => nth 1 l []) E). assert (E2 := f_equal (fun l => nth 2 l []) E). cbn [nth] in E1, E2. apply app_inv_head in E1. apply dec_inj in E1. apply show_hex_inj in E2; [|tauto|tauto].
      left. destruct C as (-> & _), D as (-> & _). subst. reflexivity.
    + assert (E' := f_equal (fun l => nth 1 l []) E). cbn [nth] in E'. clear E. rename E' into E. rewrite (app_assoc (str "DSCP")), (app_assoc (str "DSCP")) in E. apply as_tail in E as [E ->]. apply app_inv_head in E. apply dec_inj in E. left. subst. reflexivity.
    + assert (t = t') by (destruct t, t'; try discriminate G; reflexivity). injection E as _ E2 E3. apply dec_inj in E2. apply SI in E3; [|tauto|tauto]. subst. destruct E3 as [-> |E3]; [left; reflexivity|right; auto].
    + injection E as E. apply show_hex_inj in E; [|tauto|tauto]. left. subst. reflexivity.
  - cbn [parts comm_ok] in *. destruct C as (C1 & C2 & C3 & C4 & C5), D as (D1 & D2 & D3 & D4 & D5). cbn [app] in E. injection E as E1 E2 E3. apply dec_inj in E1, E2. apply app_inj_tail in E3 as [E3 E4].
    apply ect_code_inj in E1; auto. change (show_hex [ie_l0 x; ie_l1 x] = show_hex [ie_l0 y; ie_l1 y]) in E4. apply show_hex_inj in E4; [|repeat constructor; assumption|repeat constructor; assumption]. injection E4 as E4 E5.
    assert (E6 : sh_ip T (V6 (ie_admin x)) = sh_ip T (V6 (ie_admin y))) by (rewrite <- (join_split 58 (sh_ip T (V6 (ie_admin x)))), E3, join_split; reflexivity).
    apply II in E6; auto. injection E6 as E6. left. destruct x as [x1 x2 x3 x4 x5], y as [y1 y2 y3 y4 y5]; cbn [ie_type ie_subtype ie_admin ie_l0 ie_l1] in *. subst. reflexivity.
  - left. cbn [parts] in E. injection E as E1 E2 E3. apply dec_inj in E1, E2, E3. destruct x as [x1 x2 x3], y as [y1 y2 y3]; cbn [lc_admin lc_d0 lc_d1] in *. subst. reflexivity.
Qed.
Lemma same_shown T c d : shows_ok T -> same_comm c d -> show_meta T c = show_meta T d.
Proof.
  intros (_ & _ & _ & _ & NI & _) [-> |H]; [reflexivity|]. destruct c as [|[]| |]; try contradiction; destruct d as [|[]| |]; try contradiction.
  - destruct H as (-> & A & B). cbn [show_meta show_ext]. rewrite (NI _ _ A B). reflexivity.
  - destruct H as (-> & -> & A & B). cbn [show_meta show_ext]. rewrite (NI _ _ A B). destruct transitive0; reflexivity.
Qed.

(** * Lists of communities *)
(** A text of several words is known by the start of its first. *)
Definition words (w : bytes) : nat :=
  match w with
  | 114 :: 97 :: _ => 4 | 97 :: _ => 3 | 109 :: _ => 3 | _ => 1
  end.
Lemma meta_field T c : shows_ok T -> comm_ok c -> Forall fieldc (show_meta T c).
Proof.
  intros (_ & _ & S & _ & _ & I4 & I6 & _) C.
  assert (L : forall s, forallb fieldcb (str s) = true -> Forall fieldc (str s)) by (intros; apply fieldcb_all; assumption).
  assert (F58 : fieldc 58) by (unfold fieldc; lia). assert (F44 : fieldc 44) by (unfold fieldc; lia).
  destruct c as [[| | |a v]|x|x|x]; cbn [show_meta comm_ok] in *; try (apply L; reflexivity).
  - apply join_field; auto. repeat (apply Forall_cons || apply Forall_nil); apply dec_field.
  - destruct x as [t st a l|t st a l|t st a l|t st v|a r|a te sa|st a l|a m|t a b|b]; cbn [ext_ok show_ext] in *; unfold octets_of in C;
      try (apply join_field; auto; repeat (apply Forall_cons || apply Forall_nil); try apply dec_field; try (apply show_hex_field; tauto); try (apply figure_field, S; tauto));
      repeat (apply Forall_app; split); try (apply L; reflexivity); try apply dec_field; try (apply show_hex_field; tauto); try (apply figure_field, S; tauto).
    + destruct C as (_ & A & _). apply dotted_field, I4, A.
    + destruct te, sa; apply fieldcb_all; reflexivity.
    + vm_compute; repeat split; discriminate.
  - destruct C as (_ & _ & A & B0 & B1). apply join_field; auto. do 2 (apply Forall_cons; [apply dec_field|]). apply Forall_cons; [apply coloned_field, I6, A|]. apply Forall_cons; [apply show_hex_field; repeat constructor; assumption|apply Forall_nil].
  - apply join_field; auto. repeat (apply Forall_cons || apply Forall_nil); apply dec_field.
Qed.
Lemma words_other x s : x <> 114 -> x <> 97 -> x <> 109 -> words (x :: s) = 1%nat.
Proof. intros A B C. unfold words. destruct x as [|q]; [reflexivity|]. repeat (destruct q as [q|q|]; try reflexivity); lia. Qed.
Lemma words_dec n s : words (dec n ++ s) = 1%nat.
Proof. pose proof (hd_dec n). pose proof (dec_ne n). destruct (dec n) as [|x r]; [congruence|]. cbn [hd app] in *. apply words_other; lia. Qed.
Lemma one_word T c s : show_meta T c = s -> ~ In 32 s -> words s = 1%nat -> length (split_on 32 (show_meta T c)) = words (hd [] (split_on 32 (show_meta T c))).
Proof. intros -> N W. rewrite split_plain by exact N. cbn [length hd]. rewrite W. reflexivity. Qed.
Lemma meta_words T c : shows_ok T -> comm_ok c -> length (split_on 32 (show_meta T c)) = words (hd [] (split_on 32 (show_meta T c))).
Proof.
  intros O C. pose proof O as (_ & _ & S & _ & _ & I4 & I6 & _).
  assert (P : forall l, Forall (fun s => ~ In 32 s) l -> ~ In 32 (colons l)).
  { intros l F I. apply In_join in I as [I|(s & I & J)]; [discriminate|]. rewrite Forall_forall in F. exact (F s I J). }
  destruct c as [[| | |a v]|x|x|x]; cbn [comm_ok] in *; try reflexivity.
  - eapply one_word; [reflexivity| |apply words_dec]. cbn [show_meta show_community]. apply P. repeat (apply Forall_cons || apply Forall_nil); apply dec_no; lia.
  - destruct x as [t st a l|t st a l|t st a l|t st v|a r|a te sa|st a l|a m|t a b|b]; cbn [ext_ok] in C; unfold octets_of in C.
    + eapply one_word; [reflexivity| |apply words_dec]. apply P. repeat (apply Forall_cons || apply Forall_nil); try (apply dec_no; lia). apply show_hex_no; [lia|lia|tauto].
    + eapply one_word; [reflexivity| |apply words_dec]. apply P. repeat (apply Forall_cons || apply Forall_nil); try (apply dec_no; lia); [apply (dots_no 32 _ (proj2 (I4 _ (proj1 (proj2 C))))); reflexivity|]. apply show_hex_no; [lia|lia|tauto].
    + eapply one_word; [reflexivity| |apply words_dec]. apply P. repeat (apply Forall_cons || apply Forall_nil); try (apply dec_no; lia). apply show_hex_no; [lia|lia|tauto].
    + eapply one_word; [reflexivity| |apply words_dec]. apply P. repeat (apply Forall_cons || apply Forall_nil); try (apply dec_no; lia). apply show_hex_no; [lia|lia|tauto].
    + cbn [show_meta show_ext]. change (str " bytes/sec (AS ") with (32 :: str "bytes/sec" ++ 32 :: str "(AS" ++ [32]). rewrite app_assoc.
      replace ((str "rate:" ++ sh_single T r) ++ (32 :: str "bytes/sec" ++ 32 :: str "(AS" ++ [32]) ++ dec a ++ str ")") with ((str "rate:" ++ sh_single T r) ++ 32 :: str "bytes/sec" ++ 32 :: str "(AS" ++ 32 :: dec a ++ str ")") by (cbn [app]; rewrite <- !app_assoc; reflexivity).
      assert (N : ~ In 32 (str "rate:" ++ sh_single T r)) by (apply app_no; [apply str_no; reflexivity|apply (figs_no 32 _ (S _ (proj2 C))); reflexivity]).
      rewrite !split_app, (split_plain 32 _ N), (split_plain 32 (dec a ++ str ")")) by (apply app_no; [apply dec_no; lia|apply str_no; reflexivity]). reflexivity.
    + cbn [show_meta show_ext]. change (str " (AS ") with (32 :: str "(AS" ++ [32]). rewrite app_assoc. set (u := str "action:" ++ _).
      assert (U : ~ In 32 u /\ exists z, u = 97 :: z) by (subst u; split; [destruct te, sa; apply str_no; reflexivity|eexists; reflexivity]). clearbody u. destruct U as [N (z & U)].
      replace (u ++ (32 :: str "(AS" ++ [32]) ++ dec a ++ str ")") with (u ++ 32 :: str "(AS" ++ 32 :: dec a ++ str ")") by (cbn [app]; rewrite <- !app_assoc; reflexivity).
      rewrite !split_app, (split_plain 32 _ N), (split_plain 32 (dec a ++ str ")")) by (apply app_no; [apply dec_no; lia|apply str_no; reflexivity]). rewrite U. reflexivity.
    + eapply one_word; [reflexivity| |reflexivity]. cbn [show_meta show_ext]. repeat apply app_no; try (apply str_no; reflexivity); try (apply dec_no; lia). apply show_hex_no; [lia|lia|tauto].
    + cbn [show_meta show_ext]. change (str " (AS ") with (32 :: str "(AS" ++ [32]). rewrite app_assoc. set (u := str "mark:DSCP" ++ _).
      assert (U : ~ In 32 u /\ exists z, u = 109 :: z) by (subst u; split; [apply app_no; [apply str_no; reflexivity|apply dec_no; lia]|eexists; reflexivity]). clearbody u. destruct U as [N (z & U)].
      replace (u ++ (32 :: str "(AS" ++ [32]) ++ dec a ++ str ")") with (u ++ 32 :: str "(AS" ++ 32 :: dec a ++ str ")") by (cbn [app]; rewrite <- !app_assoc; reflexivity).
      rewrite !split_app, (split_plain 32 _ N), (split_plain 32 (dec a ++ str ")")) by (apply app_no; [apply dec_no; lia|apply str_no; reflexivity]). rewrite U. reflexivity.
    + eapply one_word; [reflexivity| |apply words_dec]. apply P. repeat (apply Forall_cons || apply Forall_nil); try (apply dec_no; lia). apply (figs_no 32 _ (S _ (proj2 C))); reflexivity.
    + eapply one_word; [reflexivity| |]; cbn [show_meta show_ext]; [apply show_hex_no; [lia|lia|tauto]|]. destruct C as ((L & B) & _). destruct b as [|x b]; [discriminate L|]. apply Forall_cons_iff in B as [X _].
      destruct (octet_halves x X) as (H & _). apply hex_digit_chars in H. unfold show_hex. cbn [flat_map hex_octet app]. apply words_other; lia.
  - destruct C as (_ & _ & A & B0 & B1). eapply one_word; [reflexivity| |apply words_dec]. apply P. repeat (apply Forall_cons || apply Forall_nil); try (apply dec_no; lia); [apply (cols_no 32 _ (proj1 (I6 _ A))); reflexivity|].
    apply show_hex_no; [lia|lia|repeat constructor; assumption].
  - eapply one_word; [reflexivity| |apply words_dec]. apply P. repeat (apply Forall_cons || apply Forall_nil); apply dec_no; lia.
Qed.
Lemma code_unique {A} (f : A -> list bytes) (k : bytes -> nat) l : forall m, Forall (fun x => f x <> [] /\ length (f x) = k (hd [] (f x))) l -> Forall (fun x => f x <> [] /\ length (f x) = k (hd [] (f x))) m ->
  flat_map f l = flat_map f m -> map f l = map f m.
Proof.
  induction l as [|x l IH]; intros [|y m] L M E.
  - reflexivity.
  - exfalso. apply Forall_cons_iff in M as [(Y & _) _]. cbn [flat_map] in E. destruct (f y); [congruence|discriminate E].
  - exfalso. apply Forall_cons_iff in L as [(X & _) _]. cbn [flat_map] in E. destruct (f x); [congruence|discriminate E].
  - apply Forall_cons_iff in L as [(X & X') L], M as [(Y & Y') M]. cbn [flat_map] in E.
    assert (H : hd [] (f x) = hd [] (f y)) by (destruct (f x), (f y); try congruence; cbn [app hd] in *; injection E; auto).
    assert (K : length (f x) = length (f y)) by congruence. assert (G : f x = f y /\ flat_map f l = flat_map f m).
    { revert E K. clear. revert l m. generalize (f x), (f y). intros u. induction u as [|a u IHu]; intros [|b v] l m E K; try discriminate K; [auto|]. cbn [app] in E. injection E as -> E. injection K as K. destruct (IHu v l m E K) as [-> ->]. auto. }
    destruct G as [G G']. cbn [map]. rewrite G. f_equal. apply IH; assumption.
Qed.
Lemma meta_ne T c : shows_ok T -> comm_ok c -> show_meta T c <> [].
Proof.
  intros O C E. pose proof (meta_words T c O C) as W. pose proof (tag_code T c O C) as G. rewrite show_parts in E. pose proof (parts_ne T c) as N.
  assert (P : parts T c = [[]]). { destruct (parts T c) as [|a [|b l]]; [congruence|cbn [join] in E; subst; reflexivity|]. cbn [join] in E. destruct a; discriminate E. }
  rewrite P in G. destruct c as [[]|[]|x|x]; try discriminate P. destruct C as ((L & _) & _). cbn [parts] in P. injection P as P. apply (f_equal (@length _)) in P. rewrite show_hex_length, L in P. discriminate P.
Qed.
Lemma comms_iff T l m : shows_ok T -> Forall comm_ok l -> Forall comm_ok m -> join [32] (map (show_meta T) l) = join [32] (map (show_meta T) m) <-> Forall2 same_comm l m.
Proof.
  intros O L M. split.
  - intros E. assert (Z : forall l, Forall comm_ok l -> [] = join [32] (map (show_meta T) l) -> l = []).
    { intros [|c r] F H; [reflexivity|]. apply Forall_cons_iff in F as [F _]. pose proof (meta_ne T c O F). cbn [map join] in H. destruct r; cbn [map] in H; destruct (show_meta T c); try congruence; discriminate H. }
    destruct l as [|c l]; [rewrite (Z m M E); constructor|]. destruct m as [|d m]; [symmetry in E; apply (Z _ L) in E; discriminate E|].
    apply (f_equal (split_on 32)) in E. rewrite !split_flat in E by discriminate. rewrite !flat_map_concat_map, !map_map, <- !flat_map_concat_map in E.
    assert (U : forall l, Forall comm_ok l -> Forall (fun c => split_on 32 (show_meta T c) <> [] /\ length (split_on 32 (show_meta T c)) = words (hd [] (split_on 32 (show_meta T c)))) l).
    { intros k F. eapply Forall_impl; [|exact F]. intros x X. split; [apply split_ne|apply meta_words; auto]. }
    apply (code_unique (fun c => split_on 32 (show_meta T c)) words _ _ (U _ L) (U _ M)) in E. clear U Z. revert E L M. generalize (c :: l), (d :: m). clear c d l m. intros l.
    induction l as [|c l IH]; intros [|d m] E L M; try discriminate E; [constructor|]. cbn [map] in E. injection E as E1 E2. apply Forall_cons_iff in L as [C L], M as [D M]. constructor; [|apply IH; assumption].
    apply (meta_inj T); auto. rewrite <- (join_split 32 (show_meta T c)), E1, join_split. reflexivity.
  - intros F. f_equal. clear L M. induction F as [|c d l m H F IH]; [reflexivity|]. cbn [map]. rewrite (same_shown T c d O H), IH. reflexivity.
Qed.
