(** Proofs about filters. *)
From Coq Require Import Lia Floats.SpecFloat.
From Verif Require Import Tac Base BaseFacts Net NetSpec NetFacts AsPath Community Attr Elem Text Filter FilterSpec.

(** * Prefixes *)
Lemma ip_eqb_iff a b : ip_eqb a b = true <-> a = b.
Proof. destruct a, b; cbn; rewrite ?N.eqb_eq; split; intros H; try discriminate; congruence. Qed.
Lemma ipnet_eqb_iff a b : ipnet_eqb a b = true <-> a = b.
Proof. unfold ipnet_eqb. rewrite andb_true_iff, ip_eqb_iff, N.eqb_eq. destruct a, b. cbn. split; [intros []; congruence|intros H; inversion H; auto]. Qed.
Lemma same_family_iff a b : same_family a b = true <-> is_v4 (net_addr a) = is_v4 (net_addr b).
Proof. unfold same_family. apply Bool.eqb_true_iff. Qed.
Lemma leb_addr a b : is_v4 a = is_v4 b -> ip_leb a b = (ip_val a <=? ip_val b).
Proof. destruct a, b; cbn; auto; discriminate. Qed.
Lemma leb_bcast a b : is_v4 (net_addr a) = is_v4 (net_addr b) -> ip_leb (broadcast a) (broadcast b) = (net_broadcast a <=? net_broadcast b).
Proof. unfold broadcast. intros <-. destruct (is_v4 (net_addr a)); reflexivity. Qed.
Lemma prefix_match_iff m i t : prefix_match m i t = true <-> prefix_holds m i t.
Proof.
  unfold prefix_match, prefix_holds, range_in. cbn zeta. destruct (ipnet_eqb i m) eqn:E.
  - apply ipnet_eqb_iff in E. destruct t; tauto.
  - assert (i <> m) by (intros ->; assert (H : ipnet_eqb m m = true) by (apply ipnet_eqb_iff; auto); congruence).
    destruct (same_family m i) eqn:F; cbn [negb].
    + apply same_family_iff in F. rewrite !(leb_addr _ _ F), !(leb_addr _ _ (eq_sym F)), !(leb_bcast _ _ F), !(leb_bcast _ _ (eq_sym F)).
      destruct t; rewrite ?orb_true_iff, ?andb_true_iff, ?N.leb_le; intuition congruence.
    + assert (is_v4 (net_addr m) <> is_v4 (net_addr i)) by (intros G; apply same_family_iff in G; congruence).
      destruct t; split; intros K; try discriminate; intuition congruence.
Qed.
Lemma range_contains big small : net_ok big -> net_ok small -> canonical big -> canonical small -> (range_in big small <-> contains big small).
Proof.
  unfold net_ok, canonical, range_in, contains, net_broadcast. intros [_ B] [_ S] CB CS.
  assert (G : is_v4 (net_addr big) = is_v4 (net_addr small) -> net_width (net_addr big) = net_width (net_addr small)) by (destruct (net_addr big), (net_addr small); cbn; congruence).
  cbn zeta. set (x := ip_val (net_addr big)) in *. set (y := ip_val (net_addr small)) in *.
  split; intros (F & H1 & H2); (split; [exact F|]); specialize (G F); rewrite <- G in *; clear F;
  set (w := net_width (net_addr big)) in *; clearbody w x y.
  - rewrite CB, CS in H2.
    assert (P1 : 0 < 2 ^ (w - net_len small)) by (apply N.neq_0_lt_0, N.pow_nonzero; discriminate).
    assert (P2 : 0 < 2 ^ (w - net_len big)) by (apply N.neq_0_lt_0, N.pow_nonzero; discriminate).
    assert (L : 2 ^ (w - net_len small) <= 2 ^ (w - net_len big)) by lia.
    split. { apply N.pow_le_mono_r_iff in L; lia. }
    set (hb := 2 ^ (w - net_len big)) in *. set (hs := 2 ^ (w - net_len small)) in *. clearbody hb hs.
    pose proof (N.div_mod x hb ltac:(lia)) as D. rewrite CB in D.
    apply (N.div_unique y hb (x / hb) (y - x)); lia.
  - assert (E : 2 ^ (w - net_len big) = 2 ^ (net_len small - net_len big) * 2 ^ (w - net_len small)) by (rewrite <- N.pow_add_r; f_equal; clear - H1 S; lia).
    assert (P1 : 0 < 2 ^ (w - net_len small)) by (apply N.neq_0_lt_0, N.pow_nonzero; discriminate).
    assert (P2 : 0 < 2 ^ (net_len small - net_len big)) by (apply N.neq_0_lt_0, N.pow_nonzero; discriminate).
    rewrite CB, CS. set (hb := 2 ^ (w - net_len big)) in *. set (hs := 2 ^ (w - net_len small)) in *. set (q := 2 ^ (net_len small - net_len big)) in *.
    clearbody hb hs q. assert (0 < hb) by (clear - E P1 P2; rewrite E; apply N.mul_pos_pos; assumption).
    pose proof (N.div_mod x hb ltac:(lia)) as D. rewrite CB, N.add_0_r in D.
    pose proof (N.div_mod y hb ltac:(lia)) as D2. rewrite <- H2 in D2. rewrite <- D in D2. pose proof (N.mod_lt y hb ltac:(lia)).
    split; [lia|]. pose proof (N.div_mod y hs ltac:(lia)) as D3. rewrite CS, N.add_0_r in D3.
    assert (K : x = (x / hb * q) * hs) by (rewrite D at 1; rewrite E; lia).
    set (u := x / hb * q) in *. set (v := y / hs) in *. clearbody u v.
    assert (V : v < u + q). { apply (N.mul_lt_mono_pos_r hs); [lia|]. rewrite N.mul_add_distr_r, <- K, <- E. lia. }
    assert (M : (v + 1) * hs <= (u + q) * hs) by (apply N.mul_le_mono_r; lia). rewrite !N.mul_add_distr_r, <- K, <- E in M. lia.
Qed.
Lemma contains_refl x : contains x x.
Proof. unfold contains. repeat split. lia. Qed.
Lemma prefix_contains m i t : net_ok m -> net_ok i -> canonical m -> canonical i ->
  prefix_match m i t = true <->
  match t with MExact => i = m | MSuper => contains i m | MSub => contains m i | MSuperSub => contains i m \/ contains m i end.
Proof.
  intros A B C D. rewrite prefix_match_iff. unfold prefix_holds.
  pose proof (contains_refl m). pose proof (range_contains i m B A D C). pose proof (range_contains m i A B C D).
  destruct t; intuition (subst; auto).
Qed.

(** * Elements *)
Lemma existsb_In {A} (eqb : A -> A -> bool) (E : forall a b, eqb a b = true <-> a = b) x l : existsb (eqb x) l = true <-> In x l.
Proof. rewrite existsb_exists. split; [intros (y & I & H); apply E in H; subst; auto|intros I; exists x; split; auto; apply E; auto]. Qed.
Lemma opt_is_iff {A} (eqb : A -> A -> bool) (E : forall a b, eqb a b = true <-> a = b) o a : opt_is eqb o a = true <-> o = Some a.
Proof. destruct o; cbn; [rewrite E|]; split; intros H; try discriminate; congruence. Qed.
Lemma is_some_iff {A} (o : option A) : is_some o = true <-> present o.
Proof. unfold present. destruct o; cbn; split; intros H; try discriminate; eauto. destruct H; discriminate. Qed.
Lemma origin_eqb_iff a b : origin_eqb a b = true <-> a = b.
Proof. destruct a, b; cbn; split; intros H; try discriminate; reflexivity. Qed.
Lemma leb_f64 a b : SFleb a b = true <-> f64_le a b.
Proof. unfold SFleb, f64_le. destruct (SFcompare a b) as [[]|]; split; intros H; try discriminate; auto; destruct H; discriminate. Qed.
Lemma origin_elem e a : vw_origin_asn (VElem e) a = true <-> exists l, e_origins e = Some l /\ In a l.
Proof.
  cbn [vw_origin_asn]. destruct (e_origins e) as [l|].
  - rewrite (existsb_In N.eqb N.eqb_eq). split; [eauto|]. intros (l' & H & I). assert (l = l') by congruence. subst. exact I.
  - split; [discriminate|intros (? & ? & _); discriminate].
Qed.
Lemma elem_matches show e f : match_filter show (VElem e) f = true <-> holds show e f.
Proof.
  induction f as [ | | | | | | | | |v| | | | | | | | | | | | | |p|g IH]; cbn [match_filter holds is_full_elem_view negb andb]; cbn [vw_prefix vw_peer vw_asn vw_type vw_time vw_path vw_community vw_field vw_atomic].
  - apply origin_elem.
  - rewrite existsb_exists. split.
    + intros (a & I & H). apply origin_elem in H as (l & H & J). eauto.
    + intros (a & l & I & H & J). exists a. split; auto. apply origin_elem. eauto.
  - apply prefix_match_iff.
  - rewrite existsb_exists. split; intros (p & I & H); exists p; (split; [exact I|]); apply prefix_match_iff; exact H.
  - apply ip_eqb_iff.
  - apply (existsb_In ip_eqb ip_eqb_iff).
  - apply N.eqb_eq.
  - apply (existsb_In N.eqb N.eqb_eq).
  - destruct (e_type e), t; cbn; split; intros H; try discriminate; reflexivity.
  - destruct v, (net_addr (p_net (e_prefix e))); cbn; split; intros H; try discriminate; eauto; destruct H; discriminate.
  - apply leb_f64.
  - apply leb_f64.
  - destruct (e_path e) as [p|]; [split; [eauto|intros (q & H & K); congruence]|split; [discriminate|intros (? & ? & _); discriminate]].
  - destruct (e_comms e) as [l|].
    + rewrite existsb_exists. split; [intros (c & I & H); eauto|intros (l' & c & H & I & K); exists c; split; congruence].
    + split; [discriminate|intros (? & ? & ? & _); discriminate].
  - apply (opt_is_iff N.eqb N.eqb_eq).
  - apply (opt_is_iff ip_eqb ip_eqb_iff).
  - apply (opt_is_iff origin_eqb origin_eqb_iff).
  - apply (opt_is_iff N.eqb N.eqb_eq).
  - apply (opt_is_iff N.eqb N.eqb_eq).
  - apply Bool.eqb_true_iff.
  - apply (opt_is_iff N.eqb N.eqb_eq).
  - apply (opt_is_iff N.eqb N.eqb_eq).
  - apply (opt_is_iff N.eqb N.eqb_eq).
  - destruct p; apply is_some_iff.
  - rewrite negb_true_iff, <- not_true_iff_false, IH. reflexivity.
Qed.
Lemma filters_all show v l : match_filters show v l = true <-> forall f, In f l -> match_filter show v f = true.
Proof. apply forallb_forall. Qed.

(** * Routes *)
Lemma route_agrees show e f : needs_elem f = false -> e_origins e = option_map iter_origins (e_path e) ->
  match_filter show (VRoute (project e)) f = match_filter show (VElem e) f.
Proof.
  intros N O. assert (G : forall a, vw_origin_asn (VRoute (project e)) a = vw_origin_asn (VElem e) a).
  { intros a. cbn. rewrite O. destruct (e_path e); [|reflexivity]. cbn [option_map].
    induction (iter_origins a0) as [|x l IH]; [reflexivity|]. cbn. rewrite IH, N.eqb_sym. reflexivity. }
  induction f; try discriminate N; cbn [match_filter is_full_elem_view negb andb is_elem_only_filter]; auto.
  - clear N. induction v as [|x v IH]; [reflexivity|]. cbn [existsb]. rewrite G, IH. reflexivity.
  - cbn [needs_elem] in N. rewrite (IHf N). destruct (is_elem_only_filter f) eqn:E; [|reflexivity].
    destruct f; discriminate.
Qed.
Lemma route_closed show r f : is_elem_only_filter f = true ->
  match_filter show (VRoute r) f = false /\ match_filter show (VRoute r) (FNegated f) = false.
Proof.
  intros H. split.
  - destruct f; try discriminate; reflexivity.
  - cbn [match_filter is_full_elem_view negb andb]. rewrite H. reflexivity.
Qed.

(** * Texts *)
Lemma parts_neg {A} (p : bytes -> option A) l n r x : parse_parts p (Some n) l = Some (r, x) -> x = Some n.
Proof.
  revert r. induction l as [|s l IH]; intros r; cbn [parse_parts]; [intros H; inversion H; auto|].
  destruct s as [|c s]; [apply IH|]. destruct (strip_bang (c :: s)) as [b v]. destruct (Bool.eqb n b) eqn:E; cbn [negb]; [|discriminate].
  apply Bool.eqb_prop in E. subst b. destruct (p v); [|discriminate]. destruct (parse_parts p (Some n) l) as [[r' x']|] eqn:P; [|discriminate].
  intros H. inversion H; subst. eapply IH; eauto.
Qed.
Lemma strip_valued s b v : s <> [] -> strip_bang s = (b, v) <-> (if b then s = 33 :: v else s = v /\ hd_error s <> Some 33).
Proof.
  destruct s as [|c s]; [congruence|]. intros _. cbn [hd_error]. destruct (N.eqb_spec c 33) as [->|Ne].
  - change (strip_bang (33 :: s)) with (true, s). destruct b; split; intros H; try (inversion H; subst; auto; fail). destruct H. congruence.
  - assert (E : strip_bang (c :: s) = (false, c :: s)).
    { unfold strip_bang. destruct c as [|q]; auto. do 6 (destruct q as [q|q|]; auto). congruence. }
    rewrite E. destruct b; split; intros H; try (inversion H; subst; try congruence; auto; fail).
    inversion H; subst. split; auto. congruence.
Qed.
Lemma parts_iff {A} (p : bytes -> option A) l n r : parse_parts p (Some n) l = Some (r, Some n) <->
  Forall2 (valued p n) (List.filter (fun x => match x with [] => false | _ => true end) l) r.
Proof.
  revert r. induction l as [|s l IH]; intros r; cbn [parse_parts List.filter].
  - split; [intros H; inversion H; constructor|intros H; inversion H; reflexivity].
  - destruct s as [|c s]; [apply IH|]. destruct (strip_bang (c :: s)) as [b v] eqn:E.
    pose proof (proj1 (strip_valued (c :: s) b v ltac:(discriminate)) E) as V.
    split.
    + destruct (Bool.eqb n b) eqn:Q; cbn [negb]; [|discriminate]. apply Bool.eqb_prop in Q. subst b.
      destruct (p v) as [a|] eqn:P; [|discriminate]. destruct (parse_parts p (Some n) l) as [[r' x']|] eqn:PP; [|discriminate].
      intros H. inversion H; subst. constructor; [exists v; auto|]. apply IH. reflexivity.
    + intros H. inversion H as [|? a ? r' (v' & P & V') F]; subst. apply strip_valued in V'; [|discriminate]. rewrite E in V'. inversion V'; subst.
      rewrite Bool.eqb_reflx. cbn [negb]. rewrite P. apply IH in F. rewrite F. reflexivity.
Qed.
Lemma parts_start {A} (p : bytes -> option A) l r x : parse_parts p None l = Some (r, x) -> r <> [] ->
  exists n, x = Some n /\ parse_parts p (Some n) l = Some (r, Some n).
Proof.
  induction l as [|s l IH]; cbn [parse_parts]; [intros H; inversion H; congruence|]. destruct s as [|c s]; [exact IH|].
  destruct (strip_bang (c :: s)) as [b v]. destruct (p v) as [a|]; [|discriminate]. destruct (parse_parts p (Some b) l) as [[r' x']|] eqn:P; [|discriminate].
  intros H _. inversion H; subst. pose proof (parts_neg _ _ _ _ _ P). subst. exists b. rewrite Bool.eqb_reflx. cbn [negb]. auto.
Qed.
Lemma parts_begin {A} (p : bytes -> option A) l r n : parse_parts p (Some n) l = Some (r, Some n) -> r <> [] -> parse_parts p None l = Some (r, Some n).
Proof.
  induction l as [|s l IH]; cbn [parse_parts]; [intros H; inversion H; congruence|]. destruct s as [|c s]; [exact IH|].
  destruct (strip_bang (c :: s)) as [b v]. destruct (Bool.eqb n b) eqn:Q; cbn [negb]; [|discriminate]. apply Bool.eqb_prop in Q. subst b. auto.
Qed.
Lemma list_iff {A} (p : bytes -> option A) s l n : parse_list p s = Some (l, n) <-> l <> [] /\ Forall2 (valued p n) (list_parts s) l.
Proof.
  unfold parse_list, list_parts. set (ps := split_on 44 _). split.
  - destruct (parse_parts p None ps) as [[[|a r] x]|] eqn:P; try discriminate. intros H. inversion H; subst. split; [discriminate|].
    destruct (parts_start _ _ _ _ P) as (n & -> & Q); [discriminate|]. apply parts_iff in Q. exact Q.
  - intros [Ne F]. apply parts_iff in F. rewrite (parts_begin _ _ _ _ F Ne). destruct l; [congruence|reflexivity].
Qed.
Lemma new_negated ps ty v : one_of ty multi_value = false -> one_of ty time_keys = false ->
  hd_error v <> Some 33 -> filter_new ps ty (33 :: v) = option_map FNegated (filter_new ps ty v).
Proof.
  intros M T H. unfold filter_new. rewrite M, T. cbn [strip_bang]. assert (E : strip_bang v = (false, v)).
  { destruct v as [|c v]; [reflexivity|]. apply strip_valued; [discriminate|]. auto. }
  rewrite E. cbn [andb]. assert (F : (match v with 33 :: _ => true | _ => false end) = false).
  { destruct v as [|c v]; [reflexivity|]. cbn [hd_error] in H. destruct c as [|q]; auto. do 6 (destruct q as [q|q|]; auto). congruence. }
  rewrite F. destruct (if bytes_eqb v [42] then present_field_for ty else None); [reflexivity|]. cbn [negate_if].
  destruct (new_base ps ty v); reflexivity.
Qed.
Lemma new_double ps ty v : one_of ty multi_value = false -> filter_new ps ty (33 :: 33 :: v) = None.
Proof. intros M. unfold filter_new. rewrite M. reflexivity. Qed.
Lemma new_time ps ty v : one_of ty time_keys = true -> filter_new ps ty (33 :: v) = None.
Proof.
  intros T. unfold filter_new. destruct (one_of ty multi_value) eqn:M.
  - unfold one_of in *. apply existsb_exists in T as (x & I & T). apply existsb_exists in M as (y & J & M).
    assert (B : forall a b, bytes_eqb a b = true -> a = b).
    { induction a as [|u a IH]; intros [|w b] H; try discriminate; auto. cbn in H. apply andb_true_iff in H as [H1 H2]. apply N.eqb_eq in H1. f_equal; auto. }
    apply B in T, M. subst ty. exfalso. clear - I J M. cbn in I, J. intuition (subst; discriminate).
  - cbn [strip_bang]. destruct (true && _); [reflexivity|]. rewrite T. reflexivity.
Qed.

(** * Numbers *)
Lemma dec_step fuel n acc : dec_digits (S fuel) n acc = if n / 10 =? 0 then (48 + n mod 10) :: acc else dec_digits fuel (n / 10) ((48 + n mod 10) :: acc).
Proof. reflexivity. Qed.
(** The value of a text of digits. *)
Fixpoint digits_val (acc : N) (s : bytes) : N := match s with [] => acc | c :: s' => digits_val (acc * 10 + (c - 48)) s' end.
Definition all_digits (s : bytes) : Prop := Forall (fun c => 48 <= c <= 57) s.
Lemma digits_mono s acc : acc <= digits_val acc s.
Proof. revert acc. induction s as [|c s IH]; intros acc; cbn; [lia|]. specialize (IH (acc * 10 + (c - 48))). lia. Qed.
Lemma parse_digits_iff s acc v : acc < 2 ^ 32 -> parse_digits acc s = Some v <-> all_digits s /\ v = digits_val acc s /\ v < 2 ^ 32.
Proof.
  change (2 ^ 32) with 4294967296. revert acc. induction s as [|c s IH]; intros acc A; cbn [parse_digits digits_val].
  - split; [intros H; assert (v = acc) by congruence; subst; repeat split; auto; constructor|intros (_ & -> & _); reflexivity].
  - destruct ((48 <=? c) && (c <=? 57)) eqn:D.
    + apply andb_true_iff in D as [D1 D2]. apply N.leb_le in D1, D2. destruct (N.ltb_spec 4294967295 (acc * 10 + (c - 48))).
      * split; [discriminate|]. intros (_ & -> & L). pose proof (digits_mono s (acc * 10 + (c - 48))). lia.
      * rewrite IH by lia. split; intros (F & E & L); repeat split; auto; [constructor; auto|inversion F; auto].
    + split; [discriminate|]. intros (F & _). inversion F as [|? ? G]; subst. apply andb_false_iff in D as [D|D]; apply N.leb_gt in D; lia.
Qed.
Lemma dec_digits_ok fuel n acc : n < 2 ^ N.of_nat fuel -> exists s, dec_digits fuel n acc = s ++ acc /\ (fuel <> 0%nat -> s <> []) /\ all_digits s /\ digits_val 0 s = n.
Proof.
  assert (V : forall s a b, digits_val a (s ++ [b]) = digits_val a s * 10 + (b - 48)).
  { induction s as [|c s IH]; intros a b; cbn; auto. }
  revert n acc. induction fuel as [|f IH]; intros n acc H.
  - exists []. change (2 ^ N.of_nat 0) with 1 in H. split; [reflexivity|]. split; [congruence|]. split; [constructor|cbn; lia].
  - rewrite dec_step. pose proof (N.div_mod n 10 ltac:(lia)) as D. pose proof (N.mod_lt n 10 ltac:(lia)) as M. destruct (N.eqb_spec (n / 10) 0) as [E|E].
    + exists [48 + n mod 10]. split; [reflexivity|]. split; [discriminate|]. split; [apply Forall_cons; [lia|apply Forall_nil]|cbn [digits_val]; lia].
    + rewrite Nat2N.inj_succ, N.pow_succ_r' in H. set (P := 2 ^ N.of_nat f) in *. clearbody P.
      destruct (IH (n / 10) ((48 + n mod 10) :: acc)) as (s & Es & _ & F & G); [lia|].
      exists (s ++ [48 + n mod 10]). rewrite Es, <- app_assoc. split; [reflexivity|]. split; [|split].
      * intros _ C. destruct s; discriminate.
      * apply Forall_app. split; auto. apply Forall_cons; [lia|apply Forall_nil].
      * rewrite V, G. lia.
Qed.
Lemma dec_ok n : dec n <> [] /\ all_digits (dec n) /\ digits_val 0 (dec n) = n.
Proof.
  unfold dec. destruct (dec_digits_ok (S (N.to_nat (N.size n))) n []) as (s & -> & A & B & C).
  - rewrite Nat2N.inj_succ, N2Nat.id, N.pow_succ_r'. pose proof (N.size_gt n). lia.
  - rewrite app_nil_r. auto.
Qed.
Lemma parse_dec n : n < 2 ^ 32 -> parse_u32 (dec n) = Some n.
Proof.
  intros H. destruct (dec_ok n) as (A & B & C). destruct (dec n) as [|c s] eqn:E; [congruence|].
  assert (D : parse_u32 (c :: s) = parse_digits 0 (c :: s)).
  { inversion B as [|? ? G]; subst. unfold parse_u32. assert (c <> 43) by lia. destruct c as [|q]; auto. do 6 (destruct q as [q|q|]; auto). lia. }
  rewrite D. apply parse_digits_iff; [reflexivity|]. auto.
Qed.
Lemma parse_u32_bound s n : parse_u32 s = Some n -> n < 2 ^ 32.
Proof.
  assert (G : forall t, parse_digits 0 t = Some n -> n < 2 ^ 32) by (intros t H; apply parse_digits_iff in H; [tauto|reflexivity]).
  unfold parse_u32. destruct s as [|c s]; [discriminate|]. destruct c as [|q]; [apply G|]. do 6 (destruct q as [q|q|]; try apply G). destruct s; [discriminate|apply G].
Qed.
Lemma filter_id {A} (f : A -> bool) l : Forall (fun x => f x = true) l -> List.filter f l = l.
Proof. induction 1 as [|x l H F IH]; cbn; auto. rewrite H, IH. reflexivity. Qed.
Lemma split_plain c s : ~ In c s -> split_on c s = [s].
Proof.
  induction s as [|x s IH]; intros H; [reflexivity|]. cbn [split_on]. destruct (N.eqb_spec x c) as [->|]; [exfalso; apply H; left; reflexivity|].
  rewrite IH by (intros I; apply H; right; exact I). reflexivity.
Qed.
Lemma split_cons c s t : ~ In c s -> split_on c (s ++ c :: t) = s :: split_on c t.
Proof.
  induction s as [|x s IH]; intros H; cbn [app split_on].
  - rewrite N.eqb_refl. reflexivity.
  - destruct (N.eqb_spec x c) as [->|]; [exfalso; apply H; left; reflexivity|]. rewrite IH by (intros I; apply H; right; exact I). reflexivity.
Qed.
Lemma split_join c l : l <> [] -> Forall (fun s => ~ In c s) l -> split_on c (join [c] l) = l.
Proof.
  intros Ne F. induction F as [|s l H F IH]; [congruence|]. destruct l as [|s2 l]; cbn [join]; [apply split_plain; auto|].
  cbn [app]. rewrite split_cons by auto. f_equal. apply IH. discriminate.
Qed.
Lemma In_join c x l : In x (join [c] l) -> x = c \/ exists s, In s l /\ In x s.
Proof.
  induction l as [|s l IH]; cbn [join]; [intros []|]. destruct l as [|s2 l].
  - intros H. right. exists s. split; [left; reflexivity|auto].
  - intros H. apply in_app_iff in H as [H|[H|H]]; [right; exists s; split; [left|]; auto|left; auto|].
    destruct (IH H) as [->|(t & I & J)]; [left; auto|right; exists t; split; [right|]; auto].
Qed.
Lemma parts_join l : l <> [] -> Forall (fun s => s <> [] /\ ~ In 44 s /\ ~ In 32 s) l -> list_parts (join [44] l) = l.
Proof.
  intros Ne F. unfold list_parts. rewrite (filter_id _ (join [44] l)).
  - rewrite split_join; auto.
    + apply filter_id. eapply Forall_impl; [|exact F]. intros s (H & _). destruct s; [congruence|reflexivity].
    + eapply Forall_impl; [|exact F]. intros s (_ & H & _). exact H.
  - apply Forall_forall. intros x H. apply In_join in H as [->|(s & I & J)]; [reflexivity|].
    rewrite Forall_forall in F. destruct (F s I) as (_ & _ & K). destruct (N.eqb_spec x 32); [subst; contradiction|reflexivity].
Qed.
Lemma dec_chars n x : In x (dec n) -> 48 <= x <= 57.
Proof. destruct (dec_ok n) as (_ & F & _). unfold all_digits in F. rewrite Forall_forall in F. apply F. Qed.
Lemma dec_list b l : l <> [] -> Forall (fun n => n < 2 ^ 32) l ->
  parse_list parse_u32 (join [44] (map (fun n => (if b : bool then [33] else []) ++ dec n) l)) = Some (l, b).
Proof.
  intros Ne F. apply list_iff. split; [exact Ne|]. rewrite parts_join.
  - induction F as [|n l H F IH]; [constructor|]. cbn [map]. constructor.
    + exists (dec n). split; [apply parse_dec; auto|]. destruct b; [reflexivity|]. split; [reflexivity|]. cbn [app].
      destruct (dec n) eqn:E; [discriminate|]. assert (I : In n0 (dec n)) by (rewrite E; left; reflexivity). apply dec_chars in I. cbn. intros K. assert (n0 = 33) by congruence. lia.
    + destruct l; [constructor|]. apply IH. discriminate.
  - destruct l; [congruence|discriminate].
  - apply Forall_map. eapply Forall_impl; [|exact F]. intros n _. destruct (dec_ok n) as (D & _).
    split; [destruct b; [discriminate|exact D]|]. split; intros I; apply in_app_iff in I as [I|I]; try (apply dec_chars in I; lia);
      destruct b; cbn in I; intuition discriminate.
Qed.
Lemma contains_addresses big small : net_ok big -> net_ok small ->
  contains big small <->
  is_v4 (net_addr big) = is_v4 (net_addr small) /\
  let w := net_width (net_addr big) in
  forall a, a < 2 ^ w -> a / 2 ^ (w - net_len small) = ip_val (net_addr small) / 2 ^ (w - net_len small) ->
            a / 2 ^ (w - net_len big) = ip_val (net_addr big) / 2 ^ (w - net_len big).
Proof.
  intros (B1 & B2) (S1 & S2). destruct big as [ba lb], small as [sa ls]. cbn [net_addr net_len] in *. unfold contains. cbn [net_addr net_len]. cbv zeta.
  assert (Ww : is_v4 ba = is_v4 sa -> net_width sa = net_width ba) by (destruct ba, sa; cbn; congruence).
  assert (Sv : ip_val sa < 2 ^ net_width sa) by (destruct sa; exact S1).
  set (w := net_width ba) in *. set (v := ip_val sa) in *. set (u := ip_val ba) in *. clearbody u v.
  split.
  - intros (F & L & E). split; [exact F|]. intros a _ Q. rewrite E.
    replace (w - lb) with ((w - ls) + (ls - lb)) by (rewrite Ww in S2 by auto; clear - L S2 B2; lia).
    rewrite N.pow_add_r, <- !N.div_div by (apply N.pow_nonzero; discriminate). rewrite Q. reflexivity.
  - intros (F & H). rewrite Ww in * by auto. clear Ww. clearbody w. split; [exact F|]. split; [|symmetry; apply H; auto].
    destruct (N.le_gt_cases lb ls) as [|G]; [assumption|exfalso].
    assert (K : 2 ^ (w - ls) = 2 ^ (w - lb) * 2 ^ (lb - ls)) by (rewrite <- N.pow_add_r; f_equal; clear - G B2 S2; lia).
    assert (K2 : 2 <= 2 ^ (lb - ls)) by (change 2 with (2 ^ 1) at 1; apply N.pow_le_mono_r; clear - G; lia).
    assert (Kw : 2 ^ w = 2 ^ (w - ls) * 2 ^ ls) by (rewrite <- N.pow_add_r; f_equal; clear - G B2 S2; lia).
    assert (P : 0 < 2 ^ (w - lb)) by (apply N.neq_0_lt_0, N.pow_nonzero; discriminate).
    assert (Vq : v / 2 ^ (w - ls) < 2 ^ ls) by (apply N.div_lt_upper_bound; [apply N.pow_nonzero; discriminate|rewrite <- Kw; exact Sv]).
    set (q := v / 2 ^ (w - ls)) in *. rewrite K in *. set (x := 2 ^ (w - lb)) in *. set (y := 2 ^ (lb - ls)) in *. set (z := 2 ^ ls) in *.
    rewrite Kw in H. clearbody q x y z. clear K Kw Sv S1 B1 F.
    pose proof (H (x * y * q)) as H1. pose proof (H (x * y * q + x)) as H2.
    assert (D1 : x * y * q / (x * y) = q) by (symmetry; apply (N.div_unique _ _ _ 0); nia).
    assert (D2 : (x * y * q + x) / (x * y) = q) by (symmetry; apply (N.div_unique _ _ _ x); nia).
    assert (X1 : x * y * q / x = y * q) by (symmetry; apply (N.div_unique _ _ _ 0); nia).
    assert (X2 : (x * y * q + x) / x = y * q + 1) by (symmetry; apply (N.div_unique _ _ _ 0); nia).
    rewrite D1, X1 in H1. rewrite D2, X2 in H2. clear D1 D2 X1 X2 H.
    assert (Lz : x * y * q + x < x * y * z).
    { clear H1 H2. assert (M : x * y * (q + 1) <= x * y * z) by (apply N.mul_le_mono_l; lia). assert (x * 2 <= x * y) by (apply N.mul_le_mono_l; exact K2). nia. }
    assert (Q2 := H2 ltac:(assumption) eq_refl). assert (Q1 := H1 ltac:(clear H1 H2 Q2; lia) eq_refl). clear H1 H2. rewrite <- Q1 in Q2. lia.
Qed.
