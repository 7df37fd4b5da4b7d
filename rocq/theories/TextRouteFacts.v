(** Proofs about text dumps: routes, whole dumps. *)
From Coq Require Import String Lia Floats.SpecFloat ZifyBool ZifyNat ZifyN.
From Verif Require Import Base BaseFacts Net AsPath Attr Elem Text Filter FilterFacts Utf8 TableDumpSpec TableDumpFacts Stream Framing Iter TextDump TextDumpSpec TextDumpFacts TextRowsFacts.

Definition cols_ok (c : columns) : Prop := (4 <= c_hop c /\ c_hop c + 4 <= c_metric c /\ c_metric c + 2 <= c_pref c /\ c_pref c < c_weight c /\ c_weight c < c_path c)%nat.
(** A row is not a summary line. *)
Lemma not_displayed f M1 y z M2 R : ascii (f ++ (M1 ++ y :: z :: M2) ++ R) = true -> forallb flag f = true -> ~ In 105 (M1 ++ y :: z :: M2) -> sp y = false ->
  starts_with (str "Displayed") (trim_start (f ++ (M1 ++ y :: z :: M2) ++ R)) = false.
Proof.
  intros A F I Y. rewrite trim_start_ascii by exact A. clear A. induction f as [|x f IH]; cbn [app].
  - induction M1 as [|x M1 IHM]; cbn [app dropw].
    + rewrite Y. unfold starts_with. change (str "Displayed") with (68 :: 105 :: str "splayed"). cbn [strip_prefix].
      destruct (68 =? y); [|reflexivity]. destruct (N.eqb_spec 105 z) as [<-|]; [|reflexivity]. exfalso. apply I. cbn. auto.
    + destruct (sp x). { apply IHM. intros G. apply I. right. exact G. }
      unfold starts_with. change (str "Displayed") with (68 :: 105 :: str "splayed"). cbn [strip_prefix]. destruct (68 =? x); [|reflexivity].
      destruct M1 as [|w M1]; cbn [app strip_prefix].
      * destruct (N.eqb_spec 105 y) as [<-|]; [|reflexivity]. exfalso. apply I. cbn. auto.
      * destruct (N.eqb_spec 105 w) as [<-|]; [|reflexivity]. exfalso. apply I. cbn. auto.
  - cbn [forallb] in F. apply andb_true_iff in F as [X F]. cbn [dropw]. destruct (sp x); [exact (IH F)|].
    unfold starts_with. change (str "Displayed") with (68 :: str "isplayed"). cbn [strip_prefix]. unfold flag in X. destruct (N.eqb_spec 68 x) as [<-|]; [|reflexivity].
    apply andb_true_iff in X as [_ X]. discriminate.
Qed.
Lemma field_trim w t f : field w t f -> solid t -> trim f = t.
Proof. intros (a & b & -> & _) S. apply trim_field. exact S. Qed.
Lemma field_ascii w t f : field w t f -> solid t -> ascii f = true.
Proof. intros (a & b & -> & _) [_ S]. rewrite !ascii_app, !gap_ascii, S. reflexivity. Qed.
Lemma field_in w t f x : field w t f -> In x f -> x = 32 \/ In x t.
Proof. intros (a & b & -> & _) I. rewrite !in_app_iff in I. destruct I as [I|[I|I]]; [left; eapply repeat_spec; exact I|right; exact I|left; eapply repeat_spec; exact I]. Qed.
Lemma field_len w t f : field w t f -> length f = w.
Proof. intros (a & b & _ & H). exact H. Qed.
Lemma solid_nil : solid []. Proof. split; reflexivity. Qed.
Lemma number_solid o t : number o t -> solid t.
Proof. destruct o; cbn; [intros [_ ->]; apply dec_solid|intros ->; apply solid_nil]. Qed.
Lemma number_parse o t : number o t -> parse_u32 t = o.
Proof. destruct o; cbn; [intros [H ->]; apply parse_dec; exact H|intros ->; reflexivity]. Qed.
Lemma number_chars o t x : number o t -> In x t -> 48 <= x <= 57.
Proof. destruct o; cbn; [intros [_ ->]; apply dec_chars|intros -> []]. Qed.
Lemma hop_solid h : solid (hop_text h). Proof. destruct h; [apply dec_solid|split; reflexivity|split; reflexivity]. Qed.
Lemma origin_solid o : solid (origin_text o). Proof. destruct o; split; reflexivity. Qed.
Lemma path_solid r : Forall solid (path_words r) /\ Forall (fun w => w <> []) (path_words r).
Proof.
  unfold path_words. split; apply Forall_app; split.
  - apply Forall_map, Forall_forall. intros h _. apply hop_solid.
  - destruct (r_origin r); [apply Forall_cons; [apply origin_solid|apply Forall_nil]|apply Forall_nil].
  - apply Forall_map, Forall_forall. intros [a| |] _; [apply dec_nonempty|discriminate|discriminate].
  - destruct (r_origin r) as [[]|]; repeat constructor; discriminate.
Qed.
Lemma hop_no_origin h : origin_of_token (hop_text h) = None.
Proof.
  destruct h as [a| |]; [|reflexivity|reflexivity]. cbn [hop_text]. unfold origin_of_token. pose proof (dec_nonempty a) as N. destruct (dec a) as [|x l] eqn:E; [congruence|].
  assert (X : 48 <= x <= 57) by (apply (dec_chars a); rewrite E; left; reflexivity).
  assert (G : forall s y, str s = [y] -> 57 < y -> bytes_eqb (x :: l) (str s) = false).
  { intros s y -> Y. cbn [bytes_eqb]. destruct (bytes_eqb (x :: l) [y]) eqn:B; [|exact B]. apply bytes_eqb_eq in B. injection B as -> ->. lia. }
  rewrite (G "i"%string 105), (G "e"%string 101), (G "?"%string 63) by (reflexivity || lia). reflexivity.
Qed.
Lemma path_tokens r : let toks := path_words r in
  let o := match rev toks with t :: _ => origin_of_token t | [] => None end in
  o = r_origin r /\ (match o with Some _ => removelast toks | None => toks end) = map hop_text (r_path r).
Proof.
  unfold path_words. cbn zeta. destruct (r_origin r) as [o|].
  - rewrite rev_app_distr. cbn [rev app]. assert (E : origin_of_token (origin_text o) = Some o) by (destruct o; reflexivity). rewrite E. split; [reflexivity|]. apply removelast_last.
  - rewrite app_nil_r. assert (E : match rev (map hop_text (r_path r)) with t :: _ => origin_of_token t | [] => None end = None).
    { rewrite <- map_rev. destruct (rev (r_path r)); [reflexivity|apply hop_no_origin]. }
    rewrite E. auto.
Qed.
Lemma asns_tokens l : Forall hop_ok l -> token_asns (map hop_text l) = path_asns l.
Proof.
  unfold token_asns, path_asns. induction 1 as [|h l H F IH]; [reflexivity|]. cbn [map flat_map]. rewrite IH. f_equal.
  destruct h as [a| |]; [|reflexivity|reflexivity]. cbn [hop_text hop_ok] in *.
  assert (G : forall s y, str s = [y] -> 57 < y -> bytes_eqb (dec a) (str s) = false).
  { intros s y -> Y. destruct (bytes_eqb (dec a) [y]) eqn:B; [|reflexivity]. apply bytes_eqb_eq in B. assert (48 <= y <= 57) by (apply (dec_chars a); rewrite B; left; reflexivity). lia. }
  rewrite (G "{"%string 123), (G "}"%string 125) by (reflexivity || lia). cbn [orb]. rewrite parse_dec by exact H. reflexivity.
Qed.
(** What [parse_route_line] finds on a line. *)
Definition read_as (ps : parsers) (r : route) (en : entry) : Prop :=
  (match r_prefix r with None => en_prefix en = [] | Some n => ps_net ps (en_prefix en) = Some n /\ en_prefix en <> [] end)
  /\ ps_ip ps (en_hop en) = Some (r_hop r) /\ en_metric en = r_metric r /\ en_pref en = r_pref r
  /\ token_asns (en_tokens en) = path_asns (r_path r) /\ en_origin en = r_origin r.
Lemma route_read ps c r l e : sane ps -> cols_ok c -> eol e -> route_line ps c r l ->
  (exists en, parse_route_line ps (trim_end (l ++ e)) c = Some en /\ read_as ps r en)
  /\ ascii (l ++ e) = true /\ (forall y, In y l -> sp y = true -> y = 32) /\ trim_end (l ++ e) <> []
  /\ (exists z, l = trim_end (l ++ e) ++ gap z) /\ (c_path c < length (trim_end (l ++ e)))%nat.
Proof.
  intros [SN SI] (C0 & C1 & C2 & C3 & C4) E (HO & PW & f & f1 & t2 & f2 & t3 & f3 & t4 & f4 & f5 & f6 & -> & [FL FF] & P1 & I2 & F2 & N3 & F3 & N4 & F4 & L5 & A5 & W).
  destruct (path_solid r) as [PS PN]. destruct (SI _ _ I2) as [T2n T2a]. pose proof (addr_solid _ T2a) as S2. pose proof (number_solid _ _ N3) as S3. pose proof (number_solid _ _ N4) as S4.
  assert (P : exists t1, field (c_hop c - 3) t1 f1 /\ solid t1 /\ forallb addr_char t1 = true /\ match r_prefix r with None => t1 = [] | Some n => ps_net ps t1 = Some n /\ t1 <> [] end).
  { destruct (r_prefix r) as [n|]; [|exists []; repeat split; auto]. destruct P1 as (t1 & Pn & F1). destruct (SN _ _ Pn) as [Tn Ta]. exists t1. repeat split; auto; apply addr_solid; exact Ta. }
  destruct P as (t1 & F1 & S1 & A1 & P). clear P1.
  pose proof (field_ascii _ _ _ F1 S1) as B1. pose proof (field_ascii _ _ _ F2 S2) as B2. pose proof (field_ascii _ _ _ F3 S3) as B3. pose proof (field_ascii _ _ _ F4 S4) as B4. pose proof (printable_ascii _ A5) as B5.
  assert (B0 : ascii f = true) by (unfold ascii; rewrite forallb_forall in *; intros x I; apply FF in I; unfold flag, printable in I; lia).
  destruct (words_trim _ _ W PW PS PN) as (t' & x & z & -> & X & W'). pose proof (words_ascii _ _ W' PS) as B6.
  pose proof (field_len _ _ _ F1) as G1. pose proof (field_len _ _ _ F2) as G2. pose proof (field_len _ _ _ F3) as G3. pose proof (field_len _ _ _ F4) as G4.
  assert (AL : ascii (f ++ f1 ++ f2 ++ f3 ++ f4 ++ f5 ++ t' ++ [x]) = true) by (rewrite !ascii_app in *; rewrite B0, B1, B2, B3, B4, B5; exact B6).
  assert (T : trim_end ((f ++ f1 ++ f2 ++ f3 ++ f4 ++ f5 ++ t' ++ [x] ++ gap z) ++ e) = f ++ f1 ++ f2 ++ f3 ++ f4 ++ f5 ++ t' ++ [x]).
  { pose proof (trim_line (f ++ f1 ++ f2 ++ f3 ++ f4 ++ f5 ++ t') x (gap z) e) as T. rewrite <- !app_assoc in T. rewrite <- !app_assoc. apply T; auto; [|apply gap_sp].
    rewrite !ascii_app in *. rewrite gap_ascii. rewrite !andb_true_iff in *. tauto. }
  rewrite T.
  assert (TI : trim_end (f ++ f1 ++ f2 ++ f3 ++ f4 ++ f5 ++ t' ++ [x]) = f ++ f1 ++ f2 ++ f3 ++ f4 ++ f5 ++ t' ++ [x]).
  { pose proof (trim_end_tail (f ++ f1 ++ f2 ++ f3 ++ f4 ++ f5 ++ t') x []) as K. rewrite <- !app_assoc in K. cbn [app] in K. apply K; auto. }
  assert (NE : trim (f ++ f1 ++ f2 ++ f3 ++ f4 ++ f5 ++ t' ++ [x]) <> []).
  { unfold trim. rewrite trim_start_ascii by exact AL. set (Y := f ++ f1 ++ f2 ++ f3 ++ f4 ++ f5 ++ t'). 
    replace (f ++ f1 ++ f2 ++ f3 ++ f4 ++ f5 ++ t' ++ [x]) with (Y ++ [x]) in * by (unfold Y; rewrite <- !app_assoc; reflexivity). clearbody Y.
    assert (K : exists Y', dropw (Y ++ [x]) = Y' ++ [x] ++ []). { clear - X. induction Y as [|y Y IH]; cbn [app dropw]; [rewrite X; exists []; reflexivity|]. destruct (sp y); [exact IH|exists (y :: Y); reflexivity]. }
    pose proof (ascii_dropw _ AL) as AD. destruct K as (Y' & K). rewrite K in *. rewrite trim_end_tail by auto. destruct Y'; discriminate. }
  assert (ND : starts_with (str "Displayed") (trim_start (f ++ f1 ++ f2 ++ f3 ++ f4 ++ f5 ++ t' ++ [x])) = false).
  { destruct F2 as (a & b & F2 & _). destruct t2 as [|y t2]; [congruence|]. assert (exists w1 M2, t2 ++ gap b ++ f3 = w1 :: M2) as (w1 & M2 & EM).
    { destruct t2; [|eexists; eexists; reflexivity]. destruct b; [|eexists; eexists; reflexivity]. destruct f3; [cbn in G3; lia|]. eexists; eexists; reflexivity. }
    assert (EQ : f1 ++ f2 ++ f3 = (f1 ++ gap a) ++ y :: w1 :: M2) by (rewrite F2, <- EM, <- !app_assoc; reflexivity).
    replace (f ++ f1 ++ f2 ++ f3 ++ f4 ++ f5 ++ t' ++ [x]) with (f ++ ((f1 ++ gap a) ++ y :: w1 :: M2) ++ (f4 ++ f5 ++ t' ++ [x])) in * by (rewrite <- EQ, <- !app_assoc; reflexivity).
    apply not_displayed; auto.
    - rewrite <- EQ, !in_app_iff. intros [I|[I|I]].
      + apply (field_in _ _ _ _ F1) in I as [I|I]; [discriminate|]. revert I. apply addr_no; auto.
      + rewrite F2, !in_app_iff in I. destruct I as [I|[I|I]]; [apply repeat_spec in I; discriminate| |apply repeat_spec in I; discriminate]. revert I. apply addr_no; auto.
      + apply (field_in _ _ _ _ F3) in I as [I|I]; [discriminate|]. apply (number_chars _ _ _ N3) in I. lia.
    - destruct S2 as [S2 _]. cbn [forallb] in S2. destruct (sp y); [discriminate|reflexivity]. }
  assert (G6 : length (f ++ f1 ++ f2 ++ f3 ++ f4 ++ f5 ++ t' ++ [x]) = (c_path c + length t' + 1)%nat) by (rewrite !app_length, FL, G1, G2, G3, G4, L5; cbn [length]; lia).
  split; [|split; [|split; [|split; [|split]]]].
  - unfold parse_route_line. rewrite TI. cbn zeta.
    destruct (trim (f ++ f1 ++ f2 ++ f3 ++ f4 ++ f5 ++ t' ++ [x])) eqn:TE; [congruence|]. rewrite ND. cbn [orb].
    assert (K2 : str_get (f ++ f1 ++ f2 ++ f3 ++ f4 ++ f5 ++ t' ++ [x]) (c_hop c) (c_metric c) = Some f2).
    { rewrite (app_assoc f). apply str_get_mid; [rewrite <- app_assoc; exact AL|rewrite app_length; lia|lia]. }
    assert (K1 : str_get (f ++ f1 ++ f2 ++ f3 ++ f4 ++ f5 ++ t' ++ [x]) 3 (c_hop c) = Some f1) by (apply str_get_mid; [exact AL|exact FL|lia]).
    assert (K3 : str_get (f ++ f1 ++ f2 ++ f3 ++ f4 ++ f5 ++ t' ++ [x]) (c_metric c) (c_pref c) = Some f3).
    { rewrite (app_assoc f), (app_assoc (f ++ f1)). apply str_get_mid; [rewrite <- !app_assoc; exact AL|rewrite !app_length; lia|lia]. }
    assert (K4 : str_get (f ++ f1 ++ f2 ++ f3 ++ f4 ++ f5 ++ t' ++ [x]) (c_pref c) (c_weight c) = Some f4).
    { rewrite (app_assoc f), (app_assoc (f ++ f1)), (app_assoc ((f ++ f1) ++ f2)). apply str_get_mid; [rewrite <- !app_assoc; exact AL|rewrite !app_length; lia|lia]. }
    assert (K6 : str_from (f ++ f1 ++ f2 ++ f3 ++ f4 ++ f5 ++ t' ++ [x]) (c_path c) = Some (t' ++ [x])).
    { rewrite (app_assoc f), (app_assoc (f ++ f1)), (app_assoc ((f ++ f1) ++ f2)), (app_assoc (((f ++ f1) ++ f2) ++ f3)), (app_assoc ((((f ++ f1) ++ f2) ++ f3) ++ f4)). apply str_from_mid; [rewrite <- !app_assoc; exact AL|rewrite !app_length; lia]. }
    rewrite K2. rewrite (field_trim _ _ _ F2 S2), I2. rewrite K1, K6. unfold parse_u32_column. rewrite K3, K4.
    rewrite (field_trim _ _ _ F1 S1), (field_trim _ _ _ F3 S3), (field_trim _ _ _ F4 S4), (number_parse _ _ N3), (number_parse _ _ N4), (words_split _ _ W' PS PN).
    destruct (path_tokens r) as [O1 O2]. cbn zeta in O1, O2. eexists. split; [reflexivity|]. unfold read_as. cbn [en_prefix en_hop en_metric en_pref en_tokens en_origin].
    rewrite O2. split; [exact P|]. rewrite (asns_tokens _ HO). auto.
  - destruct (eol_sp _ E) as [_ EA]. rewrite !ascii_app in *. rewrite gap_ascii, EA, !andb_true_iff in *. tauto.
  - assert (PR : forall y, printable y = true -> sp y = true -> y = 32) by (intros y Y K; apply sp_iff in K; unfold printable in Y; lia).
    assert (SO : forall t y, solid t -> In y t -> sp y = true -> y = 32) by (intros t y S I K; exfalso; revert I; apply solid_no; auto).
    intros y. rewrite !in_app_iff. intros I K. repeat destruct I as [I|I].
    + rewrite forallb_forall in FF. apply FF in I. apply PR; auto. unfold flag in I. apply andb_true_iff in I. apply I.
    + apply (field_in _ _ _ _ F1) in I as [I|I]; eauto.
    + apply (field_in _ _ _ _ F2) in I as [I|I]; eauto.
    + apply (field_in _ _ _ _ F3) in I as [I|I]; eauto.
    + apply (field_in _ _ _ _ F4) in I as [I|I]; eauto.
    + rewrite forallb_forall in A5. apply A5 in I. auto.
    + assert (WI : forall ws t y, words ws t -> Forall solid ws -> In y t -> y = 32 \/ sp y = false).
      { clear. induction 1 as [a|a w ws t H IH D]; intros F I; [left; eapply repeat_spec; exact I|]. rewrite !in_app_iff in I. destruct I as [I|[I|I]]; [left; eapply repeat_spec; exact I| |exact (IH (Forall_inv_tail F) I)].
        right. destruct (sp y) eqn:Y; [|reflexivity]. exfalso. revert I. apply solid_no; [exact Y|exact (Forall_inv F)]. }
      destruct (WI _ _ y W' PS) as [Z|Z]; [apply in_or_app; left; exact I|exact Z|congruence].
    + subst x. congruence.
    + destruct I.
    + apply repeat_spec in I. exact I.
  - intros K. rewrite K in G6. cbn [length] in G6. lia.
  - exists z. rewrite <- !app_assoc. reflexivity.
  - lia.
Qed.

(** * Rows *)
Lemma trim_spaces f : ascii f = true -> (forall y, In y f -> sp y = true -> y = 32) -> field (length f) (trim f) f.
Proof.
  intros A H. assert (G : forall m, (forall y, In y m -> sp y = true -> y = 32) -> exists k, m = gap k ++ dropw m).
  { induction m as [|x m IH]; intros K; [exists 0%nat; reflexivity|]. cbn [dropw]. destruct (sp x) eqn:X; [|exists 0%nat; reflexivity].
    destruct IH as (k & E); [intros y I; apply K; right; exact I|]. exists (S k). rewrite (K x (or_introl eq_refl) X). cbn [gap repeat app]. f_equal. exact E. }
  destruct (G f H) as (a & E1). pose proof (ascii_dropw _ A) as A1. unfold trim. rewrite trim_start_ascii by exact A. rewrite trim_end_ascii by exact A1.
  destruct (G (rev (dropw f))) as (b & E2). { intros y I. apply H. rewrite E1. apply in_or_app. right. apply in_rev. exact I. }
  exists a, b. split; [|reflexivity]. rewrite E1 at 1. f_equal. rewrite <- (rev_involutive (dropw f)) at 1. rewrite E2 at 1. rewrite rev_app_distr. f_equal.
  unfold gap. clear. induction b; [reflexivity|]. cbn [repeat rev]. rewrite IHb. symmetry. apply repeat_cons.
Qed.
Lemma trim_end_length l : (length (trim_end l) <= length l)%nat.
Proof. destruct (trim_end_prefix l) as [z Z]. rewrite Z at 2. rewrite app_length. lia. Qed.
Lemma route_none ps line c : (length line < c_metric c)%nat -> parse_route_line ps line c = None.
Proof.
  intros L. unfold parse_route_line. cbn zeta. destruct (_ || _); [reflexivity|]. rewrite str_get_out; [reflexivity|]. pose proof (trim_end_length line). lia.
Qed.
Lemma last_rev (l : list N) : match rev l with a :: _ => Some [a] | [] => None end = match l with [] => None | m => Some [last m 0] end.
Proof. destruct l as [|x l] using rev_ind; [reflexivity|]. rewrite rev_app_distr. cbn [rev app]. rewrite last_last. destruct (l ++ [x]) eqn:E; [destruct l; discriminate|reflexivity]. Qed.
Definition holds (ps : parsers) (p : bytes) (cur : option ipnet) : Prop := match cur with None => p = [] | Some n => ps_net ps p = Some n /\ p <> [] end.
Definition next_cur (cur : option ipnet) (x : row) : option ipnet :=
  match x with RRoute r | RShifted r => match r_prefix r with Some n => Some n | None => cur end | RPrefix n => Some n | _ => cur end.
Definition elem_of (pi : ip) (pa : asn) (t : f64) (cur : option ipnet) (x : row) : option elem :=
  match x with RRoute r | RShifted r => match next_cur cur x with Some n => Some (announced pi pa t n r) | None => None end | _ => None end.
Lemma said_cons pi pa t cur x rows : said pi pa t cur (x :: rows) = (match elem_of pi pa t cur x with Some e => [e] | None => [] end) ++ said pi pa t (next_cur cur x) rows.
Proof. destruct x as [r|r|n| |]; cbn [said elem_of next_cur]; try reflexivity; destruct (r_prefix r), cur; reflexivity. Qed.
Lemma entry_step ps r en cur cur' pi pa t : holds ps cur cur' -> read_as ps r en ->
  let p := match en_prefix en with [] => cur | q => q end in
  let n := match r_prefix r with Some n => Some n | None => cur' end in
  holds ps p n /\ (match p with [] => None | _ => entry_to_elem ps en p pi pa t end) = match n with Some n => Some (announced pi pa t n r) | None => None end.
Proof.
  intros H (P & I & M & L & T & O). cbn zeta.
  assert (K : holds ps (match en_prefix en with [] => cur | q => q end) (match r_prefix r with Some n => Some n | None => cur' end)).
  { destruct (r_prefix r) as [n|]; [|rewrite P; exact H]. destruct P as [P1 P2]. destruct (en_prefix en); [congruence|]. split; [exact P1|discriminate]. }
  split; [exact K|]. set (q := match en_prefix en with [] => cur | q => q end) in *. clearbody q.
  destruct (match r_prefix r with Some n => Some n | None => cur' end) as [n|]; cbn [holds] in K; [|rewrite K; reflexivity].
  destruct K as [K1 K2]. destruct q; [congruence|]. unfold entry_to_elem. rewrite K1. cbn zeta. unfold announced, path_of_tokens. rewrite T, I, M, L, O, last_rev. destruct (path_asns (r_path r)); reflexivity.
Qed.
Lemma row_step ps c it x l e cur cur' : sane ps -> cols_ok c -> cols_ok (shifted c) -> (8 <= c_hop c)%nat -> ti_columns it = c -> eol e -> row_line ps c x l -> holds ps cur cur' ->
  utf8_ok (l ++ e) = true /\ ~ In 10 l /\ exists p, line_step ps (at_prefix it cur) (l ++ e) = Ok (elem_of (ti_peer it) (ti_asn it) (ti_time it) cur' x, p) /\ holds ps p (next_cur cur' x).
Proof.
  intros SA C CS C8 TC E R H. unfold line_step, at_prefix. cbn [ti_prefix with_line ti_columns ti_peer ti_asn ti_time]. rewrite TC. cbn zeta.
  destruct x as [r|r|n| |]; cbn [row_line] in R.
  - destruct (route_read ps c r l e SA C E R) as ((en & P & RA) & A & SP & NE & _). split; [apply utf8_ascii; exact A|]. split; [intros I; specialize (SP _ I eq_refl); discriminate|].
    destruct (trim_end (l ++ e)) as [|x0 l0] eqn:TE; [congruence|]. rewrite P. pose proof (entry_step ps r en cur cur' (ti_peer it) (ti_asn it) (ti_time it) H RA) as [K1 K2]. cbn zeta in K1, K2. eexists. split; [rewrite K2; reflexivity|exact K1].
  - destruct R as [R NA]. destruct (route_read ps (shifted c) r l e SA CS E R) as ((en & P & RA) & A & SP & NE & (z & LZ) & LP). split; [apply utf8_ascii; exact A|]. split; [intros I; specialize (SP _ I eq_refl); discriminate|].
    assert (N : parse_route_line ps (trim_end (l ++ e)) c = None).
    { set (T := trim_end (l ++ e)) in *. assert (AT : ascii T = true). { rewrite ascii_app in A. apply andb_true_iff in A as [A _]. rewrite LZ, ascii_app in A. apply andb_true_iff in A. apply A. }
      assert (TI : trim_end T = T).
      { unfold T. rewrite ascii_app in A. apply andb_true_iff in A as [A0 _]. destruct (eol_sp _ E) as [E1 E2].
        destruct (trim_back (l ++ e) [] ltac:(rewrite ascii_app, A0, E2; reflexivity) (or_introl eq_refl)) as (w & W1 & W2). rewrite app_nil_r in W1.
        rewrite !trim_end_ascii by (rewrite ?ascii_app, ?A0, ?E2; auto; rewrite ascii_rev; apply ascii_dropw; rewrite ascii_rev, ascii_app, A0, E2; reflexivity).
        rewrite rev_involutive. f_equal. set (D := rev (l ++ e)). clearbody D. clear. induction D as [|d D IH]; [reflexivity|]. cbn [dropw]. destruct (sp d) eqn:S; [exact IH|]. cbn [dropw]. rewrite S. reflexivity. }
      unfold parse_route_line. cbn zeta. destruct (_ || _); [reflexivity|]. rewrite TI.
      destruct C as (C0 & C1 & C2 & C3 & C4). cbn [shifted c_path] in LP.
      rewrite str_get_ascii by exact AT. rewrite (proj2 (Nat.leb_le _ _)) by lia. rewrite (proj2 (Nat.leb_le _ _)) by lia. cbn [andb].
      set (f' := firstn (c_metric c - c_hop c) (skipn (c_hop c) T)).
      assert (DE : T = firstn (c_hop c) T ++ f' ++ skipn (c_metric c - c_hop c) (skipn (c_hop c) T)) by (unfold f'; rewrite firstn_skipn, firstn_skipn; reflexivity).
      assert (FL : length f' = (c_metric c - c_hop c)%nat) by (unfold f'; rewrite firstn_length, skipn_length; lia).
      assert (IN : forall y, In y f' -> In y l) by (intros y I; rewrite LZ, DE; apply in_or_app; left; apply in_or_app; right; apply in_or_app; left; exact I).
      rewrite (NA (trim f') f'); [reflexivity| |].
      - rewrite <- FL. apply trim_spaces; [|auto]. rewrite DE, !ascii_app in AT. rewrite !andb_true_iff in AT. apply AT.
      - exists (firstn (c_hop c) T), (skipn (c_metric c - c_hop c) (skipn (c_hop c) T) ++ gap z). split; [rewrite LZ at 1; rewrite DE at 1; rewrite <- !app_assoc; reflexivity|]. rewrite firstn_length. lia. }
    rewrite N. assert (SL : shift_left c = Some (shifted c)). { destruct C as (C0 & C1 & C2 & C3 & C4). destruct c as [[|h] [|m] [|q] [|w] [|a]]; cbn in *; try lia. unfold shifted. cbn. rewrite !Nat.sub_0_r. reflexivity. }
    rewrite SL, P. destruct (trim_end (l ++ e)) as [|x0 l0] eqn:TE; [congruence|].
    pose proof (entry_step ps r en cur cur' (ti_peer it) (ti_asn it) (ti_time it) H RA) as [K1 K2]. cbn zeta in K1, K2. eexists. split; [rewrite K2; reflexivity|exact K1].
  - destruct R as (f & t & a & b & [FL FF] & PN & -> & LE). destruct (proj1 SA _ _ PN) as [TN TA]. pose proof (addr_solid _ TA) as TS.
    assert (FA : ascii f = true) by (unfold ascii; rewrite forallb_forall in *; intros y I; apply FF in I; unfold flag, printable in I; lia).
    assert (A : ascii (f ++ gap a ++ t ++ gap b) = true) by (rewrite !ascii_app, !gap_ascii, FA, (proj2 TS); reflexivity).
    split; [apply utf8_app; apply utf8_ascii; [exact A|apply (eol_sp _ E)]|]. split.
    { rewrite !in_app_iff. intros [I|[I|[I|I]]]; [|apply repeat_spec in I; discriminate| |apply repeat_spec in I; discriminate].
      - rewrite forallb_forall in FF. apply FF in I. discriminate.
      - revert I. apply solid_no; auto. }
    assert (T : trim_end ((f ++ gap a ++ t ++ gap b) ++ e) = f ++ gap a ++ t).
    { destruct (split_last t TN) as (t0 & y & ->). pose proof (trim_line (f ++ gap a ++ t0) y (gap b) e) as K. rewrite <- !app_assoc in *. apply K; auto; [|apply gap_sp].
      destruct TS as [TS _]. rewrite forallb_app, andb_true_iff in TS. destruct TS as [_ TS]. cbn [forallb] in TS. destruct (sp y); [discriminate|reflexivity]. }
    rewrite T. assert (LT : length (f ++ gap a ++ t) = (3 + a + length t)%nat) by (rewrite !app_length, gap_length, FL; lia).
    destruct C as (C0 & C1 & C2 & C3 & C4). assert (SL : shift_left c = Some (shifted c)) by (destruct c as [[|h] [|m] [|q] [|w] [|a0]]; cbn in *; try lia; unfold shifted; cbn; rewrite !Nat.sub_0_r; reflexivity).
    rewrite !route_none by (cbn [shifted c_metric]; lia). rewrite SL. rewrite !route_none by (cbn [shifted c_metric]; lia).
    unfold parse_wrapped_prefix_line. cbn zeta. rewrite (proj2 (Nat.ltb_ge _ _)) by lia. cbn [rbind]. rewrite str_from_mid; [|rewrite !ascii_app, gap_ascii, FA, (proj2 TS); reflexivity|exact FL].
    pose proof (trim_field a t 0 TS) as TF. cbn [gap repeat] in TF. rewrite app_nil_r in TF. rewrite TF, PN.
    destruct (f ++ gap a ++ t) eqn:Z; [cbn in LT; lia|]. cbn [elem_of next_cur holds]. eexists. split; [reflexivity|]. auto.
  - destruct R as (a & ->). destruct (eol_sp _ E) as [E1 E2]. split; [apply utf8_app; apply utf8_ascii; [apply gap_ascii|exact E2]|].
    split; [intros I; apply repeat_spec in I; discriminate|]. rewrite trim_end_blank by (rewrite ?ascii_app, ?forallb_app, ?gap_ascii, ?gap_sp, ?E1, ?E2; reflexivity).
    eexists. split; [reflexivity|exact H].
  - destruct R as (t & PT & ->). pose proof (printable_ascii _ PT) as TA. destruct (eol_sp _ E) as [E1 E2].
    split; [apply utf8_app; apply utf8_ascii; [rewrite ascii_app, TA; reflexivity|exact E2]|].
    split. { rewrite in_app_iff. intros [I|I]; [vm_compute in I; intuition discriminate|]. rewrite forallb_forall in PT. apply PT in I. discriminate. }
    assert (AL : ascii (str "Displayed" ++ t) = true) by (rewrite ascii_app, TA; reflexivity).
    destruct (trim_back (str "Displayed" ++ t) e AL E) as (w & W1 & W2).
    destruct (trim_keep (str "Displaye") 100 t e) as (v & V); [exact AL|reflexivity|exact E|].
    change (str "Displaye" ++ [100] ++ t) with (str "Displayed" ++ t) in V. change (str "Displaye" ++ [100] ++ v) with (str "Displayed" ++ v) in V. rewrite V in *.
    assert (AV : ascii (str "Displayed" ++ v) = true) by (rewrite W1, ascii_app, andb_true_iff in AL; apply AL).
    assert (AV0 : ascii v = true) by (rewrite ascii_app, andb_true_iff in AV; apply AV).
    assert (RN : forall c', parse_route_line ps (str "Displayed" ++ v) c' = None).
    { intros c'. unfold parse_route_line. cbn zeta. destruct (trim_keep (str "Displaye") 100 v []) as (v' & V'); [exact AV|reflexivity|left; reflexivity|].
      rewrite app_nil_r in V'. change (str "Displaye" ++ [100] ++ v) with (str "Displayed" ++ v) in V'. rewrite V'.
      assert (AV' : ascii (str "Displaye" ++ [100] ++ v') = true). { destruct (trim_end_prefix (str "Displayed" ++ v)) as [z Z]. rewrite V' in Z. rewrite Z, ascii_app, andb_true_iff in AV. apply AV. }
      assert (ST : starts_with (str "Displayed") (trim_start (str "Displaye" ++ [100] ++ v')) = true) by (rewrite trim_start_ascii by exact AV'; reflexivity).
      rewrite ST, orb_true_r. reflexivity. }
    rewrite RN. assert (SL : shift_left c = Some (shifted c)). { destruct C as (C0 & C1 & C2 & C3 & C4). destruct c as [[|h] [|m] [|q] [|w0] [|a]]; cbn in *; try lia. unfold shifted. cbn. rewrite !Nat.sub_0_r. reflexivity. }
    rewrite SL, RN. cbn [elem_of next_cur]. set (L := str "Displayed" ++ v) in *.
    assert (WR : parse_wrapped_prefix_line ps L (c_hop c) = Ok None).
    { unfold parse_wrapped_prefix_line. cbn zeta. destruct (Nat.ltb_spec (c_hop c) (length L)) as [LL|LL].
      - assert (LD : L = firstn (c_hop c) L ++ skipn (c_hop c) L) by (symmetry; apply firstn_skipn).
        assert (SF : str_from L (c_hop c) = Some (skipn (c_hop c) L)). { rewrite LD at 1. apply str_from_mid; [rewrite <- LD; exact AV|rewrite firstn_length; lia]. }
        rewrite SF. assert (SK : skipn (c_hop c) L <> []) by (intros K; assert (length (skipn (c_hop c) L) = 0%nat) as K' by (rewrite K; reflexivity); rewrite skipn_length in K'; lia).
        destruct (split_last _ SK) as (q & y & Q).
        assert (Y : sp y = false).
        { destruct (sp y) eqn:Y; [exfalso|reflexivity]. rewrite Q, app_assoc in LD. assert (TL : trim_end ((str "Displayed" ++ t) ++ e) = L) by exact V.
          rewrite trim_end_ascii in TL by (rewrite ascii_app, AL, E2; reflexivity). rewrite LD in TL. apply (f_equal (@rev N)) in TL. rewrite rev_involutive, (rev_app_distr (firstn (c_hop c) L ++ q)) in TL. cbn [rev app] in TL.
          assert (G : forall m k r, dropw m = k :: r -> sp k = false) by (induction m as [|d m IHm]; intros k r0 D; cbn [dropw] in D; [discriminate|]; destruct (sp d) eqn:DD; [exact (IHm _ _ D)|congruence]).
          apply G in TL. congruence. }
        assert (TR : trim (skipn (c_hop c) L) <> []).
        { assert (AS : ascii (skipn (c_hop c) L) = true) by (rewrite LD, ascii_app, andb_true_iff in AV; apply AV). rewrite Q in *. unfold trim. rewrite trim_start_ascii by exact AS.
          assert (K : exists Y', dropw (q ++ [y]) = Y' ++ [y] ++ []). { clear - Y. induction q as [|d q IH]; cbn [app dropw]; [rewrite Y; exists []; reflexivity|]. destruct (sp d); [exact IH|exists (d :: q); reflexivity]. }
          pose proof (ascii_dropw _ AS) as AD. destruct K as (Y' & K). rewrite K in *. rewrite trim_end_tail by auto. destruct Y'; discriminate. }
        destruct (trim (skipn (c_hop c) L)); [congruence|]. reflexivity.
      - cbn [rbind]. assert (SF : str_from L 3 = Some (str "played" ++ v)). { change L with (str "Dis" ++ str "played" ++ v). apply str_from_mid; [exact AV|reflexivity]. }
        rewrite SF. assert (AP : ascii (str "played" ++ v) = true) by (rewrite ascii_app, AV0; reflexivity).
        unfold trim. rewrite trim_start_ascii by exact AP. change (dropw (str "played" ++ v)) with (str "playe" ++ [100] ++ v).
        destruct (trim_keep (str "playe") 100 v []) as (v' & V'); [exact AP|reflexivity|left; reflexivity|]. rewrite app_nil_r in V'. rewrite V'.
        destruct (ps_net ps (str "playe" ++ [100] ++ v')) as [n|] eqn:PN; [|reflexivity]. exfalso. apply (proj1 SA) in PN as [_ PN]. discriminate. }
    rewrite WR. destruct L eqn:LE; [destruct v; discriminate|]. cbn [rbind]. eexists. split; [reflexivity|exact H].
Qed.
Lemma rows_ok ps c it : sane ps -> cols_ok c -> cols_ok (shifted c) -> (8 <= c_hop c)%nat -> ti_columns it = c -> forall rows rl rls cur cur',
  Forall2 (row_line ps c) rows rl -> Forall2 (fun l p => exists e, eol e /\ p = l ++ e) rl rls -> holds ps cur cur' ->
  prows ps it cur rls = Ok (said (ti_peer it) (ti_asn it) (ti_time it) cur' rows).
Proof.
  intros SA C CS C8 TC. induction rows as [|x rows IH]; intros rl rls cur cur' R L H.
  - inversion R; subst. inversion L; subst. reflexivity.
  - inversion R as [|? l ? rl' X R']; subst rl. inversion L as [|? q ? rls' (e & E & ->) L']; subst. cbn [prows].
    destruct (row_step ps (ti_columns it) it x l e cur cur' SA C CS C8 eq_refl E X H) as (U & _ & p & S & H'). rewrite U, S. cbn [rbind]. rewrite (IH rl' rls' p (next_cur cur' x) R' L' H'). cbn [rbind].
    rewrite said_cons. destruct (elem_of _ _ _ cur' x); reflexivity.
Qed.
Lemma header_cols c h : header_line c h -> cols_ok c /\ cols_ok (shifted c) /\ (8 <= c_hop c)%nat.
Proof. intros (a & b & d & e & f & g & _ & H). unfold cols_ok, shifted. cbn [c_hop c_metric c_pref c_weight c_path]. lia. Qed.
Lemma header_plain ps c h hd : header_line c h -> preamble_line ps h hd = hd.
Proof.
  intros (a & b & d & e & f & g & -> & _). unfold preamble_line, starts_with. destruct a as [|a]; cbn [gap repeat app]; reflexivity.
Qed.
Lemma dump_header ps ls c rows text : sane ps -> dump ps ls c rows text -> (length ls < 64)%nat ->
  exists v rls rl, pheader ps 64 (TextHeader None None None None) (plines text)
    = Ok (TextHeader v (match find (fun p => match p with PVersion _ _ => true | _ => false end) ls with None => None | Some _ => Some (router_of ls) end)
             (match find (fun p => match p with PLocal _ => true | _ => false end) ls with None => None | Some _ => Some (local_of ls) end) (Some c), rls)
  /\ v = fold_left (fun o p => match p with PVersion v _ => Some v | _ => o end) ls None
  /\ Forall2 (row_line ps c) rows rl /\ Forall2 (fun l p => exists e, eol e /\ p = l ++ e) rl rls /\ cols_ok c /\ cols_ok (shifted c) /\ (8 <= c_hop c)%nat.
Proof.
  intros SA (pl & h & rl & P & H & R & L) LT. destruct (header_cols _ _ H) as (C & CS & C8).
  assert (F : Forall (fun l => ~ In 10 l) (pl ++ h :: rl)).
  { apply Forall_app. split; [|apply Forall_cons].
    - clear - SA P. induction P as [|p l ls pl X P IH]; [constructor|]. constructor; [|exact IH]. apply (pre_step ps p l [] (TextHeader None None None None) SA (or_introl eq_refl) X).
    - apply (header_columns c h [] (or_introl eq_refl) H).
    - clear - SA R C CS C8. induction R as [|x l rows rl X R IH]; [constructor|]. constructor; [|exact IH].
      eapply (row_step ps c (TextIter [] c (V4 0) 0 (S754_zero false) []) x l [] [] None); eauto; try reflexivity. left; reflexivity. }
  pose proof (lines_plines _ _ L F) as PL. destruct (pheader_ok ps ls pl c h rl (plines text) (TextHeader None None None None) 64 SA P H PL LT) as (rls & PH & RL).
  cbn zeta in PH. rewrite !(header_plain ps c h _ H) in PH.
  assert (EF : forall ls h0, fold_left (fun x p => pre_effect p x) ls h0 = TextHeader (fold_left (fun o p => match p with PVersion v _ => Some v | _ => o end) ls (th_version h0))
     (fold_left (fun o p => match p with PVersion _ i => Some i | _ => o end) ls (th_router h0)) (fold_left (fun (o : option N) p => match p with PLocal a => Some a | _ => o end) ls (th_as h0)) (th_columns h0)).
  { clear. induction ls as [|p ls IH]; intros h0; [destruct h0; reflexivity|]. cbn [fold_left]. rewrite IH. destruct p; reflexivity. }
  rewrite EF in PH. cbn [th_version th_router th_as] in PH.
  assert (G1 : forall ls o i, match o with Some j => j = i | None => True end -> fold_left (fun o p => match p with PVersion _ i => Some i | _ => o end) ls o = match o, find (fun p => match p with PVersion _ _ => true | _ => false end) ls with None, None => None | _, _ => Some (fold_left (fun i p => match p with PVersion _ i' => i' | _ => i end) ls i) end).
  { clear. induction ls as [|p ls IH]; intros o i I; [destruct o; cbn; congruence|]. cbn [fold_left find]. destruct p as [v i'|a|]; [rewrite (IH (Some i') i' eq_refl); destruct o; reflexivity|apply IH; exact I|apply IH; exact I]. }
  assert (G2 : forall ls (o : option N) i, match o with Some j => j = i | None => True end -> fold_left (fun (o : option N) p => match p with PLocal a => Some a | _ => o end) ls o = match o, find (fun p => match p with PLocal _ => true | _ => false end) ls with None, None => None | _, _ => Some (fold_left (fun i p => match p with PLocal i' => i' | _ => i end) ls i) end).
  { clear. induction ls as [|p ls IH]; intros o i I; [destruct o as [x|]; cbn in *; [subst x|]; reflexivity|]. cbn [fold_left find]. destruct p as [v i'|a|]; [apply IH; exact I|rewrite (IH (Some a) a eq_refl); destruct o; reflexivity|apply IH; exact I]. }
  rewrite (G1 ls None (V4 0) I), (G2 ls None 0 I) in PH. exists (fold_left (fun o p => match p with PVersion v _ => Some v | _ => o end) ls None), rls, rl. split; [exact PH|]. auto 10.
Qed.
Theorem dump_said ps ls c rows text t s : sane ps -> dump ps ls c rows text -> (length ls < 64)%nat -> no_fail s -> sbytes s = text ->
  parse_text_dump ps t s = Ok (said (router_of ls) (local_of ls) t None rows).
Proof.
  intros SA D N F B. rewrite parse_text_dump_ok by exact F. unfold parse_bytes. rewrite B. destruct (dump_header ps ls c rows text SA D N) as (v & rls & rl & -> & _ & R & L & C & CS & C8).
  cbn [rbind th_columns]. rewrite (rows_ok ps c (iter_of c _ t) SA C CS C8 eq_refl rows rl rls [] None R L eq_refl). unfold iter_of. cbn [ti_peer ti_asn ti_time th_router th_as].
  assert (G1 : match match find (fun p => match p with PVersion _ _ => true | _ => false end) ls with Some _ => Some (router_of ls) | None => None end with Some i => i | None => V4 0 end = router_of ls).
  { destruct (find _ ls) eqn:K; [reflexivity|]. unfold router_of. clear - K. assert (H := find_none _ _ K). clear K. generalize (V4 0). induction ls as [|p ls IH]; intros i; [reflexivity|]. cbn [fold_left]. pose proof (H p (or_introl eq_refl)). destruct p; [discriminate|..]; apply IH; intros q I; apply H; right; exact I. }
  assert (G2 : match match find (fun p => match p with PLocal _ => true | _ => false end) ls with Some _ => @Some BinNums.N (local_of ls) | None => None end with Some i => i | None => 0 end = local_of ls).
  { clear G1. destruct (find _ ls) eqn:K; [reflexivity|]. unfold local_of. clear - K. assert (H := find_none _ _ K). clear K. generalize 0. induction ls as [|p ls IH]; intros i; [reflexivity|]. cbn [fold_left]. pose proof (H p (or_introl eq_refl)). destruct p; [|discriminate|]; apply IH; intros q I; apply H; right; exact I. }
  f_equal. f_equal; [exact G1|exact G2].
Qed.
