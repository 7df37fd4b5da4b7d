(** Proofs about the command line tool: the expressions. *)
From Coq Require Import Lia ZifyBool ZifyNat ZifyN String Floats.SpecFloat.
From Verif Require Import Base BaseFacts Net Community Elem Text Filter FilterSpec FilterFacts FilterKeysFacts TextDump TextDumpSpec TextDumpFacts Cli CliSpec CliFacts.
Local Open Scope string_scope. Local Open Scope list_scope. Local Open Scope N_scope.

(** * Expressions *)
Lemma first_char c (pat k v : bytes) : ~ In c k -> first_at (c :: pat) (k ++ (c :: pat) ++ v) k v.
Proof.
  intros NI. split; [reflexivity|]. revert NI. induction k as [|x k IH]; intros NI a b E; [cbn; lia|]. destruct a as [|y a].
  - exfalso. injection E as E _. apply NI. left. exact E.
  - injection E as _ E. specialize (IH ltac:(intros I; apply NI; right; exact I) a b E). cbn [length]. lia.
Qed.
Lemma pat_after c (pat u w a b : bytes) : ~ In c u -> u ++ w = a ++ (c :: pat) ++ b -> exists a', w = a' ++ (c :: pat) ++ b.
Proof.
  revert a. induction u as [|x u IH]; intros a NI E; [exists a; exact E|]. destruct a as [|y a].
  - exfalso. injection E as E _. apply NI. left. exact E.
  - injection E as _ E. apply (IH a); [intros I; apply NI; right; exact I|exact E].
Qed.
Lemma gap_in n c : In c (gap n) -> c = 32. Proof. intros H. apply repeat_spec in H. exact H. Qed.
Lemma ne_before v n a b : v ++ gap n = a ++ str "!=" ++ b -> exists b', v = a ++ str "!=" ++ b'.
Proof.
  revert a. induction v as [|x v IH]; intros a E.
  - exfalso. cbn [app] in E. assert (I : In 33 (gap n)) by (rewrite E; apply in_or_app; right; left; reflexivity). apply gap_in in I. discriminate.
  - destruct a as [|y a].
    + cbn [app str] in E. injection E as -> E. destruct v as [|z v].
      * exfalso. cbn [app] in E. assert (I : In 61 (gap n)) by (rewrite E; left; reflexivity). apply gap_in in I. discriminate.
      * injection E as -> E. exists v. reflexivity.
    + injection E as -> E. destruct (IH _ E) as (b' & ->). exists b'. reflexivity.
Qed.
(** Keywords. *)
Definition key_char (c : N) : bool := (97 <=? c) && (c <=? 122) || (c =? 95).
Lemma asks_chars show ps k v P : asks show ps k v P -> forallb key_char (str k) = true.
Proof.
  assert (S : forall k Q, starred k Q -> forallb key_char (str k) = true) by (intros k0 Q [ ]; reflexivity).
  assert (L : forall k v n Q, listed ps k v n Q -> forallb key_char (str k) = true).
  { intros k0 v0 n Q [ | ? ? ? ? ? I| | ]; try reflexivity. repeat destruct I as [I|I]; try (injection I as <- _; reflexivity). destruct I. }
  assert (O : forall k w Q, single show ps k w Q -> forallb key_char (str k) = true).
  { intros k0 w Q [ ]; try reflexivity; match goal with H : In ?x _ |- context [str ?x] => repeat destruct H as [H|H]; try (subst; reflexivity); destruct H end. }
  intros [ ]; eauto.
Qed.
Lemma key_solid k : forallb key_char k = true -> solid k.
Proof.
  intros H. unfold solid, ascii. split; apply forallb_forall; intros c I; rewrite forallb_forall in H; specialize (H c I); unfold key_char in H; [|lia].
  destruct (sp c) eqn:E; [|reflexivity]. apply sp_iff in E. lia.
Qed.
Lemma key_free k c : forallb key_char k = true -> c = 33 \/ c = 61 -> ~ In c k.
Proof. intros H D I. rewrite forallb_forall in H. specialize (H c I). unfold key_char in H. lia. Qed.
Lemma edged_sp v : edged v -> v <> [] /\ ascii v = true /\ sp (hd 32 v) = false /\ sp (last v 32) = false.
Proof.
  intros (Ne & F & H & L). assert (Z : forall c, ~ blank c -> sp c = false) by (intros c B; destruct (sp c) eqn:E; [apply sp_iff in E; contradiction|reflexivity]).
  split; [exact Ne|]. split; [|split; apply Z; assumption]. apply forallb_forall. rewrite Forall_forall in F. intros c I. specialize (F c I). lia.
Qed.
Lemma trim_edged a t b : edged t -> trim (gap a ++ t ++ gap b) = t.
Proof.
  intros Ed. destruct (edged_sp _ Ed) as (Ne & A & H & L). unfold trim. rewrite trim_start_ascii by (rewrite !ascii_app, !gap_ascii, A; reflexivity).
  rewrite dropw_spaces by apply gap_sp. destruct t as [|x t]; [congruence|]. cbn [hd] in H. cbn [app dropw]. rewrite H. destruct (split_last (x :: t)) as (l & y & E); [discriminate|].
  change (x :: t ++ gap b) with ((x :: t) ++ gap b). rewrite E, <- app_assoc. apply trim_end_tail.
  - rewrite app_assoc, <- E, ascii_app, gap_ascii, A. reflexivity.
  - rewrite E, last_last in L. exact L.
  - apply gap_sp.
Qed.
Lemma says_equal show ps a b c d k v P : edged v -> (forall x y, v <> x ++ str "!=" ++ y) -> asks show ps k v P -> says show ps (expr a b c d (str k) (str "=") v) P.
Proof.
  intros E NO A. pose proof (asks_chars _ _ _ _ _ A) as K.
  assert (Z : forall c0, c0 = 33 \/ c0 = 61 -> ~ In c0 (gap a ++ str k ++ gap b)).
  { intros c0 D I. rewrite !in_app_iff in I. destruct I as [I|[I|I]]; [apply gap_in in I; lia|exact (key_free _ _ K D I)|apply gap_in in I; lia]. }
  apply (says_is show ps _ P (gap a ++ str k ++ gap b) (gap c ++ v ++ gap d) k).
  - unfold expr. fold (gap a) (gap b) (gap c) (gap d). replace (gap a ++ str k ++ gap b ++ str "=" ++ gap c ++ v ++ gap d) with ((gap a ++ str k ++ gap b) ++ str "=" ++ (gap c ++ v ++ gap d)) by (rewrite <- !app_assoc; reflexivity).
    apply (first_char 61 []). apply Z. auto.
  - intros x y H. unfold expr in H. fold (gap a) (gap b) (gap c) (gap d) in H.
    replace (gap a ++ str k ++ gap b ++ str "=" ++ gap c ++ v ++ gap d) with ((gap a ++ str k ++ gap b ++ str "=" ++ gap c) ++ (v ++ gap d)) in H by (rewrite <- !app_assoc; reflexivity).
    apply (pat_after 33 [61]) in H.
    + destruct H as (x' & H). apply ne_before in H as (y' & H). exact (NO _ _ H).
    + rewrite !in_app_iff. intros [I|[I|[I|[I|I]]]]; [apply gap_in in I; discriminate|exact (key_free _ 33 K (or_introl eq_refl) I)|apply gap_in in I; discriminate|destruct I as [I|[]]; discriminate|apply gap_in in I; discriminate].
  - apply trim_field, key_solid, K.
  - rewrite trim_edged by exact E. apply (proj1 E).
  - rewrite trim_edged by exact E. exact A.
Qed.
Lemma says_differs show ps a b c d k v w P : forallb key_char (str k) = true -> edged v -> negated k v w -> asks show ps k w P -> says show ps (expr a b c d (str k) (str "!=") v) P.
Proof.
  intros K E W A.
  apply (says_not show ps _ P (gap a ++ str k ++ gap b) (gap c ++ v ++ gap d) k w).
  - unfold expr. fold (gap a) (gap b) (gap c) (gap d). replace (gap a ++ str k ++ gap b ++ str "!=" ++ gap c ++ v ++ gap d) with ((gap a ++ str k ++ gap b) ++ str "!=" ++ (gap c ++ v ++ gap d)) by (rewrite <- !app_assoc; reflexivity).
    apply (first_char 33 [61]). intros I. rewrite !in_app_iff in I. destruct I as [I|[I|I]]; [apply gap_in in I; discriminate|exact (key_free _ 33 K (or_introl eq_refl) I)|apply gap_in in I; discriminate].
  - apply trim_field, key_solid, K.
  - rewrite trim_edged by exact E. apply (proj1 E).
  - rewrite trim_edged by exact E. exact W.
  - exact A.
Qed.
Lemma single_key show ps k v P : single show ps k v P -> ~ In k list_keys.
Proof.
  intros [ ]; try (cbn; intuition discriminate); match goal with H : In ?x _ |- ~ In ?x _ => repeat destruct H as [H|H]; try (subst; cbn; intuition discriminate); destruct H end.
Qed.
Lemma differs_single show ps a b c d k v P : single show ps k v P -> edged v -> hd_error v <> Some 33 -> (v = str "*" -> forall Q, ~ starred k Q) ->
  ~ In k ["ts_start"; "start_ts"; "ts_end"; "end_ts"] -> says show ps (expr a b c d (str k) (str "!=") v) (fun e => ~ P e).
Proof.
  intros S E B Z T. eapply says_differs; [exact (asks_chars _ _ _ _ _ (a_single show ps k v P S B Z))|exact E| |exact (a_not_single show ps k v P S B Z T)].
  split; [intros I; destruct (single_key _ _ _ _ _ S I)|auto].
Qed.
Lemma solid_trim t : solid t -> trim t = t.
Proof. intros S. pose proof (trim_field 0 t 0 S) as H. cbn [gap repeat app] in H. rewrite app_nil_r in H. exact H. Qed.
Lemma part_solid t : part_ok t -> t <> [] /\ solid t /\ ~ In 44 t.
Proof.
  intros (Ne & F). rewrite Forall_forall in F. split; [exact Ne|]. split; [split; apply forallb_forall; intros c I; destruct (F c I) as (A & B & _)|intros I; apply (F 44 I); reflexivity].
  - destruct (sp c) eqn:E; [apply sp_iff in E; contradiction|reflexivity].
  - lia.
Qed.
Lemma solid_no_blank t : solid t -> ~ In 32 t.
Proof. intros [S _] I. rewrite forallb_forall in S. specialize (S 32 I). discriminate. Qed.
Lemma join_solid ts : Forall part_ok ts -> solid (join [44] ts).
Proof.
  induction 1 as [|t ts Pt F IH]; [split; reflexivity|]. destruct (part_solid t Pt) as (_ & S & _). destruct ts as [|u ts]; [exact S|]. change (join [44] (t :: u :: ts)) with (t ++ [44] ++ join [44] (u :: ts)).
  apply solid_app. split; [exact S|]. apply solid_app. split; [split; reflexivity|exact IH].
Qed.
Lemma solid_edged v : v <> [] -> solid v -> edged v.
Proof.
  intros Ne [S A]. assert (Z : forall c, In c v -> ~ blank c). { intros c I B. rewrite forallb_forall in S. specialize (S c I). apply sp_iff in B. rewrite B in S. discriminate. }
  split; [exact Ne|]. split; [apply Forall_forall; intros c I; unfold ascii in A; rewrite forallb_forall in A; specialize (A c I); lia|]. split; apply Z.
  - destruct v as [|x v]; [congruence|]. left. reflexivity.
  - destruct (split_last v Ne) as (l & y & ->). rewrite last_last. apply in_or_app. right. left. reflexivity.
Qed.
Lemma part_bang t : part_ok t -> part_ok (33 :: t).
Proof. intros (_ & F). split; [discriminate|]. constructor; [|exact F]. unfold blank. lia. Qed.
Lemma parts_of ts : ts <> [] -> Forall part_ok ts -> list_parts (join [44] ts) = ts.
Proof. intros Ne F. apply parts_join; [exact Ne|]. eapply Forall_impl; [|exact F]. intros t Pt. destruct (part_solid t Pt) as (A & S & C). auto using solid_no_blank. Qed.
Lemma valued_not {A} (p : bytes -> option A) ts l : Forall2 (valued p false) ts l -> Forall2 (valued p true) (map (fun t => 33 :: t) ts) l.
Proof. induction 1 as [|t a ts l (v & E & -> & _) F IH]; cbn [map]; constructor; [|exact IH]. exists v. auto. Qed.
Lemma listed_key ps k v n P : listed ps k v n P -> In k list_keys.
Proof. intros [ | ? ? ? ? ? I| | ]; try (cbn; tauto). repeat destruct I as [I|I]; try (injection I as <- _; cbn; tauto). destruct I. Qed.
Lemma listed_not ps k ts P : ts <> [] -> Forall part_ok ts -> listed ps k (join [44] ts) false P -> listed ps k (join [44] (map (fun t => 33 :: t) ts)) true P.
Proof.
  intros Ne F L. assert (N2 : map (fun t => 33 :: t) ts <> []) by (destruct ts; [congruence|discriminate]).
  assert (F2 : Forall part_ok (map (fun t => 33 :: t) ts)) by (apply Forall_map; eapply Forall_impl; [|exact F]; intros t H; apply part_bang, H).
  inversion L as [v l n N3 FF|k' t v l n I N3 FF|v l n N3 FF|v l n N3 FF]; subst; rewrite parts_of in FF by assumption.
  - constructor; [exact N3|]. rewrite parts_of by assumption. apply valued_not, FF.
  - eapply l_prefixes; [exact I|exact N3|]. rewrite parts_of by assumption. apply valued_not, FF.
  - constructor; [exact N3|]. rewrite parts_of by assumption. apply valued_not, FF.
  - constructor; [exact N3|]. rewrite parts_of by assumption. apply valued_not, FF.
Qed.
Lemma differs_list show ps a b c d k ts P : ts <> [] -> Forall part_ok ts -> listed ps k (join [44] ts) false P -> says show ps (expr a b c d (str k) (str "!=") (join [44] ts)) (fun e => ~ P e).
Proof.
  intros Ne F L. eapply says_differs.
  - exact (asks_chars _ _ _ _ _ (a_list show ps k _ P L)).
  - apply solid_edged, join_solid, F. destruct ts as [|t ts]; [congruence|]. inversion F as [|? ? (H & _) _]; subst. destruct t; [congruence|]. destruct ts; discriminate.
  - split; [|intros H; destruct (H (listed_key _ _ _ _ _ L))]. intros _. change (str ",") with [44]. rewrite split_join by (assumption || (eapply Forall_impl; [|exact F]; intros t H; apply part_solid, H)).
    reflexivity.
  - cbv beta. replace (map (fun p => str "!" ++ trim p) ts) with (map (fun t => 33 :: t) ts).
    + exact (a_not_list show ps k _ P (listed_not ps k ts P Ne F L)).
    + apply map_ext_in. intros t I. rewrite Forall_forall in F. rewrite solid_trim by apply (part_solid t (F t I)). reflexivity.
Qed.
Lemma differs_star show ps a b c d k P : starred k P -> says show ps (expr a b c d (str k) (str "!=") (str "*")) (fun e => ~ P e).
Proof.
  intros S. eapply says_differs; [exact (asks_chars _ _ _ _ _ (a_star show ps k P S))|apply solid_edged; [discriminate|split; reflexivity]| |exact (a_not_star show ps k P S)].
  split; [|reflexivity]. intros _. destruct S; reflexivity.
Qed.
