(** Proofs about the command line tool: the filters. *)
From Coq Require Import Lia String Floats.SpecFloat.
From Verif Require Import Base BaseFacts Net NetSpec AsPath Community Attr Elem Text Filter FilterSpec FilterFacts FilterKeysFacts TextDump TextDumpFacts Stream Framing MrtRecord Iter IterSpec Psv PsvSpec Recovery Cli CliSpec.
Local Open Scope string_scope. Local Open Scope list_scope. Local Open Scope N_scope.

(** * The first place of a pattern *)
Lemma strip_prefix_iff p s r : strip_prefix p s = Some r <-> s = p ++ r.
Proof.
  revert s. induction p as [|x p IH]; intros s; cbn [strip_prefix app]; [split; intros H; [injection H as ->; reflexivity|subst; reflexivity]|].
  destruct s as [|y s]; [split; discriminate|]. destruct (N.eqb_spec x y) as [->|D]; [rewrite IH; split; intros H; [subst; reflexivity|injection H as ->; reflexivity]|].
  split; [discriminate|]. intros H. injection H as E _. congruence.
Qed.
Lemma split_once_eq p s : split_once p s = match strip_prefix p s with
  | Some r => Some ([], r)
  | None => match s with [] => None | x :: s' => match split_once p s' with Some (a, b) => Some (x :: a, b) | None => None end end end.
Proof. destruct s; reflexivity. Qed.
Lemma split_some p s a b : split_once p s = Some (a, b) -> first_at p s a b.
Proof.
  revert a b. induction s as [|x s IH]; intros a b H; rewrite split_once_eq in H; destruct (strip_prefix p _) as [r|] eqn:E.
  - injection H as <- <-. apply strip_prefix_iff in E. split; [exact E|]. intros; cbn; lia.
  - discriminate.
  - injection H as <- <-. apply strip_prefix_iff in E. split; [exact E|]. intros; cbn; lia.
  - destruct (split_once p s) as [[u v]|] eqn:S; [|discriminate]. injection H as <- <-. destruct (IH _ _ eq_refl) as [X M].
    split; [cbn; congruence|]. intros [|c a'] b' Q; cbn [app] in Q.
    + exfalso. rewrite (proj2 (strip_prefix_iff p (x :: s) b') Q) in E. discriminate.
    + injection Q as <- Q. cbn. specialize (M _ _ Q). lia.
Qed.
Lemma split_none p s : split_once p s = None -> forall a b, s <> a ++ p ++ b.
Proof.
  induction s as [|x s IH]; intros H a b Q; rewrite split_once_eq in H; destruct (strip_prefix p _) as [r|] eqn:E; try discriminate.
  - destruct a; [|discriminate]. cbn [app] in Q. rewrite (proj2 (strip_prefix_iff p [] b) Q) in E. discriminate.
  - destruct (split_once p s) as [[u v]|] eqn:S; [discriminate|]. destruct a as [|c a]; cbn [app] in Q.
    + rewrite (proj2 (strip_prefix_iff p (x :: s) b) Q) in E. discriminate.
    + injection Q as <- Q. exact (IH eq_refl a b Q).
Qed.
Lemma first_unique p s a b c d : first_at p s a b -> first_at p s c d -> a = c /\ b = d.
Proof.
  intros [A1 A2] [B1 B2]. pose proof (A2 _ _ B1). pose proof (B2 _ _ A1). assert (L : length a = length c) by lia. rewrite A1 in B1.
  assert (F : forall (x y z w : bytes), length x = length z -> x ++ y = z ++ w -> x = z /\ y = w).
  { clear. induction x as [|q x IH]; intros y [|r z] w L E; try discriminate; [auto|]. cbn in *. injection E as -> E. destruct (IH y z w ltac:(lia) E) as [-> ->]. auto. }
  destruct (F _ _ _ _ L B1) as [-> E]. apply app_inv_head in E. auto.
Qed.
Lemma split_first p s a b : first_at p s a b -> split_once p s = Some (a, b).
Proof.
  intros F. destruct (split_once p s) as [[c d]|] eqn:E; [|exfalso; exact (split_none _ _ E _ _ (proj1 F))].
  destruct (first_unique _ _ _ _ _ _ F (split_some _ _ _ _ E)) as [-> ->]. reflexivity.
Qed.

(** * Keywords *)
Lemma new_key show ps k v f : filter_new ps (str k) v = Some f -> exists P, asks show ps k v P /\ forall e, match_filter show (VElem e) f = true <-> P e.
Proof. intros H. destruct (new_asks show ps _ v f H) as (k' & P & E & A & M). apply str_inj in E. subst k'. eauto. Qed.
Lemma asks_same show ps k v P Q e : asks show ps k v P -> asks show ps k v Q -> P e <-> Q e.
Proof.
  intros A B. destruct (asks_new _ _ _ _ _ A) as (f & Ef & Hf). destruct (asks_new _ _ _ _ _ B) as (g & Eg & Hg).
  rewrite Ef in Eg. injection Eg as <-. rewrite <- (Hf e), <- (Hg e). reflexivity.
Qed.
Lemma not_star v : v <> str "*" -> forall (k : string), v = str "*" -> forall Q, ~ starred k Q.
Proof. intros H k E. contradiction. Qed.

(** * Expressions *)
Lemma list_key k : one_of (str k) list_keys = true <-> In k list_keys.
Proof. split; [|apply one_of_str]. intros H. apply one_of_in in H as (x & I & E). apply str_inj in E. subst x. exact I. Qed.
Lemma negated_is k v w : negated k v w <-> w = if one_of (str k) list_keys then join [44] (map (fun p => 33 :: trim p) (split_on 44 v)) else 33 :: v.
Proof.
  unfold negated. destruct (one_of (str k) list_keys) eqn:E.
  - apply list_key in E. split; [intros [H _]; exact (H E)|intros ->; split; [intros _; reflexivity|intros N; contradiction]].
  - assert (N : ~ In k list_keys) by (intros I; apply list_key in I; congruence). split; [intros [_ H]; exact (H N)|intros ->; split; [intros I; contradiction|intros _; reflexivity]].
Qed.
Definition expr_filter (ps : parsers) (x : bytes) : option filter :=
  match parse_filter_expression x with Some (k, v) => filter_new ps k v | None => None end.
Lemma new_empty_key ps v : filter_new ps [] v = None.
Proof.
  destruct (filter_new ps [] v) as [f|] eqn:E; [|reflexivity]. change (@nil N) with (str "") in E. destruct (new_key (fun _ => []) ps _ _ _ E) as (P & A & _).
  exfalso. inversion A as [k Q S|k Q S|k w Q S|k w Q S|k w Q S|k w Q S]; subst; inversion S; subst; cbn [In] in *; intuition congruence.
Qed.
Lemma parse_is x k v : split_once (str "!=") x = None -> first_at (str "=") x k v -> trim k <> [] -> trim v <> [] -> parse_filter_expression x = Some (trim k, trim v).
Proof.
  intros N F K V. unfold parse_filter_expression. rewrite N, (split_first _ _ _ _ F). cbv zeta. destruct (trim k), (trim v); congruence.
Qed.
Lemma parse_not x k v : first_at (str "!=") x k v -> trim k <> [] -> trim v <> [] ->
  parse_filter_expression x = Some (trim k, if one_of (trim k) list_keys then join [44] (map (fun p => 33 :: trim p) (split_on 44 (trim v))) else 33 :: trim v).
Proof.
  intros F K V. unfold parse_filter_expression. rewrite (split_first _ _ _ _ F). cbv zeta.
  destruct (trim k) as [|a b]; [congruence|]. destruct (trim v) as [|c d]; [congruence|]. unfold list_keys. destruct (one_of (a :: b) _); reflexivity.
Qed.
Lemma says_new show ps x P : says show ps x P -> exists f, expr_filter ps x = Some f /\ forall e, match_filter show (VElem e) f = true <-> P e.
Proof.
  intros [k v key F NO K V A|k v key w F K V W A]; destruct (asks_new _ _ _ _ _ A) as (f & Ef & Hf); exists f; (split; [|exact Hf]); unfold expr_filter.
  - assert (S : split_once (str "!=") x = None) by (destruct (split_once (str "!=") x) as [[c d]|] eqn:S; [exfalso; exact (NO _ _ (proj1 (split_some _ _ _ _ S)))|reflexivity]).
    assert (K' : trim k <> []) by (rewrite K; intros Z; rewrite Z, new_empty_key in Ef; discriminate).
    rewrite (parse_is x k v S F K' V), K. exact Ef.
  - assert (K' : trim k <> []) by (rewrite K; intros Z; rewrite Z, new_empty_key in Ef; discriminate).
    rewrite (parse_not x k v F K' V), K. apply negated_is in W. rewrite <- W. exact Ef.
Qed.
Lemma new_says show ps x f : expr_filter ps x = Some f -> exists P, says show ps x P /\ forall e, match_filter show (VElem e) f = true <-> P e.
Proof.
  unfold expr_filter, parse_filter_expression. destruct (split_once (str "!=") x) as [[k v]|] eqn:S.
  - pose proof (split_some _ _ _ _ S) as F. cbv zeta. destruct (trim k) as [|a b] eqn:K; [discriminate|]. destruct (trim v) as [|c d] eqn:V; [discriminate|].
    change ["origin_asns"; "prefixes"; "prefixes_super"; "prefixes_sub"; "prefixes_super_sub"; "peer_ips"; "peer_asns"] with list_keys.
    intros H. assert (E : filter_new ps (a :: b) (if one_of (a :: b) list_keys then join [44] (map (fun p => 33 :: trim p) (split_on 44 (c :: d))) else 33 :: c :: d) = Some f) by (destruct (one_of (a :: b) list_keys); exact H).
    remember (if one_of (a :: b) list_keys then join [44] (map (fun p => 33 :: trim p) (split_on 44 (c :: d))) else 33 :: c :: d) as w eqn:Ew in E.
    destruct (new_asks show ps _ _ _ E) as (key & P & EK & A & M). exists P. split; [|exact M].
    eapply says_not; [exact F|rewrite K; exact EK|rewrite V; discriminate|rewrite V; apply negated_is; rewrite <- EK; exact Ew|exact A].
  - destruct (split_once (str "=") x) as [[k v]|] eqn:S'; [|discriminate]. pose proof (split_some _ _ _ _ S') as F. cbv zeta.
    destruct (trim k) as [|a b] eqn:K; [discriminate|]. destruct (trim v) as [|c d] eqn:V; [discriminate|]. intros E.
    destruct (new_asks show ps _ _ _ E) as (key & P & EK & A & M). exists P. split; [|exact M].
    eapply says_is; [exact F|exact (split_none _ _ S)|rewrite K; exact EK|rewrite V; discriminate|rewrite V; exact A].
Qed.
Lemma says_same show ps x P Q e : says show ps x P -> says show ps x Q -> P e <-> Q e.
Proof.
  intros A B. destruct (says_new _ _ _ _ A) as (f & Ef & Hf). destruct (says_new _ _ _ _ B) as (g & Eg & Hg).
  rewrite Ef in Eg. injection Eg as <-. rewrite <- (Hf e), <- (Hg e). reflexivity.
Qed.

(** * Composing the steps *)
Definition step_ok (show : meta_community -> bytes) (fs : list filter) (x : step (list filter)) (A : Prop) (W : elem -> Prop) : Prop :=
  (A -> exists g, x = Go (fs ++ g) /\ forall e, match_filters show (VElem e) g = true <-> W e) /\ (forall fs', x = Go fs' -> A).
Lemma step_bind show fs x k A W B X : step_ok show fs x A W -> (forall fs', step_ok show fs' (k fs') B X) ->
  step_ok show fs (sbind x k) (A /\ B) (fun e => W e /\ X e).
Proof.
  intros [H1 H2] K. split.
  - intros [a b]. destruct (H1 a) as (g & -> & M). cbn [sbind]. destruct (proj1 (K (fs ++ g)) b) as (h & -> & M'). exists (g ++ h). rewrite app_assoc. split; [reflexivity|].
    intros e. unfold match_filters in *. rewrite forallb_app, andb_true_iff, M, M'. reflexivity.
  - intros fs' H. destruct x as [g| |]; try discriminate. cbn [sbind] in H. split; [exact (H2 _ eq_refl)|exact (proj2 (K g) _ H)].
Qed.
Lemma step_weaken show fs x A W B X : step_ok show fs x A W -> (A <-> B) -> (B -> forall e, W e <-> X e) -> step_ok show fs x B X.
Proof.
  intros [H1 H2] AB WX. split.
  - intros b. destruct (H1 (proj2 AB b)) as (g & E & M). exists g. split; [exact E|]. intros e. rewrite M. apply WX, b.
  - intros fs' H. apply AB, (H2 _ H).
Qed.
Lemma step_none show fs : step_ok show fs (Go fs) True (fun _ => True).
Proof. split; [intros _; exists []; rewrite app_nil_r; split; [reflexivity|]; intros e; split; auto|auto]. Qed.
Lemma step_add show ps k v fs : step_ok show fs (add_filter ps k v fs) (exists P, asks show ps k v P) (fun e => exists P, asks show ps k v P /\ P e).
Proof.
  unfold add_filter. split.
  - intros [P A]. destruct (asks_new _ _ _ _ _ A) as (f & -> & M). exists [f]. split; [reflexivity|]. intros e. cbn [match_filters forallb]. rewrite andb_true_r, M.
    split; [intros H; exists P; auto|intros (Q & B & H); apply (asks_same _ _ _ _ _ _ e A B); exact H].
  - intros fs' H. destruct (filter_new ps (str k) v) as [f|] eqn:E; [|discriminate]. destruct (new_key show ps k v f E) as (P & A & _). eauto.
Qed.
Lemma step_add_is show ps k v fs Q : asks show ps k v Q -> step_ok show fs (add_filter ps k v fs) True Q.
Proof.
  intros A. eapply step_weaken; [apply step_add|split; [auto|intros _; exists Q; exact A]|]. intros _ e. split; [intros (P & B & H); apply (asks_same _ _ _ _ _ _ e A B); exact H|intros H; exists Q; auto].
Qed.
Lemma step_if show {A} ps k (text : A -> bytes) o fs : step_ok show fs (add_if ps k text o fs)
  (forall a, o = Some a -> exists P, asks show ps k (text a) P) (fun e => forall a, o = Some a -> exists P, asks show ps k (text a) P /\ P e).
Proof.
  destruct o as [a|]; cbn [add_if].
  - eapply step_weaken; [apply step_add|split; [intros H b E; injection E as <-; exact H|intros H; exact (H a eq_refl)]|].
    intros _ e. split; [intros H b E; injection E as <-; exact H|intros H; exact (H a eq_refl)].
  - eapply step_weaken; [apply step_none|split; [intros _ a E; discriminate|auto]|]. intros _ e. split; [intros _ a E; discriminate|auto].
Qed.
Lemma step_if_is show {A} ps k (text : A -> bytes) (ok : A -> Prop) (Q : A -> elem -> Prop) o fs : all_opt ok o -> (forall a, ok a -> asks show ps k (text a) (Q a)) ->
  step_ok show fs (add_if ps k text o fs) True (fun e => forall a, o = Some a -> Q a e).
Proof.
  intros H K. destruct o as [a|]; cbn [add_if].
  - eapply step_weaken; [exact (step_add_is _ _ _ _ _ _ (K a H))|tauto|]. intros _ e. split; [intros X b E; injection E as <-; exact X|intros X; exact (X a eq_refl)].
  - eapply step_weaken; [apply step_none|tauto|]. intros _ e. split; [intros _ a E; discriminate|auto].
Qed.
Lemma step_exprs show ps l : forall fs, step_ok show fs (add_exprs ps l fs) (forall x, In x l -> exists P, says show ps x P) (fun e => forall x, In x l -> exists P, says show ps x P /\ P e).
Proof.
  induction l as [|x l IH]; intros fs; cbn [add_exprs].
  - eapply step_weaken; [apply step_none|split; [intros _ x []|auto]|]. intros _ e. split; [intros _ x []|auto].
  - assert (E : (match parse_filter_expression x with
      | Some (k, v) => match filter_new ps k v with Some f => add_exprs ps l (fs ++ [f]) | None => Stop (BadFilter x) end
      | None => Stop (BadExpression x) end) =
      sbind (match expr_filter ps x with Some f => Go (fs ++ [f]) | None => match parse_filter_expression x with Some _ => Stop (BadFilter x) | None => Stop (BadExpression x) end end) (add_exprs ps l)).
    { unfold expr_filter. destruct (parse_filter_expression x) as [[k v]|]; [|reflexivity]. destruct (filter_new ps k v); reflexivity. }
    rewrite E. clear E. eapply step_weaken; [eapply step_bind; [|exact IH]|..].
    + instantiate (1 := fun e => exists P, says show ps x P /\ P e). instantiate (1 := exists P, says show ps x P). split.
      * intros [P S]. destruct (says_new _ _ _ _ S) as (f & -> & M). exists [f]. split; [reflexivity|]. intros e. cbn [match_filters forallb]. rewrite andb_true_r, M.
        split; [intros H; exists P; auto|intros (Q & B & H); apply (says_same _ _ _ _ _ e S B); exact H].
      * intros fs' H. destruct (expr_filter ps x) as [f|] eqn:E; [destruct (new_says show ps x f E) as (P & S & _); eauto|destruct (parse_filter_expression x); discriminate].
    + split; [intros [a b] y [<-|I]; [exact a|exact (b y I)]|intros H; split; [exact (H x (or_introl eq_refl))|intros y I; exact (H y (or_intror I))]].
    + intros _ e. split; [intros [a b] y [<-|I]; [exact a|exact (b y I)]|intros H; split; [exact (H x (or_introl eq_refl))|intros y I; exact (H y (or_intror I))]].
Qed.

(** * The filters of the options *)
Lemma dec_clear n : clear (dec n).
Proof. split; [apply dec_ok|]. intros H. destruct (dec n) as [|c s] eqn:E; [discriminate|]. cbn in H. injection H as ->. pose proof (dec_chars n 33) as D. rewrite E in D. specialize (D (or_introl eq_refl)). lia. Qed.
Lemma asks_plain show ps k v P : single show ps k v P -> clear v -> present_field_for (str k) = None -> asks show ps k v P.
Proof.
  intros S [_ C] N. apply a_single; auto. intros _ Q St. destruct (starred_field show k Q St) as (f & E & _). congruence.
Qed.
Lemma step_time show ps k (F : f64 -> filter) (W : f64 -> elem -> Prop) text o fs :
  (forall v, clear v -> filter_new ps (str k) v = option_map F (ps_time ps v)) -> (forall x e, match_filter show (VElem e) (F x) = true <-> W x e) ->
  (forall t, binary64 t -> clear (text t) /\ ps_time ps (text t) = option_map f64_of_Z (from_timestamp (f64_to_i64 t))) -> all_opt binary64 o ->
  step_ok show fs (add_if ps k text o fs) (forall t, o = Some t -> exists x, instant t x) (fun e => forall t, o = Some t -> exists x, instant t x /\ W x e).
Proof.
  intros N M T B. destruct o as [t|]; cbn [add_if].
  - destruct (T t B) as [C E]. unfold add_filter. rewrite (N _ C), E. unfold instant. destruct (from_timestamp (f64_to_i64 t)) as [z|] eqn:Z; cbn [option_map]; split.
    + intros _. exists [F (f64_of_Z z)]. split; [reflexivity|]. intros e. cbn [match_filters forallb]. rewrite andb_true_r, M. split.
      * intros H u U. injection U as <-. exists (f64_of_Z z). split; [exists z; auto|exact H].
      * intros H. destruct (H t eq_refl) as (x & (y & Y & ->) & Hx). rewrite Z in Y. injection Y as <-. exact Hx.
    + intros fs' _ u U. injection U as <-. exists (f64_of_Z z), z. auto.
    + intros H. destruct (H t eq_refl) as (x & y & Y & _). congruence.
    + discriminate.
  - eapply step_weaken; [apply step_none|split; [intros _ a E; discriminate|auto]|]. intros _ e. split; [intros _ a E; discriminate|auto].
Qed.
Lemma new_start ps v : clear v -> filter_new ps (str "start_ts") v = option_map FTsStart (ps_time ps v).
Proof.
  intros [_ C]. destruct (no_bang v C) as [B1 B2]. unfold filter_new. change (one_of (str "start_ts") multi_value) with false. cbv iota. rewrite B1. cbn [andb].
  change (present_field_for (str "start_ts")) with (@None present_field). replace (if bytes_eqb v [42] then None else None) with (@None present_field) by (destruct (bytes_eqb v [42]); reflexivity).
  unfold new_base. repeat match goal with |- context [one_of (str "start_ts") ?x] => let w := eval vm_compute in (one_of (str "start_ts") x) in change (one_of (str "start_ts") x) with w end. cbv iota zeta.
  destruct (ps_time ps v); reflexivity.
Qed.
Lemma new_end ps v : clear v -> filter_new ps (str "end_ts") v = option_map FTsEnd (ps_time ps v).
Proof.
  intros [_ C]. destruct (no_bang v C) as [B1 B2]. unfold filter_new. change (one_of (str "end_ts") multi_value) with false. cbv iota. rewrite B1. cbn [andb].
  change (present_field_for (str "end_ts")) with (@None present_field). replace (if bytes_eqb v [42] then None else None) with (@None present_field) by (destruct (bytes_eqb v [42]); reflexivity).
  unfold new_base. repeat match goal with |- context [one_of (str "end_ts") ?x] => let w := eval vm_compute in (one_of (str "end_ts") x) in change (one_of (str "end_ts") x) with w end. cbv iota zeta.
  destruct (ps_time ps v); reflexivity.
Qed.
Lemma peers_asked show ps T l : l <> [] -> Forall (fun i => ps_ip ps (sh_ip T i) = Some i /\ clear (sh_ip T i) /\ ~ In 44 (sh_ip T i) /\ ~ In 32 (sh_ip T i)) l ->
  asks show ps "peer_ips" (join [44] (map (sh_ip T) l)) (fun e => In (e_peer e) l).
Proof.
  intros Ne F. apply a_list. apply l_peer_ips; [exact Ne|]. rewrite parts_join.
  - clear Ne. induction F as [|i l (E & C & _) F IH]; cbn [map]; constructor; [|exact IH]. exists (sh_ip T i). split; [exact E|split; [reflexivity|apply C]].
  - destruct l; [contradiction|discriminate].
  - apply Forall_map. eapply Forall_impl; [|exact F]. intros i (_ & [C _] & A & B). auto.
Qed.
Lemma build_ok show P ps o : texts_read P ps -> opts_ok o -> step_ok show [] (build_filters P ps o) (accepted show ps o) (wanted show ps o).
Proof.
  intros (TN & TI & float & rfc & TT & TF) (O1 & O2 & O3 & O4 & O5 & O6). unfold build_filters.
  assert (Time : forall t, binary64 t -> clear (sh_time (pt_shows P) t) /\ ps_time ps (sh_time (pt_shows P) t) = option_map f64_of_Z (from_timestamp (f64_to_i64 t))).
  { intros t B. destruct (TF t B) as [E C]. split; [exact C|]. rewrite TT. unfold parse_time. rewrite E. reflexivity. }
  eapply step_weaken.
  - eapply step_bind; [exact (step_if show ps "as_path" (fun v => v) (o_path o) [])|]. intros fs1.
    eapply step_bind; [exact (step_if show ps "community" (fun v => v) (o_comm o) fs1)|]. intros fs2.
    eapply step_bind; [exact (step_if_is show ps "origin_asn" dec _ (fun a e => exists l, e_origins e = Some l /\ In a l) (o_origin o) fs2 O1 (fun a H => asks_plain show ps "origin_asn" _ _ (s_origin_asn show ps _ _ (parse_dec a H)) (dec_clear a) eq_refl))|]. intros fs3.
    eapply step_bind; [refine (step_if_is show ps _ (pt_net P) _ (fun p e => prefix_holds p (p_net (e_prefix e)) (prefix_mode (o_super o) (o_sub o))) (o_prefix o) fs3 O2 _)|].
    { intros n Hn. destruct (TN n Hn) as [E C]. destruct (o_super o), (o_sub o); apply asks_plain; try exact C; try reflexivity; constructor; exact E. }
    intros fs4. eapply step_bind.
    { instantiate (1 := fun e => o_peers o <> [] -> In (e_peer e) (o_peers o)). instantiate (1 := True). destruct (o_peers o) as [|i l] eqn:L.
      - eapply step_weaken; [apply step_none|tauto|]. intros _ e. split; [intros _ H; congruence|auto].
      - eapply step_weaken; [apply step_add_is, peers_asked; [discriminate|]|tauto|].
        + eapply Forall_impl; [|exact O3]. intros j Hj. destruct (TI j Hj) as (A1 & A2 & A3 & A4). auto.
        + intros _ e. split; [auto|intros H; apply H; discriminate]. }
    intros fs5. eapply step_bind; [exact (step_if_is show ps "peer_asn" dec _ (fun a e => e_asn e = a) (o_peer_asn o) fs5 O4 (fun a H => asks_plain show ps "peer_asn" _ _ (s_peer_asn show ps _ _ (parse_dec a H)) (dec_clear a) eq_refl))|]. intros fs6.
    eapply step_bind; [exact (step_if show ps "type" (fun v => v) (o_type o) fs6)|]. intros fs7.
    eapply step_bind; [exact (step_time show ps "start_ts" FTsStart (fun x e => f64_le x (e_time e)) _ (o_start o) fs7 (new_start ps) (fun x e => elem_matches show e (FTsStart x)) Time O5)|]. intros fs8.
    eapply step_bind; [exact (step_time show ps "end_ts" FTsEnd (fun x e => f64_le (e_time e) x) _ (o_end o) fs8 (new_end ps) (fun x e => elem_matches show e (FTsEnd x)) Time O6)|]. intros fs9.
    eapply step_bind; [exact (step_exprs show ps (o_exprs o) fs9)|]. intros fs10.
    instantiate (1 := fun e => (o_v4 o = true -> exists a, net_addr (p_net (e_prefix e)) = V4 a) /\ (o_v6 o = true -> exists a, net_addr (p_net (e_prefix e)) = V6 a)).
    instantiate (1 := ~ (o_v4 o = true /\ o_v6 o = true)). destruct (o_v4 o), (o_v6 o).
    + split; [tauto|discriminate].
    + eapply step_weaken; [apply step_add_is; apply asks_plain; [apply s_v4 with (w := "ipv4"); cbn [In]; tauto|split; discriminate|reflexivity]|split; [intros _ [_ H]; discriminate|auto]|]. intros _ e. split; [intros H; split; [auto|discriminate]|tauto].
    + eapply step_weaken; [apply step_add_is; apply asks_plain; [apply s_v6 with (w := "ipv6"); cbn [In]; tauto|split; discriminate|reflexivity]|split; [intros _ [H _]; discriminate|auto]|]. intros _ e. split; [intros H; split; [discriminate|auto]|tauto].
    + eapply step_weaken; [apply step_none|split; [intros _ [H _]; discriminate|auto]|]. intros _ e. split; [intros _; split; discriminate|auto].
  - unfold accepted. tauto.
  - intros _ e. unfold wanted. tauto.
Qed.
