(** Proofs about the keywords of textual filters. *)
From Coq Require Import Ascii String Lia Floats.SpecFloat.
From Verif Require Import Tac Base BaseFacts Net NetSpec AsPath Community Attr Elem Text Filter FilterSpec FilterFacts.

Lemma bytes_eqb_true a b : bytes_eqb a b = true -> a = b.
Proof. revert b. induction a as [|u a IH]; intros [|w b] H; try discriminate; auto. cbn in H. apply andb_true_iff in H as [H1 H2]. apply N.eqb_eq in H1. f_equal; auto. Qed.
Lemma one_of_in s l : one_of s l = true -> exists x, In x l /\ s = str x.
Proof. unfold one_of. intros H. apply existsb_exists in H as (x & I & E). exists x. split; [exact I|]. apply bytes_eqb_true. exact E. Qed.
Lemma one_of_str x l : In x l -> one_of (str x) l = true.
Proof.
  intros I. apply existsb_exists. exists x. split; [exact I|]. generalize (str x). induction b as [|c b IH]; [reflexivity|]. cbn. rewrite N.eqb_refl, IH. reflexivity.
Qed.
Ltac keys := repeat match goal with |- context [one_of (str ?a) ?x] => let r := eval vm_compute in (one_of (str a) x) in change (one_of (str a) x) with r end; cbv iota.
Ltac pick H := cbn [In] in H; repeat (destruct H as [H|H]); try contradiction; try subst.
Lemma single_base show ps k v P : single show ps k v P -> exists f, new_base ps (str k) v = Some f /\ one_of (str k) multi_value = false /\ forall e, holds show e f <-> P e.
Proof.
  intros H. destruct H; unfold new_base; cbn zeta;
    repeat match goal with I : In (_, _) _ |- _ => pick I; injection I as <- <- | I : In _ _ |- _ => pick I end; keys;
    repeat match goal with E : _ = Some _ |- _ => rewrite E end; repeat match goal with E : lower _ = _ |- _ => rewrite E end; keys; cbn [option_map];
    (eexists; split; [reflexivity|]; split; [vm_compute; reflexivity|]; intros e; cbn [holds]; reflexivity).
Qed.
Lemma listed_base show ps k v n P : listed ps k v n P -> exists f, new_base ps (str k) v = Some f /\ one_of (str k) multi_value = true /\ forall e, holds show e f <-> if n then ~ P e else P e.
Proof.
  intros H. destruct H; unfold new_base; cbn zeta;
    repeat match goal with I : In (_, _) _ |- _ => pick I; injection I as <- <- end; keys;
    (match goal with F : Forall2 (valued ?p ?n) (list_parts ?v) ?l |- _ => rewrite (proj2 (list_iff p v l n) (conj H F)) || (match goal with Ne : l <> [] |- _ => rewrite (proj2 (list_iff p v l n) (conj Ne F)) end) end);
    (eexists; split; [reflexivity|]; split; [vm_compute; reflexivity|]; intros e; destruct n; cbn [negate_if holds]; reflexivity).
Qed.
Lemma base_reads show ps t v f : new_base ps t v = Some f -> exists k P, t = str k /\
  ((single show ps k v P /\ one_of t multi_value = false /\ forall e, holds show e f <-> P e)
   \/ exists n, listed ps k v n P /\ one_of t multi_value = true /\ forall e, holds show e f <-> if n then ~ P e else P e).
Proof.
  intros H.
  assert (S : forall k P, t = str k -> one_of (str k) multi_value = false -> single show ps k v P -> (forall e, holds show e f <-> P e) -> exists k P, t = str k /\
    ((single show ps k v P /\ one_of t multi_value = false /\ forall e, holds show e f <-> P e)
     \/ exists n, listed ps k v n P /\ one_of t multi_value = true /\ forall e, holds show e f <-> if n then ~ P e else P e)).
  { intros k P -> M K E. exists k, P. auto. }
  assert (L : forall k P n, t = str k -> one_of (str k) multi_value = true -> listed ps k v n P -> (forall e, holds show e f <-> if n then ~ P e else P e) -> exists k P, t = str k /\
    ((single show ps k v P /\ one_of t multi_value = false /\ forall e, holds show e f <-> P e)
     \/ exists n, listed ps k v n P /\ one_of t multi_value = true /\ forall e, holds show e f <-> if n then ~ P e else P e)).
  { intros k P n -> M K E. exists k, P. split; [reflexivity|]. right. exists n. auto. }
  unfold new_base in H. cbn zeta in H.
  Ltac key H := match type of H with (if one_of ?t ?l then _ else _) = _ =>
    let E := fresh in destruct (one_of t l) eqn:E; [apply one_of_in in E as (? & E & ->); pick E|clear E] end.
  Ltac val H := match type of H with option_map _ ?o = _ => let E := fresh in destruct o eqn:E; [injection H as <-|discriminate] end.
  Ltac lst H := match type of H with match ?o with Some _ => _ | None => _ end = _ => let E := fresh in destruct o as [[? n]|] eqn:E; [injection H as <-; apply list_iff in E as [? ?]|discriminate] end.
  Ltac fin := reflexivity || (intros; cbn [holds]; reflexivity).
  key H; [val H; eapply S; [fin|fin|eapply s_origin_asn; eassumption|fin]|].
  key H; [lst H; eapply L; [fin|fin|eapply l_origin_asns; eassumption|intros; destruct n; fin]|].
  key H; [val H; eapply S; [fin|fin|eapply s_prefix; eassumption|fin]|].
  key H; [val H; eapply S; [fin|fin|eapply s_prefix_super; eassumption|fin]|].
  key H; [val H; eapply S; [fin|fin|eapply s_prefix_sub; eassumption|fin]|].
  key H; [val H; eapply S; [fin|fin|eapply s_prefix_both; eassumption|fin]|].
  key H; [lst H; eapply L; [fin|fin|eapply l_prefixes; [left; reflexivity|eassumption|eassumption]|intros; destruct n; fin]|].
  key H; [lst H; eapply L; [fin|fin|eapply l_prefixes; [right; left; reflexivity|eassumption|eassumption]|intros; destruct n; fin]|].
  key H; [lst H; eapply L; [fin|fin|eapply l_prefixes; [right; right; left; reflexivity|eassumption|eassumption]|intros; destruct n; fin]|].
  key H; [lst H; eapply L; [fin|fin|eapply l_prefixes; [right; right; right; left; reflexivity|eassumption|eassumption]|intros; destruct n; fin]|].
  key H; [val H; eapply S; [fin|fin|eapply s_peer_ip; eassumption|fin]|].
  key H; [lst H; eapply L; [fin|fin|eapply l_peer_ips; eassumption|intros; destruct n; fin]|].
  key H; [val H; eapply S; [fin|fin|eapply s_peer_asn; eassumption|fin]|].
  key H; [lst H; eapply L; [fin|fin|eapply l_peer_asns; eassumption|intros; destruct n; fin]|].
  Ltac wrd H := match type of H with (if one_of ?t ?l then _ else _) = _ =>
    let E := fresh in let I := fresh in destruct (one_of t l) eqn:E; [apply one_of_in in E as (? & I & ->); injection H as <-|clear E] end.
  key H. { wrd H; [eapply S; [fin|fin|eapply s_withdraw; eassumption|fin]|]. wrd H; [eapply S; [fin|fin|eapply s_announce; eassumption|fin]|discriminate]. }
  key H; [val H; eapply S; [fin|fin|eapply s_start; [cbn [In]; auto|eassumption]|fin]|val H; eapply S; [fin|fin|eapply s_start; [cbn [In]; auto|eassumption]|fin]|].
  key H; [val H; eapply S; [fin|fin|eapply s_end; [cbn [In]; auto|eassumption]|fin]|val H; eapply S; [fin|fin|eapply s_end; [cbn [In]; auto|eassumption]|fin]|].
  key H; [val H; eapply S; [fin|fin|eapply s_path; eassumption|fin]|].
  key H; [val H; eapply S; [fin|fin|eapply s_comm; eassumption|fin]|].
  key H;
    [wrd H; [eapply S; [fin|fin|eapply s_v4; [cbn [In]; auto|eassumption]|fin]|]; wrd H; [eapply S; [fin|fin|eapply s_v6; [cbn [In]; auto|eassumption]|fin]|discriminate]
    |wrd H; [eapply S; [fin|fin|eapply s_v4; [cbn [In]; auto|eassumption]|fin]|]; wrd H; [eapply S; [fin|fin|eapply s_v6; [cbn [In]; auto|eassumption]|fin]|discriminate]|].
  key H; [val H; eapply S; [fin|fin|eapply s_otc; eassumption|fin]|].
  key H; [val H; eapply S; [fin|fin|eapply s_hop; eassumption|fin]|].
  key H.
  { destruct (one_of (lower v) ["igp"]%string) eqn:E; [apply one_of_in in E as (x & I & E); pick I; injection H as <-; eapply S; [fin|fin|eapply s_origin; [left; reflexivity|exact E]|fin]|]. clear E.
    destruct (one_of (lower v) ["egp"]%string) eqn:E; [apply one_of_in in E as (x & I & E); pick I; injection H as <-; eapply S; [fin|fin|eapply s_origin; [right; left; reflexivity|exact E]|fin]|]. clear E.
    destruct (one_of (lower v) ["incomplete"]%string) eqn:E; [apply one_of_in in E as (x & I & E); pick I; injection H as <-; eapply S; [fin|fin|eapply s_origin; [right; right; left; reflexivity|exact E]|fin]|discriminate]. }
  key H; [val H; eapply S; [fin|fin|eapply s_pref; eassumption|fin]|].
  key H; [val H; eapply S; [fin|fin|eapply s_med; eassumption|fin]|].
  key H. { wrd H; [eapply S; [fin|fin|eapply s_atomic; eassumption|fin]|]. wrd H; [eapply S; [fin|fin|eapply s_not_atomic; eassumption|fin]|discriminate]. }
  key H; [val H; eapply S; [fin|fin|eapply s_aggr_asn; eassumption|fin]|].
  key H; [val H; eapply S; [fin|fin|eapply s_aggr_ip; eassumption|fin]|].
  key H; [val H; eapply S; [fin|fin|eapply s_id; eassumption|fin]|].
  discriminate.
Qed.
Lemma starred_field show k P : starred k P -> exists f, present_field_for (str k) = Some f /\ one_of (str k) multi_value = false /\ one_of (str k) time_keys = false /\ forall e, holds show e (FPresent f) <-> P e.
Proof. intros H. destruct H; (eexists; split; [vm_compute; reflexivity|]; split; [vm_compute; reflexivity|]; split; [vm_compute; reflexivity|]; intros e; reflexivity). Qed.
Lemma field_starred show t f : present_field_for t = Some f -> exists k P, t = str k /\ starred k P /\ forall e, holds show e (FPresent f) <-> P e.
Proof.
  unfold present_field_for. intros H.
  repeat match type of H with (if bytes_eqb t ?x then _ else _) = _ => let E := fresh in destruct (bytes_eqb t x) eqn:E; [apply bytes_eqb_true in E; subst t; injection H as <-; eexists _, _; split; [reflexivity|]; split; [constructor|intros e; reflexivity]|clear E] end.
  discriminate.
Qed.
Lemma no_bang v : hd_error v <> Some 33 -> strip_bang v = (false, v) /\ (match v with 33 :: _ => true | _ => false end) = false.
Proof.
  intros H. split.
  - destruct v as [|c v]; [reflexivity|]. apply strip_valued; [discriminate|]. auto.
  - destruct v as [|c v]; [reflexivity|]. cbn [hd_error] in H. destruct c as [|q]; auto. do 6 (destruct q as [q|q|]; auto). congruence.
Qed.
Lemma str_inj x y : str x = str y -> x = y.
Proof.
  revert y. induction x as [|a x IH]; intros [|b y] H; try discriminate; [reflexivity|]. unfold str in H. cbn [list_ascii_of_string map] in H. injection H as E H.
  f_equal; [|apply IH; exact H]. rewrite <- (ascii_N_embedding a), <- (ascii_N_embedding b), E. reflexivity.
Qed.
Lemma unstarred k v : (v = str "*" -> forall Q, ~ starred k Q) -> (if bytes_eqb v [42] then present_field_for (str k) else None) = None.
Proof.
  intros N. destruct (bytes_eqb v [42]) eqn:V; [|reflexivity]. apply bytes_eqb_true in V. destruct (present_field_for (str k)) as [g|] eqn:G; [|reflexivity].
  destruct (field_starred (fun _ => []) _ _ G) as (k' & Q & E & S & _). apply str_inj in E. subst k'. exfalso. exact (N V Q S).
Qed.
Lemma untimed k : ~ In k time_keys -> one_of (str k) time_keys = false.
Proof. intros H. destruct (one_of (str k) time_keys) eqn:E; [|reflexivity]. apply one_of_in in E as (x & I & E). apply str_inj in E. subst x. contradiction. Qed.
Theorem asks_new show ps k v P : asks show ps k v P -> exists f, filter_new ps (str k) v = Some f /\ forall e, match_filter show (VElem e) f = true <-> P e.
Proof.
  intros H. destruct H as [k P S|k P S|k v P L|k v P L|k v P S B N|k v P S B N T].
  - destruct (starred_field show k P S) as (f & E & M & _ & K). unfold filter_new. rewrite M. change (strip_bang (str "*")) with (false, str "*"). cbn [andb]. change (bytes_eqb (str "*") [42]) with true. cbv iota. rewrite E.
    eexists. split; [reflexivity|]. intros e. rewrite elem_matches. apply K.
  - destruct (starred_field show k P S) as (f & E & M & T & K). unfold filter_new. rewrite M, T. change (strip_bang (str "!*")) with (true, str "*"). cbn [andb]. change (match str "*" with 33 :: _ => true | _ => false end) with false. change (bytes_eqb (str "*") [42]) with true. cbv iota. rewrite E.
    eexists. split; [reflexivity|]. intros e. rewrite elem_matches. cbn [negate_if holds]. rewrite (K e). reflexivity.
  - destruct (listed_base show ps k v false P L) as (f & E & M & K). unfold filter_new. rewrite M, E. eexists. split; [reflexivity|]. intros e. rewrite elem_matches. apply K.
  - destruct (listed_base show ps k v true P L) as (f & E & M & K). unfold filter_new. rewrite M, E. eexists. split; [reflexivity|]. intros e. rewrite elem_matches. apply K.
  - destruct (single_base show ps k v P S) as (f & E & M & K). destruct (no_bang v B) as [B1 B2]. unfold filter_new. rewrite M, B1. cbn [andb]. rewrite (unstarred k v N), E.
    eexists. split; [reflexivity|]. intros e. rewrite elem_matches. apply K.
  - destruct (single_base show ps k v P S) as (f & E & M & K). destruct (no_bang v B) as [B1 B2]. rewrite (new_negated ps _ v M (untimed k T) B). unfold filter_new. rewrite M, B1. cbn [andb]. rewrite (unstarred k v N), E.
    eexists. split; [reflexivity|]. intros e. rewrite elem_matches. cbn [negate_if holds]. rewrite (K e). reflexivity.
Qed.
Lemma star_cases k v f : (if bytes_eqb v [42] then present_field_for (str k) else None) = Some f -> v = str "*" /\ present_field_for (str k) = Some f.
Proof. destruct (bytes_eqb v [42]) eqn:V; [|discriminate]. apply bytes_eqb_true in V. auto. Qed.
Lemma star_none k v : (if bytes_eqb v [42] then present_field_for (str k) else None) = None -> v = str "*" -> forall Q, ~ starred k Q.
Proof. intros H -> Q S. destruct (starred_field (fun _ => []) k Q S) as (f & E & _). change (bytes_eqb (str "*") [42]) with true in H. cbv iota in H. congruence. Qed.
Theorem new_asks show ps t v f : filter_new ps t v = Some f -> exists k P, t = str k /\ asks show ps k v P /\ forall e, match_filter show (VElem e) f = true <-> P e.
Proof.
  intros H. unfold filter_new in H. destruct (one_of t multi_value) eqn:M.
  - destruct (base_reads show ps t v f H) as (k & P & -> & [(_ & M' & _)|(n & L & _ & K)]); [congruence|].
    exists k. destruct n; eexists; (split; [reflexivity|]); (split; [constructor; exact L|]); intros e; rewrite elem_matches; apply K.
  - destruct (strip_bang v) as [neg w] eqn:B.
    assert (V : (neg = false /\ w = v /\ hd_error v <> Some 33) \/ (neg = true /\ v = 33 :: w)).
    { unfold strip_bang in B. destruct v as [|c v]; [left; inversion B; subst; repeat split; discriminate|].
      destruct (N.eq_dec c 33) as [->|D]; [right; inversion B; auto|]. left. destruct (no_bang (c :: v)) as [B1 _]; [cbn; congruence|]. unfold strip_bang in B1. rewrite B1 in B. inversion B. subst. repeat split. cbn. congruence. }
    assert (W : hd_error w <> Some 33).
    { destruct V as [(-> & -> & V)|(-> & ->)]; [exact V|]. cbn [andb] in H. intros K. destruct w as [|c w]; [discriminate|]. cbn in K. injection K as ->. discriminate. }
    destruct (no_bang w W) as [_ W2]. rewrite W2, andb_false_r in H.
    assert (T : neg = true -> one_of t time_keys = false). { intros ->. cbn [andb] in H. destruct (one_of t time_keys); [discriminate|reflexivity]. }
    destruct (neg && one_of t time_keys); [discriminate|].
    assert (U : forall k, t = str k -> neg = true -> ~ In k time_keys). { intros k -> E I. specialize (T E). rewrite (one_of_str k time_keys I) in T. discriminate. }
    destruct (if bytes_eqb w [42] then present_field_for t else None) as [g|] eqn:G.
    + assert (X : w = str "*" /\ present_field_for t = Some g) by (destruct (bytes_eqb w [42]) eqn:Q; [apply bytes_eqb_true in Q; auto|discriminate]). destruct X as [-> X].
      injection H as <-. destruct (field_starred show t g X) as (k & P & -> & S & K). exists k.
      destruct V as [(-> & <- & _)|(-> & ->)].
      * exists P. split; [reflexivity|]. split; [apply a_star; exact S|]. intros e. rewrite elem_matches. apply K.
      * exists (fun e => ~ P e). split; [reflexivity|]. split; [apply (a_not_star show ps k P S)|]. intros e. rewrite elem_matches. cbn [negate_if holds]. rewrite (K e). reflexivity.
    + destruct (new_base ps t w) as [b|] eqn:E; [|discriminate]. injection H as <-.
      destruct (base_reads show ps t w b E) as (k & P & -> & [(S & _ & K)|(n & L & M' & _)]); [|congruence]. exists k.
      pose proof (star_none k w G) as N.
      destruct V as [(-> & -> & _)|(-> & ->)].
      * exists P. split; [reflexivity|]. split; [apply a_single; assumption|]. intros e. rewrite elem_matches. apply K.
      * exists (fun e => ~ P e). split; [reflexivity|]. split; [apply a_not_single; auto; apply (U k eq_refl eq_refl)|]. intros e. rewrite elem_matches. cbn [negate_if holds]. rewrite (K e). reflexivity.
Qed.
