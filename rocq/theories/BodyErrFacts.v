(** Proofs about the errors of record bodies. *)
From Coq Require Import Lia.
From Verif Require Import Base BaseFacts Reader Net AsPath Mpls Tlv Attr AttrFacts Cap BgpMsg Bgp4mp TableDump TableDumpFacts Stream Framing MrtRecord MrtRecordFacts Iter IterSpec IterFacts BodyErrSpec.

(** Outcomes and parsers that fail in those ways only. *)
Definition rk {A} (r : res A) : Prop := match r with Err e => body_kind e = true | _ => True end.
Definition pk {A} (p : P A) : Prop := forall s, rk (p s).

Lemma rk_bind {A B} (r : res A) (k : A -> res B) : rk r -> (forall a, rk (k a)) -> rk (rbind r k).
Proof. intros H K. destruct r as [a|e|]; cbn; auto. Qed.
Lemma pk_bind {A B} (p : P A) (k : A -> P B) : pk p -> (forall a, pk (k a)) -> pk (bind p k).
Proof. intros H K s. unfold bind. specialize (H s). destruct (p s) as [[a s']|e|]; cbn in *; auto. apply K. Qed.
Lemma pk_ret {A} (a : A) : pk (ret a). Proof. intros s. exact I. Qed.
Lemma pk_fail {A} e : body_kind e = true -> pk (fail (A := A) e). Proof. intros H s. exact H. Qed.
Lemma pk_lift {A} (r : res A) : rk r -> pk (lift r). Proof. intros H s. unfold lift. apply rk_bind; [exact H|]. intros a. exact I. Qed.
Lemma pk_remaining : pk remaining. Proof. intros s. exact I. Qed.
Lemma pk_peek : pk peek. Proof. intros s. exact I. Qed.
Lemma rk_run {A} (p : P A) s : pk p -> rk (run p s).
Proof. intros H. unfold run. specialize (H s). destruct (p s) as [[a s']|e|]; cbn in *; auto. Qed.
Lemma pk_split k : pk (split_to k). Proof. intros s. unfold split_to. destruct (splitn k s) as [[l r]|]; exact I. Qed.
Lemma pk_get k : pk (get_be k). Proof. unfold get_be. apply pk_bind; [apply pk_split|]. intros l. apply pk_ret. Qed.
Lemma pk_has n : pk (has_n n). Proof. intros s. unfold has_n. destruct (nlen s <? n); [reflexivity|exact I]. Qed.
Lemma pk_be k : pk (read_be k). Proof. unfold read_be. apply pk_bind; [apply pk_has|]. intros _. apply pk_get. Qed.
Lemma pk_n n : pk (read_n_bytes n). Proof. unfold read_n_bytes. apply pk_bind; [apply pk_has|]. intros _. apply pk_split. Qed.
Lemma pk_repeat {A} n (p : P A) : pk p -> pk (repeat_p n p).
Proof. intros H. induction n as [|n IH]; cbn [repeat_p]; [apply pk_ret|]. apply pk_bind; [exact H|]. intros a. apply pk_bind; [exact IH|]. intros l. apply pk_ret. Qed.
Lemma rk_pbind {A B} (p : P A) (k : A * bytes -> res B) s : pk p -> (forall a, rk (k a)) -> rk (rbind (p s) k).
Proof. intros H K. apply rk_bind; [apply H|exact K]. Qed.
Lemma rk_many {A} fuel (p : P A) s : pk p -> rk (many_p fuel p s).
Proof.
  intros H. revert s. induction fuel as [|f IH]; intros [|b s]; cbn [many_p]; try exact I.
  apply rk_pbind; [exact H|]. intros [a s']. apply rk_bind; [apply IH|]. intros l. exact I.
Qed.
Lemma rk_many_min {A} m fuel (p : P A) s : pk p -> rk (many_min m fuel p s).
Proof.
  intros H. revert s. induction fuel as [|f IH]; intros s; cbn [many_min]; destruct (length s <? m)%nat; try exact I.
  apply rk_pbind; [exact H|]. intros [a s']. apply rk_bind; [apply IH|]. intros l. exact I.
Qed.
Lemma rk_opt {A} (o : option A) : rk (of_opt o). Proof. destruct o; [exact I|reflexivity]. Qed.
Lemma pk_run_eta {A} (p : P A) : pk p -> forall s, rk (p s). Proof. auto. Qed.

Create HintDb rk discriminated.
#[export] Hint Resolve pk_ret pk_remaining pk_peek pk_split pk_get pk_has pk_be pk_n rk_opt : rk.
Ltac rk_step :=
  match goal with
  | |- rk (Ok _) => exact I
  | |- rk Panic => exact I
  | |- rk (Err _) => reflexivity
  | |- pk (fail _) => apply pk_fail; reflexivity
  | |- pk (bind _ _) => apply pk_bind; [|intros ?]
  | |- pk (lift _) => apply pk_lift
  | |- pk (repeat_p _ _) => apply pk_repeat
  | |- rk (rbind _ _) => apply rk_bind; [|intros ?]
  | |- rk (run _ _) => apply rk_run
  | |- rk (many_p _ _ _) => apply rk_many
  | |- rk (many_min _ _ _ _) => apply rk_many_min
  | |- rk (match ?x with _ => _ end) => destruct x
  | |- pk (match ?x with _ => _ end) => destruct x
  | |- rk (let '_ := ?x in _) => destruct x
  | |- rk _ => solve [auto with rk | apply pk_run_eta; auto with rk]
  | |- pk _ => solve [auto with rk]
  end.
Ltac rks := repeat rk_step.

Lemma pk_asn al : pk (read_asn al). Proof. destruct al; apply pk_be. Qed.
Lemma pk_afi : pk read_afi. Proof. unfold read_afi. rks. Qed.
Lemma pk_v4 : pk read_ipv4. Proof. apply pk_be. Qed.
Lemma pk_v6 : pk read_ipv6. Proof. apply pk_be. Qed.
#[export] Hint Resolve pk_asn pk_afi pk_v4 pk_v6 : rk.
Lemma pk_address a : pk (read_address a).
Proof. intros s. unfold read_address. destruct a; [destruct (read_ipv4 s) as [[n r]|e|]|destruct (read_ipv6 s) as [[n r]|e|]|]; first [exact I | reflexivity]. Qed.
Lemma pk_v4p : pk read_ipv4_prefix. Proof. unfold read_ipv4_prefix. rks. Qed.
Lemma pk_v6p : pk read_ipv6_prefix. Proof. unfold read_ipv6_prefix. rks. Qed.
Lemma pk_nlri_prefix a ap : pk (read_nlri_prefix a ap). Proof. unfold read_nlri_prefix. cbv zeta. rks. Qed.
#[export] Hint Resolve pk_address pk_v4p pk_v6p pk_nlri_prefix : rk.

(** Attributes: whatever is wrong in one becomes a warning. *)
Lemma rk_attr_raw k c f v : rk (attr_of_raw k c f v).
Proof. unfold attr_of_raw. repeat (match goal with |- rk (if ?b then _ else _) => destruct b end; try exact I). destruct (parse_attr_value k c v); [destruct (_ =? c)| |]; exact I. Qed.
Lemma pk_attr_header : pk read_attr_header. Proof. unfold read_attr_header. rks. Qed.
#[export] Hint Resolve rk_attr_raw pk_attr_header : rk.
Lemma rk_attrs_loop fuel k mask s : rk (attrs_loop fuel k mask s).
Proof.
  revert mask s. induction fuel as [|f IH]; intros mask s; cbn [attrs_loop]; destruct (Nat.leb 3 (length s)); try exact I.
  rks.
Qed.
Lemma rk_attributes k s : rk (parse_attributes k s).
Proof. unfold parse_attributes. apply rk_bind; [apply rk_attrs_loop|]. intros [r m]. exact I. Qed.
#[export] Hint Resolve rk_attributes : rk.

(** Messages. *)
Lemma rk_cap_value c b : rk (parse_cap_value c b).
Proof.
  unfold parse_cap_value. repeat match goal with |- rk (match ?x with _ => _ end) => destruct x; try exact I end.
  all: unfold or_raw; match goal with |- rk (match ?x with _ => _ end) => destruct x; exact I end.
Qed.
#[export] Hint Resolve rk_cap_value : rk.
Lemma pk_cap : pk read_cap. Proof. unfold read_cap. rks. Qed.
#[export] Hint Resolve pk_cap : rk.
Lemma pk_param_body ext t : pk (read_param_body ext t). Proof. unfold read_param_body. rks. Qed.
#[export] Hint Resolve pk_param_body : rk.
Lemma pk_param ext : pk (read_param ext). Proof. unfold read_param. rks. Qed.
#[export] Hint Resolve pk_param : rk.
Lemma rk_params opl s : rk (open_params opl s). Proof. unfold open_params. rks. Qed.
#[export] Hint Resolve rk_params : rk.
Lemma rk_open s : rk (parse_open s).
Proof. unfold parse_open. apply rk_pbind; [rks|]. rks. intros [h r]. rks. Qed.
Lemma rk_section an ap s : rk (nlri_section an ap s).
Proof. unfold nlri_section. destruct (read_nlri s ap); exact I. Qed.
#[export] Hint Resolve rk_open rk_section : rk.
Lemma rk_update ap al s : rk (parse_update ap al s).
Proof. unfold parse_update. cbv zeta. rks. Qed.
Lemma rk_notif s : rk (parse_notif s). Proof. unfold parse_notif. rks. Qed.
Lemma rk_refresh s : rk (parse_refresh s). Proof. unfold parse_refresh. rks. Qed.
#[export] Hint Resolve rk_update rk_notif rk_refresh : rk.
Lemma rk_body ap al t d : rk (parse_body ap al t d). Proof. unfold parse_body. rks. Qed.
#[export] Hint Resolve rk_body : rk.
Lemma pk_message ap al : pk (parse_bgp_message ap al).
Proof. intros s. unfold parse_bgp_message. cbv zeta. apply (pk_run_eta (_ : P bgp_msg)). rks. Qed.
#[export] Hint Resolve pk_message : rk.

(** Records. *)
Lemma pk_state : pk read_state. Proof. unfold read_state. rks. Qed.
Lemma rk_valid a : rk (validate_mp_afi a). Proof. destruct a; first [exact I | reflexivity]. Qed.
#[export] Hint Resolve pk_state rk_valid : rk.
Lemma rk_payload a al n : rk (mp_payload_len a al n). Proof. unfold mp_payload_len. rks. Qed.
#[export] Hint Resolve rk_payload : rk.
Lemma rk_mp_message ap al t s : rk (parse_mp_message ap al t s). Proof. unfold parse_mp_message. rks. Qed.
Lemma rk_mp_state al t s : rk (parse_mp_state_change al t s). Proof. unfold parse_mp_state_change. apply rk_run. do 2 (apply pk_bind; [auto with rk|intros ?]). rks. Qed.
#[export] Hint Resolve rk_mp_message rk_mp_state : rk.
Lemma rk_bgp4mp sub s : rk (parse_bgp4mp sub s). Proof. unfold parse_bgp4mp. rks. Qed.
Lemma rk_legacy_payload sub s : rk (parse_legacy_payload sub s). Proof. unfold parse_legacy_payload. rks. Qed.
#[export] Hint Resolve rk_bgp4mp rk_legacy_payload : rk.
Lemma rk_legacy sub s : rk (parse_legacy sub s). Proof. unfold parse_legacy. rks. Qed.
Lemma pk_peer : pk read_peer. Proof. unfold read_peer. rks. Qed.
Lemma pk_geo_peer : pk read_geo_peer. Proof. unfold read_geo_peer. rks. Qed.
#[export] Hint Resolve rk_legacy pk_peer pk_geo_peer : rk.
Lemma pk_table : pk parse_peer_table. Proof. unfold parse_peer_table. rks. Qed.
Lemma pk_geo : pk parse_geo_table. Proof. unfold parse_geo_table. rks. Qed.
#[export] Hint Resolve pk_table pk_geo : rk.
Lemma rk_upto {A} n (p : P A) s : rk (upto_p n p s).
Proof. revert s. induction n as [|n IH]; intros s; cbn [upto_p]; [exact I|]. destruct (p s) as [[a s']|e|]; try exact I. apply rk_bind; [apply IH|]. intros l. exact I. Qed.
#[export] Hint Resolve rk_upto : rk.
Lemma rk_rib t s : rk (parse_rib t s). Proof. unfold parse_rib. destruct (rib_family t) as [[a sf]|]; rks. Qed.
#[export] Hint Resolve rk_rib : rk.
Lemma rk_v2 sub s : rk (parse_dump_v2 sub s). Proof. unfold parse_dump_v2. rks. Qed.
Lemma pk_dump_entry a v q : pk (read_dump_entry a v q). Proof. unfold read_dump_entry. rks. Qed.
#[export] Hint Resolve rk_v2 pk_dump_entry : rk.
Lemma rk_dumps sub s : rk (parse_dumps sub s). Proof. unfold parse_dumps. rks. Qed.
#[export] Hint Resolve rk_dumps : rk.
Lemma rk_mrt ty sub s : rk (parse_mrt_body ty sub s). Proof. unfold parse_mrt_body. destruct (negb _); [reflexivity|]. rks. Qed.
Lemma rk_raw r : rk (parse_raw r).
Proof. unfold parse_raw. apply rk_bind; [apply rk_mrt|]. intros m. exact I. Qed.
Lemma raw_kind r e : parse_raw r = Err e -> body_kind e = true.
Proof. intros H. pose proof (rk_raw r) as K. rewrite H in K. exact K. Qed.
Lemma reads_chunks s items : chunks s items -> exists outs, reads s outs /\ Forall2 outcome items outs.
Proof.
  induction 1 as [s h c s' E|s r s' l E H IH|s e h c s' l E D H IH].
  - exists []. split; [|constructor]. eapply reads_end. unfold parse_mrt_record_s. rewrite E. reflexivity.
  - destruct IH as (outs & R & F). pose proof (record_size s) as Z. unfold parse_mrt_record_s in Z. rewrite E in Z. destruct (parse_raw r) as [x|e|] eqn:X; [| |elim Z].
    + exists (inl x :: outs). split; [|constructor; [constructor; exact X|exact F]]. eapply reads_rec; [|exact R]. unfold parse_mrt_record_s. rewrite E, X. reflexivity.
    + pose proof (raw_kind _ _ X) as K. exists (inr (e, Some (raw_bytes r)) :: outs). split; [|constructor; [constructor; auto|exact F]].
      eapply reads_err; [unfold parse_mrt_record_s; rewrite E, X; reflexivity| |exact R]. intros ->. discriminate.
  - destruct IH as (outs & R & F). exists (inr (e, c) :: outs). split; [|constructor; [constructor|exact F]].
    eapply reads_err; [unfold parse_mrt_record_s; rewrite E; reflexivity|exact D|exact R].
Qed.
Lemma usable_outcomes items outs : Forall2 outcome items outs -> Forall (fun w => parse_raw w <> Err EIo) (usable false items) ->
  usable false outs = readable_records (usable false items).
Proof.
  induction 1 as [|i o items outs H F IH]; intros A; [reflexivity|]. inversion H as [w r X|w e X K|e c]; subst; cbn [usable] in *.
  - cbn [readable_records]. rewrite X. f_equal. apply IH. exact (Forall_inv_tail A).
  - cbn [readable_records]. rewrite X. pose proof (Forall_inv A) as B. cbn beta in B. rewrite <- (IH (Forall_inv_tail A)).
    destruct e; try discriminate K; try reflexivity. congruence.
  - destruct (stops false e); [reflexivity|]. apply IH. exact A.
Qed.
