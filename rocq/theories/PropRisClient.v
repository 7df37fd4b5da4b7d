(** * C94: messages sent to RIS Live *)
From Coq Require Import List NArith String Lia.
From Verif Require Import Base Net Text RenderTellFacts RisClient RisClientSpec RisClientFacts.
Import ListNotations.
Local Open Scope string_scope.
Local Open Scope list_scope.
Local Open Scope N_scope.

(** Every message is one JSON object with the two members [data] and [type], on one line
    and without control characters. *)
Theorem C94_json : forall D m,
  read_json (to_json_string D m) = Some (TObject [(str "data", data_tree D m); (str "type", TText (msg_type m))]) /\
  Forall (fun c => 32 <= c) (to_json_string D m).
Proof. intros D m. exact (conj (whole_read D m) (written_printing _)). Qed.
Print Assumptions C94_json.

(** What the subscription that a sequence of calls builds asks for: each member of [data]
    is what the last call of its method gave, and is absent when there was none.  The
    message that ends a subscription has the same [data]. *)
Definition asks (D : displays) (cs : list call) (d : tree) : Prop :=
  at_key "host" d = option_map TText (latest host_of cs) /\
  at_key "type" d = option_map word (latest type_of cs) /\
  at_key "require" d = option_map TText (latest require_of cs) /\
  at_key "peer" d = option_map (fun i => TText (d_ip D i)) (latest peer_of cs) /\
  at_key "path" d = option_map TText (latest path_of cs) /\
  at_key "prefix" d = option_map (fun n => TText (d_net D n)) (latest prefix_of cs) /\
  at_key "moreSpecific" d = option_map TBool (latest more_of cs) /\
  at_key "lessSpecific" d = option_map TBool (latest less_of cs) /\
  match at_key "socketOptions" d with
  | None => latest raw_of cs = None /\ latest acknowledge_of cs = None
  | Some o =>
      (latest raw_of cs <> None \/ latest acknowledge_of cs <> None) /\
      at_key "includeRaw" o = option_map TBool (latest raw_of cs) /\
      at_key "acknowledge" o = option_map TBool (latest acknowledge_of cs) /\
      only_keys ["includeRaw"; "acknowledge"] o
  end /\
  only_keys ["host"; "type"; "require"; "peer"; "path"; "prefix"; "moreSpecific"; "lessSpecific"; "socketOptions"] d.
Theorem C94_calls : forall D cs, exists d, asks D cs d /\
  read_json (to_json_string D (RisSubscribe (built cs))) =
    Some (TObject [(str "data", d); (str "type", TText (str "ris_subscribe"))]) /\
  read_json (to_json_string D (RisUnsubscribe (built cs))) =
    Some (TObject [(str "data", d); (str "type", TText (str "ris_unsubscribe"))]).
Proof.
  intros D cs. exists (subscribe_tree D (built cs)). split; [| exact (conj (whole_read D _) (whole_read D _))].
  destruct (data_fields D (built cs)) as (A1 & A2 & A3 & A4 & A5 & A6 & A7 & A8 & A9). cbv zeta in *. unfold asks.
  rewrite A1, A2, A3, A4, A5, A6, A7, A8, A9. unfold built.
  rewrite call_host, call_type, call_require, call_peer, call_path, call_prefix, call_more, call_less.
  cbn [subscribe_new su_host su_type su_require su_peer su_path su_prefix su_more su_less]. rewrite !none_latest.
  refine (conj eq_refl (conj eq_refl (conj eq_refl (conj eq_refl (conj eq_refl (conj eq_refl (conj eq_refl (conj eq_refl (conj _ _))))))))).
  - pose proof (call_options cs subscribe_new) as N. pose proof (call_raw cs subscribe_new) as R.
    pose proof (call_acknowledge cs subscribe_new) as K. unfold options_raw, options_acknowledge in R, K.
    destruct (su_options (fold_left perform cs subscribe_new)) as [o |]; cbn [option_map].
    + cbn [subscribe_new su_options] in R, K. rewrite none_latest in R, K. rewrite <- R, <- K.
      destruct (options_fields o) as [B1 B2]. cbv zeta in B1, B2. rewrite B1, B2.
      refine (conj _ (conj eq_refl (conj eq_refl (options_only o)))). rewrite R, K.
      destruct (latest raw_of cs), (latest acknowledge_of cs); try (left; discriminate); try (right; discriminate).
      exfalso. assert (X : Some o = None) by (apply N; auto). discriminate X.
    + destruct N as [N _]. destruct (N eq_refl) as (_ & N1 & N2). auto.
  - exact (data_only D _).
Qed.
Print Assumptions C94_calls.

(** The same for a subscription whose fields were filled in directly. *)
Theorem C94_fields : forall D s, exists d,
  read_json (to_json_string D (RisSubscribe s)) = Some (TObject [(str "data", d); (str "type", TText (str "ris_subscribe"))]) /\
  read_json (to_json_string D (RisUnsubscribe s)) = Some (TObject [(str "data", d); (str "type", TText (str "ris_unsubscribe"))]) /\
  at_key "host" d = option_map TText (su_host s) /\
  at_key "type" d = option_map word (su_type s) /\
  at_key "require" d = option_map TText (su_require s) /\
  at_key "peer" d = option_map (fun i => TText (d_ip D i)) (su_peer s) /\
  at_key "path" d = option_map TText (su_path s) /\
  at_key "prefix" d = option_map (fun n => TText (d_net D n)) (su_prefix s) /\
  at_key "moreSpecific" d = option_map TBool (su_more s) /\
  at_key "lessSpecific" d = option_map TBool (su_less s) /\
  match su_options s, at_key "socketOptions" d with
  | None, None => True
  | Some o, Some t => at_key "includeRaw" t = option_map TBool (so_raw o) /\
                      at_key "acknowledge" t = option_map TBool (so_acknowledge o)
  | _, _ => False
  end /\
  only_keys ["host"; "type"; "require"; "peer"; "path"; "prefix"; "moreSpecific"; "lessSpecific"; "socketOptions"] d.
Proof.
  intros D s. exists (subscribe_tree D s).
  destruct (data_fields D s) as (A1 & A2 & A3 & A4 & A5 & A6 & A7 & A8 & A9). cbv zeta in *.
  refine (conj (whole_read D _) (conj (whole_read D _) (conj A1 (conj A2 (conj A3 (conj A4 (conj A5 (conj A6 (conj A7 (conj A8 (conj _ (data_only D s)))))))))))).
  rewrite A9. destruct (su_options s) as [o |]; cbn [option_map]; [apply options_fields | exact I].
Qed.
Print Assumptions C94_fields.

(** The order of calls of different methods does not matter, nor do calls that a later one
    of the same method overrides. *)
Theorem C94_order : forall cs cs',
  latest host_of cs = latest host_of cs' -> latest type_of cs = latest type_of cs' ->
  latest require_of cs = latest require_of cs' -> latest peer_of cs = latest peer_of cs' ->
  latest path_of cs = latest path_of cs' -> latest prefix_of cs = latest prefix_of cs' ->
  latest more_of cs = latest more_of cs' -> latest less_of cs = latest less_of cs' ->
  latest raw_of cs = latest raw_of cs' -> latest acknowledge_of cs = latest acknowledge_of cs' ->
  built cs = built cs'.
Proof.
  intros cs cs' H1 H2 H3 H4 H5 H6 H7 H8 H9 H10.
  pose proof (call_host cs subscribe_new) as A1. pose proof (call_host cs' subscribe_new) as B1. rewrite H1, <- B1 in A1.
  pose proof (call_type cs subscribe_new) as A2. pose proof (call_type cs' subscribe_new) as B2. rewrite H2, <- B2 in A2.
  pose proof (call_require cs subscribe_new) as A3. pose proof (call_require cs' subscribe_new) as B3. rewrite H3, <- B3 in A3.
  pose proof (call_peer cs subscribe_new) as A4. pose proof (call_peer cs' subscribe_new) as B4. rewrite H4, <- B4 in A4.
  pose proof (call_path cs subscribe_new) as A5. pose proof (call_path cs' subscribe_new) as B5. rewrite H5, <- B5 in A5.
  pose proof (call_prefix cs subscribe_new) as A6. pose proof (call_prefix cs' subscribe_new) as B6. rewrite H6, <- B6 in A6.
  pose proof (call_more cs subscribe_new) as A7. pose proof (call_more cs' subscribe_new) as B7. rewrite H7, <- B7 in A7.
  pose proof (call_less cs subscribe_new) as A8. pose proof (call_less cs' subscribe_new) as B8. rewrite H8, <- B8 in A8.
  pose proof (call_raw cs subscribe_new) as A9. pose proof (call_raw cs' subscribe_new) as B9. rewrite H9, <- B9 in A9.
  pose proof (call_acknowledge cs subscribe_new) as A10. pose proof (call_acknowledge cs' subscribe_new) as B10. rewrite H10, <- B10 in A10.
  pose proof (call_options cs subscribe_new) as A11. pose proof (call_options cs' subscribe_new) as B11. rewrite H9, H10, <- B11 in A11.
  clear B1 B2 B3 B4 B5 B6 B7 B8 B9 B10 B11. unfold options_raw, options_acknowledge in A9, A10. unfold built.
  destruct (fold_left perform cs subscribe_new) as [a1 a2 a3 a4 a5 a6 a7 a8 a9], (fold_left perform cs' subscribe_new) as [b1 b2 b3 b4 b5 b6 b7 b8 b9].
  cbn in A1, A2, A3, A4, A5, A6, A7, A8, A9, A10, A11. subst. f_equal.
  destruct a9 as [[x y] |], b9 as [[x' y'] |]; cbn in A9, A10.
  - congruence.
  - destruct A11 as [_ A11]. exact (A11 eq_refl).
  - destruct A11 as [A11 _]. symmetry. exact (A11 eq_refl).
  - reflexivity.
Qed.
Print Assumptions C94_order.

(** The other two messages. *)
Theorem C94_others : forall D,
  to_json_string D Ping = str "{""data"":null,""type"":""ping""}" /\
  forall l, read_json (to_json_string D (RequestRrcList l)) =
    Some (TObject [(str "data", TList (map TText l)); (str "type", TText (str "request_rrc_list"))]).
Proof. intros D. split; [reflexivity |]. intros l. exact (whole_read D _). Qed.
Print Assumptions C94_others.

(** Different messages have different texts. *)
Theorem C94_tells : forall D, displays_tell D -> forall a b, to_json_string D a = to_json_string D b -> a = b.
Proof. exact message_inj. Qed.
Print Assumptions C94_tells.

(** The repository's own expectation (ris_subscribe.rs:213-219), octet by octet; a path
    pattern with characters that need escapes; and displays that tell. *)
Definition ex_displays : displays := Displays (fun i => match i with V4 n => 52 :: repeat 97 (N.to_nat n) | V6 n => 54 :: repeat 97 (N.to_nat n) end)
  (fun n => match n with Net (V4 a) l => 52 :: repeat 97 (N.to_nat a) ++ 47 :: repeat 97 (N.to_nat l) | Net (V6 a) l => 54 :: repeat 97 (N.to_nat a) ++ 47 :: repeat 97 (N.to_nat l) end).
Example C94_ex :
  to_json_string ex_displays (RisSubscribe (built [CHost (str "rrc00"); CRaw true])) =
    str "{""data"":{""host"":""rrc00"",""socketOptions"":{""includeRaw"":true}},""type"":""ris_subscribe""}" /\
  to_json_string ex_displays (RisUnsubscribe (built [CAcknowledge true; CType OPEN; CRaw false; CType UPDATE; CPath [34; 10; 92; 1]])) =
    str "{""data"":{""path"":""\""\n\\\u0001"",""socketOptions"":{""acknowledge"":true,""includeRaw"":false},""type"":""UPDATE""},""type"":""ris_unsubscribe""}" /\
  to_json_string ex_displays (RequestRrcList [str "rrc00"; str "rrc01"]) =
    str "{""data"":[""rrc00"",""rrc01""],""type"":""request_rrc_list""}".
Proof. vm_compute. repeat split. Qed.
Example C94_ex_displays : displays_tell ex_displays.
Proof.
  assert (R : forall a b : N, repeat 97 (N.to_nat a) = repeat 97 (N.to_nat b) -> a = b).
  { intros a b E. apply (f_equal (@List.length N)) in E. rewrite !repeat_length in E. lia. }
  assert (W : forall a b a' b' : N, repeat 97 (N.to_nat a) ++ 47 :: repeat 97 (N.to_nat b) = repeat 97 (N.to_nat a') ++ 47 :: repeat 97 (N.to_nat b') -> a = a' /\ b = b').
  { intros a b a' b' E. apply break in E as [E1 E2].
    - split; apply R; assumption.
    - intros I. apply repeat_spec in I. discriminate.
    - intros I. apply repeat_spec in I. discriminate. }
  split.
  - intros [a | a] [b | b] E; cbn [ex_displays d_ip] in E; injection E as E; try discriminate; apply R in E; congruence.
  - intros [[a | a] l] [[b | b] m] E; cbn [ex_displays d_net] in E; try discriminate; injection E as E; apply W in E as [-> ->]; reflexivity.
Qed.
