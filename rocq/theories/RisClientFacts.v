(** Proofs about the messages sent to RIS Live. *)
From Coq Require Import List NArith String Lia Bool Sorted.
From Verif Require Import Base BaseFacts Net Text Render RenderReadFacts RisClient RisClientSpec.
Import ListNotations.
Local Open Scope list_scope.
Local Open Scope N_scope.

(** ** Strings *)
Lemma chars_plain : forall c s, c <> 34 -> c <> 92 ->
  read_chars (c :: s) = if c <? 32 then None else consed [c] (read_chars s).
Proof.
  intros c s A B. destruct c as [| p]; [reflexivity |].
  do 7 (try match goal with q : positive |- _ => destruct q as [q | q |] end; try reflexivity); congruence.
Qed.

Lemma controls : forall c, c < 32 -> code 48 48 (low_digit (c / 16)) (low_digit (c mod 16)) = Some [c].
Proof.
  intros c H.
  assert (F : forallb (fun i => match code 48 48 (low_digit (N.of_nat i / 16)) (low_digit (N.of_nat i mod 16)) with
    | Some [d] => d =? N.of_nat i | _ => false end) (seq 0 32) = true) by (vm_compute; reflexivity).
  rewrite forallb_forall in F. specialize (F (N.to_nat c)). rewrite Nnat.N2Nat.id in F.
  assert (I : In (N.to_nat c) (seq 0 32)) by (apply in_seq; lia). specialize (F I).
  destruct (code _ _ _ _) as [[| d [|]] |]; try discriminate F. apply N.eqb_eq in F. rewrite F. reflexivity.
Qed.

Lemma chars_escape : forall c s, read_chars (escape c ++ s) = consed [c] (read_chars s).
Proof.
  intros c s. unfold escape.
  repeat match goal with |- context [c =? ?k] => destruct (N.eqb_spec c k) as [-> | ?]; [reflexivity |] end.
  destruct (N.ltb_spec c 32) as [L | L].
  - change ((str "\u00" ++ low_octet c) ++ s) with (92 :: 117 :: 48 :: 48 :: low_digit (c / 16) :: low_digit (c mod 16) :: s).
    change (read_chars (92 :: 117 :: 48 :: 48 :: low_digit (c / 16) :: low_digit (c mod 16) :: s)) with
      (match code 48 48 (low_digit (c / 16)) (low_digit (c mod 16)) with Some h => consed h (read_chars s) | None => None end).
    rewrite controls by exact L. reflexivity.
  - cbn [app]. rewrite chars_plain by assumption. destruct (N.ltb_spec c 32); [lia | reflexivity].
Qed.

Lemma chars_read : forall s r, read_chars (flat_map escape s ++ 34 :: r) = Some (s, r).
Proof.
  induction s as [| c s IH]; intros r; [reflexivity |]. cbn [flat_map]. rewrite <- app_assoc, chars_escape, IH. reflexivity.
Qed.

(** ** Values *)
Lemma tree_cases : forall P : tree -> Prop, P TNull -> (forall b, P (TBool b)) -> (forall s, P (TText s)) ->
  (forall l, Forall P l -> P (TList l)) -> (forall l, Forall (fun p => P (snd p)) l -> P (TObject l)) -> forall t, P t.
Proof.
  intros P H1 H2 H3 H4 H5. fix IH 1. intros [| b | s | l | l]; [apply H1 | apply H2 | apply H3 | apply H4 | apply H5].
  - induction l as [| x l L]; constructor; [apply IH | exact L].
  - induction l as [| [k x] l L]; constructor; [apply IH | exact L].
Qed.

Fixpoint size (t : tree) : nat :=
  match t with
  | TNull | TBool _ | TText _ => 1
  | TList l => S (list_sum (map (fun x => S (size x)) l))
  | TObject l => S (list_sum (map (fun p => S (size (snd p))) l))
  end%nat.

Definition reads_back (t : tree) : Prop := forall n r, (size t <= n)%nat -> read_value n (written t ++ r) = Some (t, r).

Lemma written_head : forall t, exists c w, written t = c :: w /\ c <> 93 /\ c <> 125.
Proof.
  intros [| [|] | s | l | l]; cbn [written];
    (eexists; eexists; split; [reflexivity | split; discriminate]).
Qed.

Lemma value_items : forall n c r, c <> 93 -> read_value (S n) (91 :: c :: r) =
  match read_items n (c :: r) with Some (l, r') => Some (TList l, r') | None => None end.
Proof.
  intros n c r H. destruct c as [| p]; [reflexivity |].
  do 8 (try match goal with q : positive |- _ => destruct q as [q | q |] end; try reflexivity); congruence.
Qed.

Lemma items_read : forall l, Forall reads_back l -> l <> [] -> forall n r,
  (list_sum (map (fun x => S (size x)) l) <= n)%nat ->
  read_items n (join [44] (map written l) ++ 93 :: r) = Some (l, r).
Proof.
  intros l F. induction F as [| x l Hx F IH]; intros Ne n r L; [congruence |].
  cbn [map] in L. change (list_sum (S (size x) :: ?m)) with (S (size x + list_sum m))%nat in L.
  destruct n as [| n]; [lia |]. cbn [read_items]. destruct l as [| y l].
  - cbn [map join]. rewrite Hx by lia. reflexivity.
  - change (join [44] (map written (x :: y :: l))) with (written x ++ [44] ++ join [44] (map written (y :: l))).
    rewrite <- !app_assoc, Hx by lia. cbn [app]. rewrite IH; [reflexivity | discriminate | lia].
Qed.

Lemma members_read : forall l, Forall (fun p => reads_back (snd p)) l -> l <> [] -> forall n r,
  (list_sum (map (fun p => S (size (snd p))) l) <= n)%nat ->
  read_members n (join [44] (map (fun p => quoted (fst p) ++ [58] ++ written (snd p)) l) ++ 125 :: r) = Some (l, r).
Proof.
  intros l F. induction F as [| [k x] l Hx F IH]; intros Ne n r L; [congruence |]. cbn [snd] in Hx.
  cbn [map snd] in L. change (list_sum (S (size x) :: ?m)) with (S (size x + list_sum m))%nat in L.
  destruct n as [| n]; [lia |]. set (g := fun p : bytes * tree => quoted (fst p) ++ [58] ++ written (snd p)) in *.
  assert (E : forall s, join [44] (map g ((k, x) :: l)) ++ s =
    34 :: flat_map escape k ++ 34 :: 58 :: written x ++ match l with [] => s | _ => 44 :: join [44] (map g l) ++ s end).
  { intros s. destruct l as [| y l].
    - cbn [map join]. unfold g, quoted. cbn [fst snd app]. do 3 (rewrite <- ?app_assoc; cbn [app]). reflexivity.
    - change (join [44] (map g ((k, x) :: y :: l))) with (g (k, x) ++ [44] ++ join [44] (map g (y :: l))).
      unfold g at 1, quoted. cbn [fst snd app]. do 3 (rewrite <- ?app_assoc; cbn [app]). reflexivity. }
  rewrite E. cbn [read_members]. rewrite chars_read, Hx by lia. destruct l as [| y l]; [reflexivity |].
  rewrite IH; [reflexivity | discriminate | lia].
Qed.

Lemma value_read : forall t, reads_back t.
Proof.
  apply tree_cases.
  - intros [| n] r L; [cbn in L; lia | reflexivity].
  - intros b [| n] r L; [cbn in L; lia | destruct b; reflexivity].
  - intros s [| n] r L; [cbn in L; lia |]. cbn [written]. unfold quoted. cbn [app]. rewrite <- app_assoc. cbn [app read_value].
    rewrite chars_read. reflexivity.
  - intros l F [| n] r L; [cbn in L; lia |]. destruct l as [| x l]; [reflexivity |].
    assert (E : exists c w, join [44] (map written (x :: l)) = c :: w /\ c <> 93).
    { destruct (written_head x) as (c & w & Ew & Hc & _). destruct l as [| y l]; cbn [map join].
      - exists c, w. auto.
      - rewrite Ew. cbn [app]. eauto. }
    destruct E as (c & w & E & Hc). cbn [written]. rewrite <- !app_assoc.
    pose proof (items_read (x :: l) F ltac:(discriminate) n r ltac:(cbn [size] in L; lia)) as I. rewrite E in *. cbn [app] in *.
    rewrite value_items, I by exact Hc. reflexivity.
  - intros l F [| n] r L; [cbn in L; lia |]. destruct l as [| [k x] l]; [reflexivity |].
    cbn [written]. rewrite <- !app_assoc.
    pose proof (members_read ((k, x) :: l) F ltac:(discriminate) n r ltac:(cbn [size] in L; lia)) as I. cbn [app] in *.
    set (g := fun p : bytes * tree => quoted (fst p) ++ 58 :: written (snd p)) in *.
    assert (E : exists w, join [44] (map g ((k, x) :: l)) = 34 :: w) by (destruct l; eexists; reflexivity).
    destruct E as (w & E). rewrite E in *. cbn [app] in *.
    change (read_value (S n) (123 :: 34 :: w ++ 125 :: r)) with
      (match read_members n (34 :: w ++ 125 :: r) with Some (l0, r') => Some (TObject l0, r') | None => None end).
    rewrite I. reflexivity.
Qed.

Lemma join_length : forall l : list bytes, (List.length (concat l) + List.length l <= S (List.length (join [44%N] l)))%nat.
Proof.
  induction l as [| x l IH]; [cbn; lia |]. destruct l as [| y l].
  - cbn [join concat List.length]. rewrite app_nil_r. lia.
  - change (join [44] (x :: y :: l)) with (x ++ [44] ++ join [44] (y :: l)).
    change (concat (x :: y :: l)) with (x ++ concat (y :: l)). rewrite !app_length. cbn [List.length] in *. lia.
Qed.

Lemma size_written : forall t, (size t <= List.length (written t))%nat.
Proof.
  apply tree_cases; try (intros; cbn; lia).
  - intros []; cbn; lia.
  - intros l F. cbn [size written]. cbn [app List.length]. rewrite app_length. cbn [List.length].
    pose proof (join_length (map written l)) as J. rewrite map_length in J.
    assert (S : (list_sum (map (fun x => S (size x)) l) <= List.length (concat (map written l)) + List.length l)%nat).
    { clear J. induction F as [| x l H F IH]; [cbn; lia |]. cbn [map concat List.length].
      change (list_sum (S (size x) :: ?m)) with (S (size x + list_sum m))%nat. rewrite app_length. lia. }
    lia.
  - intros l F. cbn [size written]. set (g := fun p : bytes * tree => quoted (fst p) ++ [58] ++ written (snd p)).
    cbn [app List.length]. rewrite app_length. cbn [List.length].
    pose proof (join_length (map g l)) as J. rewrite map_length in J.
    assert (S : (list_sum (map (fun p => S (size (snd p))) l) <= List.length (concat (map g l)) + List.length l)%nat).
    { clear J. induction F as [| x l H F IH]; [cbn; lia |]. cbn [map concat List.length].
      change (list_sum (S (size (snd x)) :: ?m)) with (S (size (snd x) + list_sum m))%nat. unfold g at 1.
      rewrite !app_length. lia. }
    lia.
Qed.

Lemma json_read : forall t, read_json (written t) = Some t.
Proof.
  intros t. unfold read_json. rewrite <- (app_nil_r (written t)) at 2. rewrite value_read by apply size_written. reflexivity.
Qed.

(** No control characters. *)
Definition printing (c : N) : Prop := 32 <= c.
Lemma escape_printing : forall c, Forall printing (escape c).
Proof.
  intros c. unfold escape, printing.
  repeat match goal with |- context [c =? ?k] => destruct (N.eqb_spec c k) as [-> | ?]; [repeat constructor; discriminate |] end.
  destruct (N.ltb_spec c 32); [| repeat constructor; assumption].
  assert (D : forall n, 32 <= low_digit n) by (intros k; unfold low_digit; destruct (k <? 10); lia).
  repeat constructor; try discriminate; apply D.
Qed.
Lemma quoted_printing : forall s, Forall printing (quoted s).
Proof.
  intros s. unfold quoted. rewrite !Forall_app. repeat split; try (repeat constructor; discriminate).
  induction s as [| c s IH]; [constructor |]. cbn [flat_map]. rewrite Forall_app. split; [apply escape_printing | exact IH].
Qed.
Lemma join_printing : forall l, Forall (Forall printing) l -> Forall printing (join [44] l).
Proof.
  intros l F. induction F as [| x l H F IH]; [constructor |]. destruct l as [| y l]; [exact H |].
  change (join [44] (x :: y :: l)) with (x ++ [44] ++ join [44] (y :: l)). rewrite !Forall_app.
  repeat split; [exact H | repeat constructor; discriminate | exact IH].
Qed.
Lemma written_printing : forall t, Forall printing (written t).
Proof.
  apply tree_cases.
  - repeat constructor; discriminate.
  - intros []; repeat constructor; discriminate.
  - apply quoted_printing.
  - intros l F. cbn [written]. rewrite !Forall_app. repeat split; try (repeat constructor; discriminate).
    apply join_printing. rewrite Forall_map. exact F.
  - intros l F. cbn [written]. rewrite !Forall_app. repeat split; try (repeat constructor; discriminate).
    apply join_printing. rewrite Forall_map. eapply Forall_impl; [| exact F]. intros p H. cbv beta in *. rewrite !Forall_app.
    repeat split; [apply quoted_printing | repeat constructor; discriminate | exact H].
Qed.

(** ** Maps *)
Lemma member_put : forall m k k' v, member k (put m k' v) = if bytes_eqb k k' then Some v else member k m.
Proof.
  induction m as [| [k1 v1] m IH]; intros k k' v; cbn [put member]; [reflexivity |].
  destruct (bytes_eqb_spec k' k1) as [-> | n1]; cbn [member].
  - destruct (bytes_eqb k k1); reflexivity.
  - destruct (key_lt k' k1); cbn [member]; [reflexivity |]. rewrite IH.
    destruct (bytes_eqb_spec k k1) as [-> | n2]; [| reflexivity].
    destruct (bytes_eqb_spec k1 k') as [-> | n3]; [congruence | reflexivity].
Qed.

Lemma key_trans : forall a b c, key_lt a b = true -> key_lt b c = true -> key_lt a c = true.
Proof.
  induction a as [| x a IH]; intros [| y b] [| z c] A B; cbn [key_lt] in *; try discriminate; try reflexivity.
  destruct (N.eqb_spec x y) as [-> | n1].
  - destruct (N.eqb_spec y z) as [-> | n2]; [exact (IH _ _ A B) | exact B].
  - destruct (N.eqb_spec y z) as [-> | n2].
    + destruct (N.eqb_spec x z); [congruence | exact A].
    + apply N.ltb_lt in A, B. destruct (N.eqb_spec x z); [lia |]. apply N.ltb_lt. lia.
Qed.
Lemma key_irrefl : forall a, key_lt a a = false.
Proof. induction a as [| x a IH]; [reflexivity |]. cbn [key_lt]. rewrite N.eqb_refl. exact IH. Qed.
Lemma key_total : forall a b, a <> b -> key_lt a b = false -> key_lt b a = true.
Proof.
  induction a as [| x a IH]; intros [| y b] Ne H; cbn [key_lt] in *; try congruence; try reflexivity.
  destruct (N.eqb_spec x y) as [-> | n].
  - rewrite N.eqb_refl. apply IH; congruence.
  - apply N.ltb_ge in H. destruct (N.eqb_spec y x); [congruence |]. apply N.ltb_lt. lia.
Qed.

Definition keyed (l : list bytes) : Prop := StronglySorted (fun a b => key_lt a b = true) l.
Lemma put_keys : forall m k v x, In x (map fst (put m k v)) -> x = k \/ In x (map fst m).
Proof.
  induction m as [| [k1 v1] m IH]; intros k v x; cbn [put].
  - intros [H | []]. left. symmetry. exact H.
  - destruct (bytes_eqb k k1); [| destruct (key_lt k k1)]; cbn [map fst].
    + intros [H | H]; [left; symmetry; exact H | right; right; exact H].
    + intros [H | H]; [left; symmetry; exact H | right; exact H].
    + intros [H | H]; [right; left; exact H |]. apply IH in H as [H | H]; [left; exact H | right; right; exact H].
Qed.
Lemma put_keyed : forall m k v, keyed (map fst m) -> keyed (map fst (put m k v)).
Proof.
  unfold keyed. induction m as [| [k1 v1] m IH]; intros k v H; cbn [put].
  - repeat constructor.
  - cbn [map fst] in H. inversion H as [| ? ? H1 H2]; subst. destruct (bytes_eqb_spec k k1) as [-> | n].
    + exact H.
    + destruct (key_lt k k1) eqn:E; cbn [map fst].
      * constructor; [exact H |]. constructor; [exact E |]. eapply Forall_impl; [| exact H2]. intros a A. exact (key_trans _ _ _ E A).
      * constructor; [apply IH, H1 |]. apply Forall_forall. intros x I. apply put_keys in I as [-> | I].
        -- apply key_total; assumption.
        -- rewrite Forall_forall in H2. apply H2, I.
Qed.
Lemma keyed_nodup : forall l, keyed l -> NoDup l.
Proof.
  intros l H. induction H as [| x l H IH F]; constructor; [| exact IH]. intros I. rewrite Forall_forall in F.
  specialize (F x I). rewrite key_irrefl in F. discriminate.
Qed.
Definition puts (m : list (bytes * tree)) (l : list (bytes * tree)) := fold_left (fun m p => put m (fst p) (snd p)) l m.
Lemma puts_keyed : forall l m, keyed (map fst m) -> keyed (map fst (puts m l)).
Proof. induction l as [| p l IH]; intros m H; [exact H |]. apply IH, put_keyed, H. Qed.
Lemma puts_keys : forall l m x, In x (map fst (puts m l)) -> In x (map fst m) \/ In x (map fst l).
Proof.
  induction l as [| [k v] l IH]; intros m x H; [left; exact H |]. apply IH in H as [H | H].
  - apply put_keys in H as [-> | H]; [right; left; reflexivity | left; exact H].
  - right. right. exact H.
Qed.
Lemma member_entry : forall {A} k k' f (o : option A) m,
  member k (puts m (entry k' f o)) = if bytes_eqb k (str k') then match o with Some a => Some (f a) | None => member k m end else member k m.
Proof.
  intros A k k' f [a |] m; unfold puts; cbn [entry fold_left fst snd]; [apply member_put |]. destruct (bytes_eqb k (str k')); reflexivity.
Qed.
Lemma puts_app : forall l l' m, puts m (l ++ l') = puts (puts m l) l'.
Proof. intros. unfold puts. apply fold_left_app. Qed.
Lemma entry_keys : forall {A} k f (o : option A) x, In x (map fst (entry k f o)) -> x = str k.
Proof. intros A k f [a |] x; [intros [H | []]; symmetry; exact H | intros []]. Qed.

Ltac look := unfold at_key, subscribe_tree, options_tree, object;
  repeat match goal with |- context [fold_left _ ?l ?m] => change (fold_left _ l m) with (puts m l) end;
  rewrite !puts_app, !member_entry;
  repeat match goal with |- context [bytes_eqb ?a ?b] => let v := eval vm_compute in (bytes_eqb a b) in change (bytes_eqb a b) with v end;
  cbv iota;
  match goal with |- context [match ?o with _ => _ end] => destruct o; reflexivity end.

Lemma data_fields : forall D s, let d := subscribe_tree D s in
  at_key "host" d = option_map TText (su_host s) /\
  at_key "type" d = option_map word (su_type s) /\
  at_key "require" d = option_map TText (su_require s) /\
  at_key "peer" d = option_map (fun i => TText (d_ip D i)) (su_peer s) /\
  at_key "path" d = option_map TText (su_path s) /\
  at_key "prefix" d = option_map (fun n => TText (d_net D n)) (su_prefix s) /\
  at_key "moreSpecific" d = option_map TBool (su_more s) /\
  at_key "lessSpecific" d = option_map TBool (su_less s) /\
  at_key "socketOptions" d = option_map options_tree (su_options s).
Proof. intros D s d. unfold d. repeat split; try look. transitivity (option_map (fun t => TText (stype_name t)) (su_type s)); [look |]. destruct (su_type s) as [[] |]; reflexivity. Qed.

Lemma options_fields : forall o, let d := options_tree o in
  at_key "includeRaw" d = option_map TBool (so_raw o) /\ at_key "acknowledge" d = option_map TBool (so_acknowledge o).
Proof. intros o d. unfold d. split; look. Qed.

Lemma only_object : forall ks l, (forall x, In x (map fst l) -> In x (map str ks)) -> only_keys ks (object l).
Proof.
  intros ks l H. unfold only_keys, object. eexists. split; [reflexivity |]. fold (puts [] l). split.
  - apply keyed_nodup, puts_keyed. constructor.
  - intros k I. apply puts_keys in I as [[] | I]. apply H, I.
Qed.
Definition data_keys : list string :=
  ["host"; "type"; "require"; "peer"; "path"; "prefix"; "moreSpecific"; "lessSpecific"; "socketOptions"]%string.
Ltac keys I := rewrite !map_app in I; repeat (apply in_app_or in I as [I | I]; [apply entry_keys in I; rewrite I; cbn [map In]; tauto |]);
  apply entry_keys in I; rewrite I; cbn [map In]; tauto.
Lemma data_only : forall D s, only_keys data_keys (subscribe_tree D s).
Proof. intros D s. apply only_object. intros x I. unfold data_keys. keys I. Qed.
Lemma options_only : forall o, only_keys ["includeRaw"; "acknowledge"]%string (options_tree o).
Proof. intros o. apply only_object. intros x I. keys I. Qed.

Lemma whole_read : forall D m, read_json (to_json_string D m) =
  Some (TObject [(str "data", data_tree D m); (str "type", TText (msg_type m))]).
Proof. intros D m. unfold to_json_string. apply json_read. Qed.

(** ** Calls *)
Definition options_raw (s : subscribe) := match su_options s with Some o => so_raw o | None => None end.
Definition options_acknowledge (s : subscribe) := match su_options s with Some o => so_acknowledge o | None => None end.
Ltac calls := let cs := fresh "cs" in let c := fresh "c" in let IH := fresh "IH" in
  intros cs; induction cs as [| c cs IH]; intros s; [reflexivity |]; cbn [fold_left latest]; rewrite IH;
  match goal with |- match ?l with _ => _ end = _ => destruct l; [reflexivity |] end;
  destruct c; try reflexivity; cbn [perform]; unfold include_raw, acknowledge, options_raw, options_acknowledge; destruct (su_options s); reflexivity.
Lemma call_host : forall cs s, su_host (fold_left perform cs s) = match latest host_of cs with Some a => Some a | None => su_host s end.
Proof. calls. Qed.
Lemma call_type : forall cs s, su_type (fold_left perform cs s) = match latest type_of cs with Some a => Some a | None => su_type s end.
Proof. calls. Qed.
Lemma call_require : forall cs s, su_require (fold_left perform cs s) = match latest require_of cs with Some a => Some a | None => su_require s end.
Proof. calls. Qed.
Lemma call_peer : forall cs s, su_peer (fold_left perform cs s) = match latest peer_of cs with Some a => Some a | None => su_peer s end.
Proof. calls. Qed.
Lemma call_path : forall cs s, su_path (fold_left perform cs s) = match latest path_of cs with Some a => Some a | None => su_path s end.
Proof. calls. Qed.
Lemma call_prefix : forall cs s, su_prefix (fold_left perform cs s) = match latest prefix_of cs with Some a => Some a | None => su_prefix s end.
Proof. calls. Qed.
Lemma call_more : forall cs s, su_more (fold_left perform cs s) = match latest more_of cs with Some a => Some a | None => su_more s end.
Proof. calls. Qed.
Lemma call_less : forall cs s, su_less (fold_left perform cs s) = match latest less_of cs with Some a => Some a | None => su_less s end.
Proof. calls. Qed.
Lemma call_raw : forall cs s, options_raw (fold_left perform cs s) = match latest raw_of cs with Some a => Some a | None => options_raw s end.
Proof. calls. Qed.
Lemma call_acknowledge : forall cs s, options_acknowledge (fold_left perform cs s) =
  match latest acknowledge_of cs with Some a => Some a | None => options_acknowledge s end.
Proof. calls. Qed.
Lemma call_options : forall cs s, su_options (fold_left perform cs s) = None <->
  su_options s = None /\ latest raw_of cs = None /\ latest acknowledge_of cs = None.
Proof.
  induction cs as [| c cs IH]; intros s; cbn [fold_left latest]; [tauto |]. rewrite IH.
  destruct (latest raw_of cs), (latest acknowledge_of cs), c; cbn [perform raw_of acknowledge_of];
    unfold include_raw, acknowledge; try destruct (su_options s) eqn:E; cbn; try rewrite E; intuition (discriminate || auto).
Qed.
Lemma none_latest : forall {A} (x : option A), match x with Some a => Some a | None => None end = x.
Proof. intros A []; reflexivity. Qed.

(** ** Messages are told apart *)
Lemma map_some_inj : forall {A B} (f : A -> B), (forall a b, f a = f b -> a = b) -> forall x y, option_map f x = option_map f y -> x = y.
Proof. intros A B f H [a |] [b |] E; cbn in E; try discriminate; [| reflexivity]. injection E as E. rewrite (H a b E). reflexivity. Qed.
Lemma options_inj : forall a b, options_tree a = options_tree b -> a = b.
Proof.
  intros a b E. destruct (options_fields a) as [A1 A2], (options_fields b) as [B1 B2]. cbv zeta in *. rewrite E in A1, A2.
  rewrite A1 in B1. rewrite A2 in B2. apply map_some_inj in B1; [| congruence]. apply map_some_inj in B2; [| congruence].
  destruct a, b. cbn in *. congruence.
Qed.
Lemma subscribe_inj : forall D, displays_tell D -> forall a b, subscribe_tree D a = subscribe_tree D b -> a = b.
Proof.
  intros D [Ti Tn] a b E. destruct (data_fields D a) as (A1 & A2 & A3 & A4 & A5 & A6 & A7 & A8 & A9),
    (data_fields D b) as (B1 & B2 & B3 & B4 & B5 & B6 & B7 & B8 & B9). cbv zeta in *.
  rewrite E in A1, A2, A3, A4, A5, A6, A7, A8, A9.
  rewrite A1 in B1. rewrite A2 in B2. rewrite A3 in B3. rewrite A4 in B4. rewrite A5 in B5. rewrite A6 in B6. rewrite A7 in B7.
  rewrite A8 in B8. rewrite A9 in B9. clear A1 A2 A3 A4 A5 A6 A7 A8 A9 E.
  apply map_some_inj in B1; [| congruence]. apply map_some_inj in B3; [| congruence]. apply map_some_inj in B5; [| congruence].
  apply map_some_inj in B7; [| congruence]. apply map_some_inj in B8; [| congruence].
  apply map_some_inj in B2; [| intros [] [] X; try reflexivity; discriminate X].
  apply map_some_inj in B4; [| intros x y X; injection X as X; apply Ti, X].
  apply map_some_inj in B6; [| intros x y X; injection X as X; apply Tn, X].
  apply map_some_inj in B9; [| exact options_inj].
  destruct a, b. cbn in *. subst. reflexivity.
Qed.
Lemma texts_inj : forall l m, map TText l = map TText m -> l = m.
Proof. induction l as [| x l IH]; intros [| y m] E; try discriminate; [reflexivity |]. injection E as -> E. rewrite (IH m E). reflexivity. Qed.
Lemma message_inj : forall D, displays_tell D -> forall a b, to_json_string D a = to_json_string D b -> a = b.
Proof.
  intros D T a b E. pose proof (whole_read D a) as A. rewrite E, whole_read in A. clear E. injection A as A B.
  destruct a, b; try discriminate B; cbn [data_tree] in A.
  - reflexivity.
  - injection A as A. rewrite (texts_inj _ _ (eq_sym A)). reflexivity.
  - rewrite (subscribe_inj D T _ _ A). reflexivity.
  - rewrite (subscribe_inj D T _ _ A). reflexivity.
Qed.
