(** Proofs about the layered text: what is read from its lines. *)
From Coq Require Import String Sorting.Permutation Sorting.Sorted Lia ZifyBool ZifyNat ZifyN.
From Verif Require Import Base BaseFacts Tac Net NetSpec AsPath Community CommunitySpec Mpls Nlri LinkState Tlv Attr BgpError Cap BgpMsg Bgp4mp TableDump Framing MrtRecord Elem
  Text Psv PsvSpec PsvFacts PsvCommFacts PsvLineFacts Render RenderSpec RenderFacts.
Local Open Scope string_scope.
Local Open Scope list_scope.
Local Open Scope N_scope.

Lemma after_app p s : after p (p ++ s) = Some s.
Proof. induction p as [|x p IH]; [reflexivity|]. cbn [app after]. rewrite N.eqb_refl. exact IH. Qed.
Lemma after_deep d p s : after (deep d p) (deep d s) = after p s.
Proof. induction d as [|d IH]; [reflexivity|]. cbn [deep after N.eqb]. exact IH. Qed.
Lemma after_is p s t : after p s = Some t -> s = p ++ t.
Proof.
  revert s. induction p as [|x p IH]; intros s E; cbn [after] in E; [injection E as <-; reflexivity|]. destruct s as [|y s]; [discriminate E|].
  destruct (N.eqb_spec x y) as [->|]; [|discriminate E]. cbn [app]. f_equal. exact (IH s E).
Qed.
Lemma bytes_eqb_spec a b : reflect (a = b) (bytes_eqb a b).
Proof. destruct (bytes_eqb a b) eqn:E; constructor; [apply bytes_eqb_eq, E|]. intros ->. rewrite bytes_eqb_refl in E. discriminate E. Qed.
Lemma value_skip d k A B : Forall (fun x => after (deep d (str k)) x = None) A -> value d k (A ++ B) = value d k B.
Proof. intros F. induction F as [|x A H F IH]; [reflexivity|]. cbn [app value]. rewrite H. exact IH. Qed.
Lemma value_here d k v B : value d k (deep d (str k ++ v) :: B) = Some v.
Proof. cbn [value]. rewrite after_deep, after_app. reflexivity. Qed.
Lemma value_none d k A : Forall (fun x => after (deep d (str k)) x = None) A -> value d k A = None.
Proof. intros F. rewrite <- (app_nil_r A), value_skip by exact F. reflexivity. Qed.
Lemma under_skip d h A B : Forall (fun x => x <> deep d (str h)) A -> under d h (A ++ B) = under d h B.
Proof.
  intros F. induction F as [|x A H F IH]; [reflexivity|]. cbn [app under]. destruct (bytes_eqb_spec x (deep d (str h))) as [E|]; [contradiction|]. exact IH.
Qed.
Lemma under_none d h A : Forall (fun x => x <> deep d (str h)) A -> under d h A = [].
Proof. intros F. rewrite <- (app_nil_r A), under_skip by exact F. reflexivity. Qed.
Definition stops (d : nat) (B : list bytes) : Prop := match B with [] => True | x :: _ => after (deep d []) x = None end.
Lemma inside_stop d B : stops d B -> inside d B = [].
Proof. destruct B as [|x B]; [reflexivity|]. cbn [stops inside]. intros ->. reflexivity. Qed.
Lemma inside_map d l B : stops d B -> inside d (map (deep d) l ++ B) = l.
Proof.
  intros H. induction l as [|t l IH]; [apply inside_stop, H|]. cbn [map app inside]. rewrite after_deep. cbn [after]. rewrite IH. reflexivity.
Qed.
Lemma under_sect d h l A B : Forall (fun x => x <> deep d (str h)) A -> Forall (fun x => x <> deep d (str h)) B -> stops (S d) B -> under d h (A ++ sect d h l ++ B) = l.
Proof.
  intros FA FB H. rewrite under_skip by exact FA. destruct l as [|t l]; [apply under_none, FB|].
  unfold sect. cbn [app under]. destruct (bytes_eqb_spec (deep d (str h)) (deep d (str h))) as [_|N]; [|contradiction]. apply (inside_map (S d) (t :: l)), H.
Qed.
Lemma sect_other d h h' l : str h' <> str h -> hd 0 (str h) <> 32 -> Forall (fun x => x <> deep d (str h)) (sect d h' l).
Proof.
  intros N H. destruct l as [|t l]; [constructor|]. unfold sect. constructor; [intros E; apply N, (deep_inj d), E|].
  apply Forall_map, Forall_forall. intros x _ E. rewrite deep_S in E. apply deep_inj in E. rewrite <- E in H. apply H. reflexivity.
Qed.
Lemma deeper_none d t : hd 0 t <> 32 -> after (deep (S d) []) (deep d t) = None.
Proof.
  intros H. rewrite deep_S, after_deep. destruct t as [|x t]; [reflexivity|]. cbn [after hd] in *. destruct (N.eqb_spec 32 x) as [<-|]; [exfalso; apply H; reflexivity|reflexivity].
Qed.
Lemma stops_sect d h l B : hd 0 (str h) <> 32 -> stops (S d) B -> stops (S d) (sect d h l ++ B).
Proof. intros H HB. destruct l as [|t l]; [exact HB|]. cbn [sect app stops]. apply deeper_none, H. Qed.
Lemma stops_last d h l : hd 0 (str h) <> 32 -> stops (S d) (sect d h l).
Proof. intros H. rewrite <- (app_nil_r (sect d h l)). apply stops_sect; [exact H|exact I]. Qed.
Lemma sect_after d k h l : after (str k) (str h) = None -> hd 0 (str k) <> 32 -> str k <> [] -> Forall (fun x => after (deep d (str k)) x = None) (sect d h l).
Proof.
  intros N H E. destruct l as [|t l]; [constructor|]. unfold sect. constructor; [rewrite after_deep; exact N|].
  apply Forall_map, Forall_forall. intros x _. rewrite deep_S, after_deep. destruct (str k) as [|c k']; [contradiction|]. cbn [after hd] in *. destruct (N.eqb_spec c 32) as [->|]; [exfalso; apply H; reflexivity|reflexivity].
Qed.

(** * Parts *)
Lemma until_all p t B : Forall (fun x => p x = false) t -> match B with [] => True | x :: _ => p x = true end -> until p (t ++ B) = t.
Proof.
  intros F H. induction F as [|x t Hx F IH]; cbn [app until]; [|rewrite Hx, IH; reflexivity]. destruct B as [|x B]; [reflexivity|]. cbn [until]. rewrite H. reflexivity.
Qed.
Lemma parts_skip p A B : Forall (fun x => p x = false) A -> parts p (A ++ B) = parts p B.
Proof. intros F. induction F as [|x A H F IH]; [reflexivity|]. cbn [app parts]. rewrite H. exact IH. Qed.
Lemma parts_flat {A} p (h : A -> bytes) (t : A -> list bytes) l :
  Forall (fun x => p (h x) = true /\ Forall (fun y => p y = false) (t x)) l -> parts p (flat_map (fun x => h x :: t x) l) = map t l.
Proof.
  intros F. induction F as [|x l [Hx Ht] F IH]; [reflexivity|]. cbn [flat_map app parts]. rewrite Hx, until_all; [|exact Ht|].
  - rewrite parts_skip by exact Ht. rewrite IH. reflexivity.
  - destruct F as [|y l [Hy _] _]; [exact I|exact Hy].
Qed.

(** * Lines that start nothing of the session context *)
Definition quiet (x : bytes) : bool :=
  match x with c :: d :: _ => existsb (N.eqb c) [32; 79; 85; 78; 75; 82; 83; 80; 71] || ((c =? 84) && (d =? 65)) | _ => false end.
Lemma quiet_sect d h l : Forall (fun x => quiet x = true) (sect (S d) h l).
Proof. destruct l as [|t l]; [constructor|]. unfold sect. constructor; [reflexivity|]. apply Forall_map, Forall_forall. reflexivity. Qed.
Lemma quiet_attrs T d a : Forall (fun x => quiet x = true) (lay_attrs T (S d) a).
Proof. unfold lay_attrs. apply Forall_app. split; apply quiet_sect. Qed.
Lemma quiet_count n k e : Forall (fun x => quiet x = true) (count_line n k e).
Proof. unfold count_line. destruct (0 <? n); repeat constructor. Qed.
Lemma quiet_msg T m : Forall (fun x => quiet x = true) (lay_msg T m).
Proof.
  destruct m as [o|u|n| |r]; cbn [lay_msg].
  - apply Forall_app. split; [repeat constructor|]. destruct (o_params o); [constructor|]. constructor; [reflexivity|]. apply Forall_map, Forall_forall. reflexivity.
  - constructor; [reflexivity|]. unfold lay_update. repeat (apply Forall_app; split); try apply quiet_sect; apply quiet_count.
  - repeat constructor.
  - repeat constructor.
  - repeat constructor.
Qed.
Lemma quiet_states o n : Forall (fun x => quiet x = true) (lay_states o n).
Proof. repeat constructor. Qed.
Lemma quiet_dump T m : Forall (fun x => quiet x = true) (lay_dump T m).
Proof. unfold lay_dump. apply Forall_app. split; [repeat constructor|apply quiet_attrs]. Qed.
Lemma quiet_entry T m : Forall (fun x => quiet x = true) (lay_entry T m).
Proof. unfold lay_entry. apply Forall_app. split; [repeat constructor|apply quiet_attrs]. Qed.
Lemma quiet_body T r : Forall (fun x => quiet x = true) (lay_body T r).
Proof.
  unfold lay_body. destruct (mr_msg r) as [m|l|[t|b| |t]|[m|m]|[m|m]]; try apply quiet_msg; try apply quiet_states; try apply quiet_dump; cbn [lay_v2].
  - constructor; [reflexivity|]. apply Forall_flat. intros m. apply quiet_dump.
  - constructor; [reflexivity|]. apply Forall_map, Forall_forall. reflexivity.
  - constructor; [reflexivity|]. apply Forall_flat. intros m. apply quiet_entry.
  - repeat constructor.
  - repeat constructor.
Qed.
Lemma quiet_after k x : In k ["TIME: "; "TYPE: "; "FROM: "; "TO: "] -> quiet x = true -> after (str k) x = None.
Proof.
  intros K Q. destruct (after (str k) x) as [t|] eqn:E; [|reflexivity]. apply after_is in E. subst x. destruct K as [<-|[<-|[<-|[<-|[]]]]]; discriminate Q.
Qed.
Lemma body_after T r k : In k ["TIME: "; "TYPE: "; "FROM: "; "TO: "] -> Forall (fun x => after (str k) x = None) (lay_body T r).
Proof. intros K. eapply Forall_impl; [|apply quiet_body]. intros x Q. exact (quiet_after k x K Q). Qed.

(** * The session context *)
Lemma six_text us : exists z, six us = repeat 48 z ++ dec us /\ (6 <= z + length (dec us))%nat /\ (z = 0%nat \/ z + length (dec us) = 6)%nat.
Proof. exists (6 - length (dec us))%nat. split; [reflexivity|]. lia. Qed.
Lemma time_ok T r : exists t, value 0 "TIME: " (lay T r) = Some t /\ time_text (mr_hdr r) t.
Proof.
  exists (clock (mr_hdr r)). split; [apply (value_here 0)|]. unfold time_text, clock. destruct (h_us (mr_hdr r)) as [us|]; [|reflexivity].
  destruct (six_text us) as (z & E & H). exists z. rewrite E. split; [reflexivity|exact H].
Qed.
Lemma type_ok T r : value 0 "TYPE: " (lay T r) = Some (etype_name (h_type (mr_hdr r)) ++ str "/" ++ subtype_name r).
Proof. refine (eq_trans (value_skip 0 "TYPE: " [str "TIME: " ++ clock (mr_hdr r)] _ _) (value_here 0 _ _ _)). repeat constructor. Qed.
Lemma from_ok T r : value 0 "FROM: " (lay T r) = option_map (end_text T) (from_in r).
Proof.
  unfold lay. rewrite (value_skip 0 "FROM: " [str "TIME: " ++ _; str "TYPE: " ++ _]) by (repeat constructor). destruct (from_in r) as [x|] eqn:E; [apply (value_here 0)|].
  cbn [lay_end app option_map]. apply value_none. apply Forall_app. split; [destruct (to_in r); repeat constructor|apply (body_after T r "FROM: "); cbn [In]; tauto].
Qed.
Lemma to_ok T r : value 0 "TO: " (lay T r) = option_map (end_text T) (to_in r).
Proof.
  unfold lay. rewrite (value_skip 0 "TO: " [str "TIME: " ++ _; str "TYPE: " ++ _]) by (repeat constructor).
  rewrite (value_skip 0 "TO: " (lay_end T "FROM: " (from_in r))) by (destruct (from_in r); repeat constructor). destruct (to_in r) as [x|] eqn:E; [apply (value_here 0)|].
  cbn [lay_end app option_map]. apply value_none. apply (body_after T r "TO: "). cbn [In]; tauto.
Qed.

(** * Updates *)
Definition context (T : rtexts) (r : mrt_record) : list bytes :=
  [str "TIME: " ++ clock (mr_hdr r); str "TYPE: " ++ etype_name (h_type (mr_hdr r)) ++ str "/" ++ subtype_name r] ++
  lay_end T "FROM: " (from_in r) ++ lay_end T "TO: " (to_in r).
Lemma lay_context T r : lay T r = context T r ++ lay_body T r.
Proof. unfold lay, context. rewrite <- !app_assoc. reflexivity. Qed.
Lemma msg_body T r m : message_in r = Some m -> lay_body T r = lay_msg T m.
Proof. unfold message_in, lay_body. destruct (mr_msg r) as [| | |[]|[]]; intros E; try discriminate E; injection E as <-; reflexivity. Qed.
Lemma update_body T r u : update_in r = Some u -> lay_body T r = str "UPDATE:" :: lay_update T u.
Proof. unfold update_in. destruct (message_in r) as [m|] eqn:E; [|discriminate]. destruct m; try discriminate. intros [= <-]. apply (msg_body T r _ E). Qed.
Lemma context_top T r d k : Forall (fun x => x <> deep (S d) (str k)) (context T r).
Proof. unfold context. destruct (from_in r), (to_in r); repeat constructor; discriminate. Qed.
Lemma context_top_after T r d k : Forall (fun x => after (deep (S d) (str k)) x = None) (context T r).
Proof. unfold context. destruct (from_in r), (to_in r); repeat constructor. Qed.
Lemma count_other n k e h : (forall t, str k ++ t <> str h) -> Forall (fun x => x <> deep 1 (str h)) (count_line n k e).
Proof. intros H. unfold count_line. destruct (0 <? n); constructor; [|constructor]. intros E. apply deep_inj in E. exact (H _ E). Qed.
Lemma stops_count n k e B : hd 0 (str k ++ dec n) <> 32 -> str k <> [] -> stops 2 B -> stops 2 (count_line n k e ++ B).
Proof.
  intros H N HB. unfold count_line. destruct (0 <? n); [|exact HB]. cbn [app stops]. apply deeper_none. destruct (str k); [contradiction|exact H].
Qed.
Ltac others := repeat (apply Forall_app; split); try (apply sect_other; discriminate); try (apply count_other; intros t; discriminate).
Ltac halts := repeat first [apply stops_sect; [discriminate|]|apply stops_count; [discriminate|discriminate|]]; first [exact I|apply stops_last; discriminate].
Lemma update_sections T r u : update_in r = Some u -> let vs := values (u_attrs u) in
  under 1 "WITHDRAWN:" (lay T r) = map (route_text T) (u_withdrawn u ++ flat_map mp_withdrawn vs) /\
  under 1 "ANNOUNCED:" (lay T r) = map (route_text T) (u_announced u ++ flat_map mp_announced vs) /\
  under 1 "ANNOUNCED (labeled):" (lay T r) = map (labeled_text T) (flat_map mp_labeled vs) /\
  under 1 "ATTRIBUTES:" (lay T r) = map (attr_text T) vs /\
  under 1 "WARNINGS:" (lay T r) = map (warn_text T) (at_warnings (u_attrs u)).
Proof.
  intros U vs. rewrite lay_context, (update_body T r u U). unfold lay_update, lay_attrs. fold vs.
  rewrite !under_skip by apply context_top. cbn [under]. 
  set (S1 := sect 1 "WITHDRAWN:" _). set (S2 := sect 1 "ANNOUNCED:" _). set (S3 := sect 1 "ANNOUNCED (labeled):" _).
  set (S4 := count_line _ "LINK_STATE_NLRI: " _). set (S5 := count_line _ "FLOWSPEC_NLRI: " _). set (S6 := sect 1 "ATTRIBUTES:" _). set (S7 := sect 1 "WARNINGS:" _).
  refine (conj _ (conj _ (conj _ (conj _ _)))).
  - apply (under_sect 1 _ _ []); unfold S2, S3, S4, S5, S6, S7; [apply Forall_nil|others|halts].
  - apply (under_sect 1 _ _ S1); unfold S1, S3, S4, S5, S6, S7; [others|others|halts].
  - rewrite (app_assoc S1). apply (under_sect 1 _ _ (S1 ++ S2)); unfold S1, S2, S4, S5, S6, S7; [others|others|halts].
  - rewrite (app_assoc S4 S5), (app_assoc S3 (S4 ++ S5)), (app_assoc S2), (app_assoc S1). apply (under_sect 1 _ _ (S1 ++ S2 ++ S3 ++ S4 ++ S5)); unfold S1, S2, S3, S4, S5, S7; [others|others|halts].
  - rewrite (app_assoc S5 S6), (app_assoc S4 (S5 ++ S6)), (app_assoc S3 (S4 ++ S5 ++ S6)), (app_assoc S2), (app_assoc S1). rewrite <- (app_nil_r S7). apply (under_sect 1 _ _ (S1 ++ S2 ++ S3 ++ S4 ++ S5 ++ S6)); unfold S1, S2, S3, S4, S5, S6; [others|constructor|exact I].
Qed.
Lemma count_value n k e A B : Forall (fun x => after (deep 1 (str k)) x = None) A -> Forall (fun x => after (deep 1 (str k)) x = None) B ->
  value 1 k (A ++ count_line n k e ++ B) = if n =? 0 then None else Some (dec n ++ str e).
Proof.
  intros FA FB. rewrite value_skip by exact FA. unfold count_line. destruct (N.eqb_spec n 0) as [->|N].
  - apply value_none, FB.
  - destruct (N.ltb_spec 0 n); [|lia]. apply (value_here 1).
Qed.
Lemma count_after n k e k' : (forall t, after (str k') (str k ++ t) = None) -> Forall (fun x => after (deep 1 (str k')) x = None) (count_line n k e).
Proof. intros H. unfold count_line. destruct (0 <? n); constructor; [|constructor]. rewrite after_deep. apply H. Qed.
Ltac absent := repeat (apply Forall_app; split); try (apply sect_after; [reflexivity|discriminate|discriminate]); try (apply count_after; reflexivity).
Lemma update_counts T r u : update_in r = Some u -> let vs := values (u_attrs u) in
  value 1 "LINK_STATE_NLRI: " (lay T r) = (if total ls_routes vs =? 0 then None else Some (dec (total ls_routes vs) ++ str " entries (BGP-LS)")) /\
  value 1 "FLOWSPEC_NLRI: " (lay T r) = (if total fs_rules vs =? 0 then None else Some (dec (total fs_rules vs) ++ str " rules (RFC 8955)")).
Proof.
  intros U vs. rewrite lay_context, (update_body T r u U). unfold lay_update, lay_attrs. fold vs.
  rewrite !value_skip by apply context_top_after. cbn [value].
  set (S1 := sect 1 "WITHDRAWN:" _). set (S2 := sect 1 "ANNOUNCED:" _). set (S3 := sect 1 "ANNOUNCED (labeled):" _).
  set (S4 := count_line _ "LINK_STATE_NLRI: " _). set (S5 := count_line _ "FLOWSPEC_NLRI: " _). set (S6 := sect 1 "ATTRIBUTES:" _). set (S7 := sect 1 "WARNINGS:" _).
  split.
  - change (value 1 "LINK_STATE_NLRI: " (S1 ++ S2 ++ S3 ++ S4 ++ S5 ++ S6 ++ S7) = if total ls_routes vs =? 0 then None else Some (dec (total ls_routes vs) ++ str " entries (BGP-LS)")).
    rewrite (app_assoc S2), (app_assoc S1). apply (count_value _ _ _ (S1 ++ S2 ++ S3)); unfold S1, S2, S3, S5, S6, S7; absent.
  - change (value 1 "FLOWSPEC_NLRI: " (S1 ++ S2 ++ S3 ++ S4 ++ S5 ++ S6 ++ S7) = if total fs_rules vs =? 0 then None else Some (dec (total fs_rules vs) ++ str " rules (RFC 8955)")).
    rewrite (app_assoc S3 S4), (app_assoc S2), (app_assoc S1). apply (count_value _ _ _ (S1 ++ S2 ++ S3 ++ S4)); unfold S1, S2, S3, S4, S6, S7; absent.
Qed.
Lemma attrs_sections T d a A : Forall (fun x => x <> deep d (str "ATTRIBUTES:") /\ x <> deep d (str "WARNINGS:")) A ->
  under d "ATTRIBUTES:" (A ++ lay_attrs T d a) = map (attr_text T) (values a) /\
  under d "WARNINGS:" (A ++ lay_attrs T d a) = map (warn_text T) (at_warnings a).
Proof.
  intros F. unfold lay_attrs. set (S6 := sect d "ATTRIBUTES:" _). set (S7 := sect d "WARNINGS:" _). split.
  - apply under_sect; unfold S7; [eapply Forall_impl; [|exact F]; intros x [X _]; exact X|apply sect_other; discriminate|apply stops_last; discriminate].
  - rewrite app_assoc, <- (app_nil_r S7). apply (under_sect d _ _ (A ++ S6)); [|constructor|exact I]. apply Forall_app. split; [eapply Forall_impl; [|exact F]; intros x [_ X]; exact X|].
    unfold S6. apply sect_other; discriminate.
Qed.

(** * The other messages *)
Lemma open_ok T r o : message_in r = Some (MOpen o) ->
  value 1 "VERSION: " (lay T r) = Some (dec (o_version o)) /\ value 1 "MY_AS: " (lay T r) = Some (dec (o_asn o)) /\
  value 1 "HOLD_TIME: " (lay T r) = Some (dec (o_hold o) ++ str "s") /\ value 1 "BGP_ID: " (lay T r) = Some (sh_ip (rt T) (V4 (o_id o))) /\
  under 1 "CAPABILITIES:" (lay T r) = map cap_text (caps_in o).
Proof.
  intros M. rewrite lay_context, (msg_body T r _ M). rewrite !value_skip by apply context_top_after. rewrite under_skip by apply context_top.
  refine (conj _ (conj _ (conj _ (conj _ _)))).
  - apply (eq_trans (value_skip 1 "VERSION: " [str "OPEN:"] _ ltac:(repeat constructor)) (value_here 1 _ _ _)).
  - refine (eq_trans (value_skip 1 "MY_AS: " [str "OPEN:"; deep 1 (str "VERSION: " ++ dec (o_version o))] _ _) (value_here 1 _ _ _)). repeat constructor.
  - refine (eq_trans (value_skip 1 "HOLD_TIME: " [str "OPEN:"; deep 1 (str "VERSION: " ++ dec (o_version o)); deep 1 (str "MY_AS: " ++ dec (o_asn o))] _ _) (value_here 1 _ _ _)). repeat constructor.
  - refine (eq_trans (value_skip 1 "BGP_ID: " [str "OPEN:"; deep 1 (str "VERSION: " ++ dec (o_version o)); deep 1 (str "MY_AS: " ++ dec (o_asn o)); deep 1 (str "HOLD_TIME: " ++ dec (o_hold o) ++ str "s")] _ _) (value_here 1 _ _ _)). repeat constructor.
  - cbn [lay_msg]. rewrite under_skip by (repeat constructor; discriminate). unfold caps_in. destruct (o_params o) as [|p ps]; [reflexivity|]. cbn [under].
    destruct (bytes_eqb_spec (deep 1 (str "CAPABILITIES:")) (deep 1 (str "CAPABILITIES:"))) as [_|N]; [|contradiction]. rewrite <- (app_nil_r (map (deep 2) _)). apply (inside_map 2). exact I.
Qed.
Lemma states_ok T r o n : states_in r = Some (o, n) ->
  value 1 "OLD_STATE: " (lay T r) = Some (state_name o) /\ value 1 "NEW_STATE: " (lay T r) = Some (state_name n).
Proof.
  intros M. rewrite lay_context, !value_skip by apply context_top_after.
  assert (E : lay_body T r = lay_states o n) by (unfold states_in in M; unfold lay_body; destruct (mr_msg r) as [| | |[]|[]]; try discriminate M; injection M as <- <-; reflexivity).
  rewrite E. unfold lay_states. split.
  - refine (eq_trans (value_skip 1 "OLD_STATE: " [str "STATE_CHANGE:"] _ _) (value_here 1 _ _ _)). repeat constructor.
  - refine (eq_trans (value_skip 1 "NEW_STATE: " [str "STATE_CHANGE:"; deep 1 (str "OLD_STATE: " ++ state_name o)] _ _) (value_here 1 _ _ _)). repeat constructor.
Qed.
Lemma notification_ok T r n : message_in r = Some (MNotif n) ->
  value 1 "ERROR: " (lay T r) = Some (rt_error T (nt_error n) ++ str " (" ++ dec (nlen (nt_data n)) ++ str " bytes of data)").
Proof.
  intros M. rewrite lay_context, (msg_body T r _ M), !value_skip by apply context_top_after.
  refine (eq_trans (value_skip 1 "ERROR: " [str "NOTIFICATION:"] _ _) (value_here 1 _ _ _)). repeat constructor.
Qed.
Lemma refresh_ok T r f : message_in r = Some (MRefresh f) ->
  value 1 "AFI: " (lay T r) = Some (dec (rf_afi f) ++ str " SAFI: " ++ dec (rf_safi f) ++ str " SUBTYPE: " ++ dec (rf_subtype f)).
Proof.
  intros M. rewrite lay_context, (msg_body T r _ M), !value_skip by apply context_top_after.
  refine (eq_trans (value_skip 1 "AFI: " [str "ROUTE_REFRESH:"] _ _) (value_here 1 _ _ _)). repeat constructor.
Qed.

(** * Tables *)
Lemma is_line_no d t x : x <> deep d (str t) -> is_line d t x = false.
Proof. unfold is_line. destruct (bytes_eqb_spec x (deep d (str t))); congruence. Qed.
Lemma is_line_yes d t : is_line d t (deep d (str t)) = true.
Proof. unfold is_line. apply bytes_eqb_refl. Qed.
Lemma attrs_no d d' T a h : hd 0 (str h) <> 32 -> Forall (fun x => x <> deep d (str h)) (lay_attrs T (d + S d') a).
Proof.
  intros H. assert (E : forall k t, deep (d + S k) t = deep d (deep (S k) t)) by (intros k t; clear; induction d as [|d IH]; [reflexivity|cbn [Nat.add deep]; rewrite IH; reflexivity]).
  unfold lay_attrs, sect. repeat match goal with |- context [match ?l with [] => _ | _ => _ end] => destruct l end; repeat (apply Forall_app; split; try constructor); try constructor;
  try (apply Forall_map, Forall_forall; intros y _); rewrite <- ?Nat.add_succ_r, ?E; intros X; apply deep_inj in X; rewrite <- X in H; apply H; reflexivity.
Qed.
Definition entry_tail (T : rtexts) (e : rib_entry) : list bytes :=
  [deep 2 (str "PEER_INDEX: " ++ dec (re_peer e)); deep 2 (str "ORIGINATED: " ++ dec (re_time e))] ++ lay_attrs T 2 (re_attrs e).
Lemma rib_parts T r b : mr_msg r = MrtV2 (V2Rib b) -> parts (is_line 1 "RIB_ENTRY:") (lay T r) = map (entry_tail T) (rb_entries b).
Proof.
  intros M. rewrite lay_context. unfold context, from_in, to_in, lay_body. rewrite M. cbn [lay_end lay_v2 app].
  match goal with |- parts _ (?a :: ?b :: ?c :: ?d) = _ => change (a :: b :: c :: d) with ([a; b; c] ++ d) end. rewrite parts_skip.
  - apply (parts_flat (is_line 1 "RIB_ENTRY:") (fun _ => deep 1 (str "RIB_ENTRY:")) (entry_tail T)). apply Forall_forall. intros e _. split; [apply is_line_yes|].
    unfold entry_tail. apply Forall_app. split; [repeat constructor|]. eapply Forall_impl; [|apply (attrs_no 1 0 T (re_attrs e) "RIB_ENTRY:"); discriminate]. intros x X. apply is_line_no, X.
  - repeat constructor.
Qed.
Lemma entry_read T e :
  value 2 "PEER_INDEX: " (entry_tail T e) = Some (dec (re_peer e)) /\ value 2 "ORIGINATED: " (entry_tail T e) = Some (dec (re_time e)) /\
  under 2 "ATTRIBUTES:" (entry_tail T e) = map (attr_text T) (values (re_attrs e)) /\
  under 2 "WARNINGS:" (entry_tail T e) = map (warn_text T) (at_warnings (re_attrs e)).
Proof.
  split; [apply (value_here 2)|]. split.
  - refine (eq_trans (value_skip 2 "ORIGINATED: " [deep 2 (str "PEER_INDEX: " ++ dec (re_peer e))] _ _) (value_here 2 _ _ _)). repeat constructor.
  - apply attrs_sections. repeat constructor; discriminate.
Qed.
Lemma rib_read T r b : mr_msg r = MrtV2 (V2Rib b) ->
  value 0 "RIB_AFI: " (lay T r) = Some (v2_name (rb_type b) ++ str " PREFIX: " ++ route_text T (rb_prefix b) ++ str " (" ++ dec (nlen (rb_entries b)) ++ str " entries)").
Proof.
  intros M. rewrite lay_context. unfold context, from_in, to_in, lay_body. rewrite M. cbn [lay_end lay_v2]. rewrite !app_nil_r.
  rewrite value_skip by (repeat constructor). apply (value_here 0).
Qed.
Definition dump_tail (T : rtexts) (m : dump) : list bytes :=
  [deep 1 (str "PREFIX: " ++ route_text T (td_prefix m)); deep 1 (str "PEER: " ++ end_text T (td_peer m, td_asn m));
   deep 1 (str "ORIGINATED: " ++ dec (td_time m))] ++ lay_attrs T 1 (td_attrs m).
Lemma dump_parts T r l : dumps_in r = Some l -> parts (is_line 0 "RIB_ENTRY:") (lay T r) = map (dump_tail T) l.
Proof.
  intros M. assert (B : exists A, lay T r = A ++ flat_map (lay_dump T) l /\ Forall (fun x => is_line 0 "RIB_ENTRY:" x = false) A).
  { rewrite lay_context. unfold context, from_in, to_in, lay_body, dumps_in in *. destruct (mr_msg r) as [m|l'| |[]|[]]; try discriminate M; injection M as <-; cbn [lay_end].
    - rewrite !app_nil_r. cbn [flat_map]. rewrite app_nil_r. eexists. split; [reflexivity|]. repeat constructor.
    - rewrite !app_nil_r. match goal with |- context [?a ++ ?b :: ?c] => exists (a ++ [b]) end. split; [rewrite <- app_assoc; reflexivity|]. repeat constructor. }
  destruct B as (A & -> & F). rewrite parts_skip by exact F.
  apply (parts_flat (is_line 0 "RIB_ENTRY:") (fun _ => str "RIB_ENTRY:") (dump_tail T)). apply Forall_forall. intros e _. split; [apply (is_line_yes 0)|].
  unfold dump_tail. apply Forall_app. split; [repeat constructor|]. eapply Forall_impl; [|apply (attrs_no 0 0 T (td_attrs e) "RIB_ENTRY:"); discriminate]. intros x X. apply is_line_no, X.
Qed.
Lemma dump_read T m :
  value 1 "PREFIX: " (dump_tail T m) = Some (route_text T (td_prefix m)) /\ value 1 "PEER: " (dump_tail T m) = Some (end_text T (td_peer m, td_asn m)) /\
  value 1 "ORIGINATED: " (dump_tail T m) = Some (dec (td_time m)) /\
  under 1 "ATTRIBUTES:" (dump_tail T m) = map (attr_text T) (values (td_attrs m)) /\
  under 1 "WARNINGS:" (dump_tail T m) = map (warn_text T) (at_warnings (td_attrs m)).
Proof.
  split; [apply (value_here 1)|]. split.
  { refine (eq_trans (value_skip 1 "PEER: " [deep 1 (str "PREFIX: " ++ route_text T (td_prefix m))] _ _) (value_here 1 _ _ _)). repeat constructor. }
  split.
  { refine (eq_trans (value_skip 1 "ORIGINATED: " [deep 1 (str "PREFIX: " ++ route_text T (td_prefix m)); deep 1 (str "PEER: " ++ end_text T (td_peer m, td_asn m))] _ _) (value_here 1 _ _ _)). repeat constructor. }
  apply attrs_sections. repeat constructor; discriminate.
Qed.
Lemma sort_in_sorted x l : ~ In (fst x) (map fst l) -> StronglySorted (fun a b => fst a < fst b) l -> StronglySorted (fun a b => fst a < fst b) (sort_in x l).
Proof.
  intros N F. induction F as [|y l S IH H]; [repeat constructor|]. cbn [sort_in]. cbn [map In] in N. destruct (N.leb_spec (fst x) (fst y)) as [L|L].
  - constructor; [constructor; assumption|]. assert (fst x < fst y) by (assert (fst y <> fst x) by tauto; lia). constructor; [assumption|]. eapply Forall_impl; [|exact H]. cbn beta. intros z Z. lia.
  - constructor; [apply IH; tauto|]. eapply Permutation_Forall; [apply sort_in_perm|]. constructor; [exact L|exact H].
Qed.
Lemma sort_sorted l : NoDup (map fst l) -> StronglySorted (fun a b => fst a < fst b) (sort_peers l).
Proof.
  induction l as [|x l IH]; intros D; [constructor|]. cbn [map sort_peers] in *. apply NoDup_cons_iff in D. destruct D as [N D]. apply sort_in_sorted; [|exact (IH D)].
  intros I. apply N. eapply Permutation_in; [|exact I]. apply Permutation_map. symmetry. apply sort_perm.
Qed.
Lemma peers_read T r t : mr_msg r = MrtV2 (V2Peers t) -> NoDup (map fst (pt_peers t)) ->
  value 0 "PEER_INDEX_TABLE: " (lay T r) = Some (dec (nlen (pt_peers t)) ++ str " peers") /\
  exists l, Permutation (pt_peers t) l /\ StronglySorted (fun a b => fst a < fst b) l /\
    skipn 3 (lay T r) = map (fun x => deep 1 (str "PEER[" ++ dec (fst x) ++ str "]: " ++ end_text T (pe_ip (snd x), pe_asn (snd x)))) l.
Proof.
  intros M D. rewrite lay_context. unfold context, from_in, to_in, lay_body. rewrite M. cbn [lay_end lay_v2]. rewrite !app_nil_r. split.
  - rewrite value_skip by (repeat constructor). apply (value_here 0).
  - exists (sort_peers (pt_peers t)). split; [apply sort_perm|]. split; [apply sort_sorted, D|reflexivity].
Qed.

(** * Several records, and the hexadecimal line *)
Definition no_hex (x : bytes) : Prop := after (deep 1 (str "HEX: ")) x = None.
Lemma hex_sect d h l : after (str "HEX: ") (str h) = None -> Forall no_hex (sect 1 h l) /\ (d = 2%nat -> Forall no_hex (sect d h l)).
Proof.
  intros H. split; [apply sect_after; [exact H|discriminate|discriminate]|]. intros ->. destruct l as [|t l]; [constructor|]. unfold sect. constructor; [reflexivity|]. apply Forall_map, Forall_forall. reflexivity.
Qed.
Lemma hex_attrs1 T a : Forall no_hex (lay_attrs T 1 a).
Proof. unfold lay_attrs. apply Forall_app. split; refine (proj1 (hex_sect 1 _ _ _)); reflexivity. Qed.
Lemma hex_attrs2 T a : Forall no_hex (lay_attrs T 2 a).
Proof. unfold lay_attrs. apply Forall_app. split; refine (proj2 (hex_sect 2 _ _ _) eq_refl); reflexivity. Qed.
Lemma hex_msg T m : Forall no_hex (lay_msg T m).
Proof.
  destruct m as [o|u|n| |r]; cbn [lay_msg]; try (repeat constructor).
  - destruct (o_params o); [constructor|]. constructor; [reflexivity|]. apply Forall_map, Forall_forall. reflexivity.
  - unfold lay_update. repeat (apply Forall_app; split); try (refine (proj1 (hex_sect 1 _ _ _)); reflexivity); apply count_after; reflexivity.
Qed.
Lemma hex_lay T r : Forall no_hex (lay T r).
Proof.
  rewrite lay_context. apply Forall_app. split; [apply context_top_after|]. unfold lay_body. destruct (mr_msg r) as [m|l|[t|b| |t]|[m|m]|[m|m]]; cbn [lay_v2]; try apply hex_msg; try (repeat constructor).
  - apply hex_attrs1.
  - apply Forall_flat. intros m. repeat constructor. apply hex_attrs1.
  - apply Forall_map, Forall_forall. reflexivity.
  - apply Forall_flat. intros m. repeat constructor. apply hex_attrs2.
Qed.
Definition block (T : rtexts) (x : mrt_record * option bytes) : bytes :=
  match snd x with Some h => format_record_with_hex T (fst x) h | None => format_record T (fst x) end.
Definition block_lines' (T : rtexts) (x : mrt_record * option bytes) : list bytes :=
  lay T (fst x) ++ match snd x with Some h => [deep 1 (str "HEX: " ++ h)] | None => [] end.
Lemma block_unlines T x : block T x = unlines (block_lines' T x).
Proof.
  unfold block, block_lines'. destruct (snd x) as [h|]; [|rewrite app_nil_r; apply format_lines]. unfold format_record_with_hex. rewrite format_lines, unlines_ln, <- unlines_app. reflexivity.
Qed.
Lemma block_one T x : rtexts_ok T -> all_opt one_line (snd x) -> Forall one_line (block_lines' T x).
Proof.
  intros O H. unfold block_lines'. apply Forall_app. split; [apply one_lines, O|]. destruct (snd x); [|constructor]. constructor; [|constructor]. apply one_deep. apply one_app; [lit|exact H].
Qed.
Lemma block_read T x : rtexts_ok T -> all_opt one_line (snd x) -> lines (block T x) = block_lines' T x.
Proof. intros O F. rewrite block_unlines. apply lines_unlines, block_one; assumption. Qed.
Lemma hex_read T r h : rtexts_ok T -> one_line h ->
  lines (format_record_with_hex T r h) = lines (format_record T r) ++ [deep 1 (str "HEX: " ++ h)] /\
  value 1 "HEX: " (lines (format_record_with_hex T r h)) = Some h /\ value 1 "HEX: " (lines (format_record T r)) = None.
Proof.
  intros O H. pose proof (block_read T (r, Some h) O H) as E. unfold block, block_lines' in E. cbn [fst snd] in E. rewrite E, record_lines by assumption.
  split; [reflexivity|]. split; [|apply value_none, hex_lay]. rewrite value_skip by apply hex_lay. apply (value_here 1).
Qed.
Lemma block_head T x : exists t l, block_lines' T x = (str "TIME: " ++ t) :: l /\ Forall (fun y => begins "TIME: " y = false) l.
Proof.
  unfold block_lines'. rewrite lay_context. unfold context. exists (clock (mr_hdr (fst x))). eexists. split; [reflexivity|].
  assert (B : Forall (fun y => begins "TIME: " y = false) (lay_body T (fst x))).
  { eapply Forall_impl; [|apply (body_after T (fst x) "TIME: "); left; reflexivity]. intros y Y. unfold begins. rewrite Y. reflexivity. }
  assert (H : Forall (fun y => begins "TIME: " y = false) (match snd x with Some h => [deep 1 (str "HEX: " ++ h)] | None => [] end)) by (destruct (snd x); repeat constructor).
  destruct (from_in (fst x)), (to_in (fst x)); cbn [lay_end app]; repeat (apply Forall_cons; [reflexivity|]); apply Forall_app; split; assumption.
Qed.
Lemma blocks_read T xs : rtexts_ok T -> Forall (fun x => all_opt one_line (snd x)) xs ->
  parts (begins "TIME: ") (lines (List.concat (map (block T) xs))) = map (fun x => tl (lines (block T x))) xs /\
  lines (List.concat (map (block T) xs)) = flat_map (fun x => lines (block T x)) xs.
Proof.
  intros O F. assert (E : lines (List.concat (map (block T) xs)) = flat_map (block_lines' T) xs).
  { rewrite <- flat_map_concat_map, (unlines_concat _ (block_lines' T)) by (intros; apply block_unlines). apply lines_unlines. clear - O F. induction F as [|x xs X F IH]; [constructor|]. cbn [flat_map]. apply Forall_app. split; [apply block_one; assumption|exact IH]. }
  rewrite E. split.
  - assert (G : flat_map (block_lines' T) xs = flat_map (fun x => hd [] (block_lines' T x) :: tl (block_lines' T x)) xs).
    { apply flat_map_ext. intros x. destruct (block_head T x) as (t & l & -> & _). reflexivity. }
    rewrite G, (parts_flat (begins "TIME: ") (fun x => hd [] (block_lines' T x)) (fun x => tl (block_lines' T x))).
    + clear E G. induction F as [|x xs X F IH]; [reflexivity|]. cbn [map]. rewrite IH, (block_read T x O X). reflexivity.
    + apply Forall_forall. intros x _. destruct (block_head T x) as (t & l & -> & H). cbn [hd tl]. split; [|exact H]. unfold begins. rewrite after_app. reflexivity.
  - clear E. induction F as [|x xs X F IH]; [reflexivity|]. cbn [flat_map]. rewrite IH, (block_read T x O X). reflexivity.
Qed.
