(** Proofs about RIS Live messages. *)
From Coq Require Import String Floats.SpecFloat Lia ZifyBool ZifyNat ZifyN.
From Verif Require Import Tac Base BaseFacts Reader Net AsPath Community Nlri Attr AttrSpec AttrFacts BgpMsg MsgFacts Elem ElemSpec ElemFacts Text Filter TextDump TextDumpSpec TextRowsFacts Json JsonFacts Framing MrtRecord Bmp RisLive RisLiveSpec.

(** * Fields *)
Lemma key_none k l : jget k l = None <-> ~ In k (map fst l).
Proof.
  induction l as [|[k' j] l IH]; cbn [jget map fst In]; [tauto|]. destruct (bytes_eqb k' k) eqn:E.
  - apply bytes_eqb_eq in E. split; [discriminate|intros H; elim H; auto].
  - rewrite IH. split; [intros H [D|D]; [subst; rewrite bytes_eqb_refl in E; discriminate|auto]|tauto].
Qed.
Lemma count_none k l : ~ In k (map fst l) -> key_count k l = 0%nat.
Proof.
  unfold key_count. induction l as [|[k' j] l IH]; cbn [List.filter map fst In]; intros H; [reflexivity|]. destruct (bytes_eqb k' k) eqn:E.
  - apply bytes_eqb_eq in E. elim H. auto.
  - apply IH. tauto.
Qed.
Lemma count_zero k l : key_count k l = 0%nat -> ~ In k (map fst l).
Proof.
  unfold key_count. induction l as [|[k' j] l IH]; cbn [List.filter map fst In]; intros H; [tauto|]. destruct (bytes_eqb k' k) eqn:E; [discriminate|].
  intros [D|D]; [subst; rewrite bytes_eqb_refl in E; discriminate|elim (IH H D)].
Qed.
Lemma count_app k a b : key_count k (a ++ b) = (key_count k a + key_count k b)%nat.
Proof. unfold key_count. rewrite filter_app, app_length. reflexivity. Qed.
Lemma get_once k l j : (key_count k l <= 1)%nat /\ jget k l = Some j <-> exists a b, l = a ++ (k, j) :: b /\ ~ In k (map fst (a ++ b)).
Proof.
  split.
  - intros [C G]. revert C. induction l as [|[k' j'] l IH]; cbn [jget] in G; [discriminate|]. destruct (bytes_eqb k' k) eqn:E; intros C.
    + injection G as ->. apply bytes_eqb_eq in E. subst k'. exists [], l. split; [reflexivity|]. cbn [app]. apply count_zero.
      unfold key_count in C |- *. cbn [List.filter fst] in C. rewrite bytes_eqb_refl in C. cbn [length] in C. lia.
    + destruct IH as (a & b & -> & N); auto.
      { unfold key_count in C |- *. cbn [List.filter fst] in C. rewrite E in C. exact C. }
      exists ((k', j') :: a), b. split; [reflexivity|]. cbn [app map fst In]. intros [D|D]; [subst; rewrite bytes_eqb_refl in E; discriminate|auto].
  - intros (a & b & -> & N). rewrite map_app, in_app_iff in N. split.
    + rewrite count_app, (count_none k a) by tauto. change ((k, j) :: b) with ([(k, j)] ++ b). rewrite count_app, (count_none k b) by tauto.
      unfold key_count. cbn [List.filter fst]. rewrite bytes_eqb_refl. cbn. lia.
    + induction a as [|[k' j'] a IH]; cbn [app jget]; [rewrite bytes_eqb_refl; reflexivity|]. cbn [map fst In] in N. destruct (bytes_eqb k' k) eqn:E; [apply bytes_eqb_eq in E; tauto|]. apply IH. tauto.
Qed.
Definition single (l : list (bytes * json)) (k : string) : Prop := (key_count (str k) l <= 1)%nat.
Lemma object_iff names j l : de_object names j = Some l <-> j = JObject l /\ Forall (single l) names.
Proof.
  unfold de_object. destruct j; try (split; [discriminate|intros [D _]; discriminate]).
  destruct (forallb (fun k => Nat.leb (key_count (str k) l0) 1) names) eqn:E.
  - rewrite forallb_forall in E. split; [intros [= <-]; split; auto; apply Forall_forall; intros k K; apply Nat.leb_le, E, K|intros [[= ->] _]; reflexivity].
  - split; [discriminate|]. intros [[= ->] F]. exfalso. assert (X : forallb (fun k => Nat.leb (key_count (str k) l) 1) names = true); [|congruence].
    apply forallb_forall. intros k K. apply Nat.leb_le. rewrite Forall_forall in F. apply (F k K).
Qed.
Lemma must_iff {A} (f : json -> option A) (R : json -> A -> Prop) l k a : (forall j a, f j = Some a <-> R j a) -> (single l k /\ field k f l = Some a <-> must R l k a).
Proof.
  intros F. unfold must, once, field, single. split.
  - intros [S H]. apply obind_inv in H. destruct H as (j & G & H). exists j. split; [apply get_once; auto|apply F, H].
  - intros (j & G & H). apply get_once in G as [S G]. rewrite G. split; [exact S|]. cbn [obind]. apply F, H.
Qed.
Lemma maybe_iff {A} (f : json -> option A) (R : json -> A -> Prop) l k o : (forall j a, f j = Some a <-> R j a) -> f JNull = None ->
  (single l k /\ opt_field k f l = Some o <-> maybe R l k o).
Proof.
  intros F Z. unfold maybe, must, once, lacks, opt_field, single. destruct (jget (str k) l) as [j|] eqn:G.
  - split.
    + intros [S H]. assert (O : exists a b, l = a ++ (str k, j) :: b /\ ~ In (str k) (map fst (a ++ b))) by (apply get_once; auto). unfold de_option in H.
      destruct j; try (injection H as <-; auto; fail); apply obind_inv in H; destruct H as (v & V & H); injection H as <-; (eexists; split; [exact O|apply F, V]).
    + destruct o as [v|].
      * intros (j' & G' & H). apply get_once in G' as [S G']. rewrite G in G'. injection G' as <-. split; [exact S|]. apply F in H. unfold de_option. destruct j; try (rewrite H; reflexivity). congruence.
      * intros [L|G']; [apply key_none in L; congruence|]. apply get_once in G' as [S G']. rewrite G in G'. injection G' as ->. split; [exact S|reflexivity].
  - split.
    + intros [S [= <-]]. left. apply key_none, G.
    + destruct o as [v|].
      * intros (j' & G' & H). apply get_once in G' as [S G']. congruence.
      * intros [L|G']; [|apply get_once in G' as [S G']; congruence]. split; [rewrite count_none by exact L; lia|reflexivity].
Qed.
Lemma list_iff {A} (f : json -> option A) (R : json -> A -> Prop) j l : (forall j a, f j = Some a <-> R j a) -> (de_list f j = Some l <-> is_list R j l).
Proof.
  intros F. unfold is_list. assert (G : forall js l, all_of f js = Some l <-> Forall2 R js l).
  { intros js. induction js as [|x js IH]; intros l'; cbn [all_of].
    - split; [intros [= <-]; constructor|intros H; inversion H; reflexivity].
    - split.
      + intros H. apply obind_inv in H. destruct H as (b & B & H). apply obind_inv in H. destruct H as (bs & Bs & H). injection H as <-. constructor; [apply F, B|apply IH, Bs].
      + intros H. inversion H as [|? b ? bs B Bs]; subst. apply F in B. apply IH in Bs. rewrite B. cbn [obind]. rewrite Bs. reflexivity. }
  destruct j; try (split; [discriminate|intros (js & D & _); discriminate]). cbn [de_list]. rewrite G. split; [eauto|intros (js & [= ->] & H); exact H].
Qed.
Lemma text_iff j s : de_text j = Some s <-> is_text j s.
Proof. unfold is_text. destruct j; cbn [de_text]; split; congruence. Qed.
Lemma u_iff b j n : de_num b j = Some n <-> is_u b j n.
Proof. unfold is_u. destruct j; cbn [de_num]; try (split; [discriminate|intros [D _]; discriminate]). destruct (n0 <? b) eqn:E; split; try discriminate; [intros [= <-]; split; auto; lia|intros [[= ->] _]; reflexivity|intros [[= ->] H]; lia]. Qed.
Lemma number_iff j f : de_f64 j = Some f <-> is_number j f.
Proof. unfold is_number. destruct j; cbn [de_f64]; split; try discriminate; try (intros [D|(n' & D & _)]; discriminate); [intros [= <-]; eauto|intros [D|(n' & [= ->] & ->)]; [discriminate|reflexivity]|intros [= <-]; auto|intros [[= ->]|(n' & D & _)]; [reflexivity|discriminate]]. Qed.
Lemma ip_iff ps j i : de_ip ps j = Some i <-> is_ip ps j i.
Proof. unfold is_ip, de_ip. destruct j; cbn [de_text obind]; split; try discriminate; try (intros (s' & D & _); discriminate); [intros H; eauto|intros (s' & [= ->] & H); exact H]. Qed.
Lemma asn_iff j a : de_asn_text j = Some a <-> is_asn_text j a.
Proof. unfold is_asn_text, de_asn_text. destruct j; cbn [de_text obind]; split; try discriminate; try (intros (s' & D & _); discriminate); [intros H; eauto|intros (s' & [= ->] & H); exact H]. Qed.
Lemma pair_iff j p : de_pair j = Some p <-> is_pair j p.
Proof.
  unfold is_pair. split.
  - unfold de_pair. destruct j as [| | | | | |[|x [|y [|z w]]]|]; try discriminate. intros H. apply obind_inv in H. destruct H as (a & A & H). apply obind_inv in H. destruct H as (b & B & H).
    injection H as <-. apply u_iff in A as [-> A], B as [-> B]. auto.
  - intros (-> & A & B). destruct p as [a b]. cbn [fst snd] in *. cbn [de_pair]. rewrite !de_num_ok by assumption. reflexivity.
Qed.
Lemma announcement_iff ps j a : de_announcement ps j = Some a <-> is_announcement_of ps j a.
Proof.
  unfold is_announcement_of, de_announcement. split.
  - intros H. apply obind_inv in H. destruct H as (l & O & H). apply object_iff in O as [-> S]. inversion S as [|? ? S1 S']; subst. inversion S' as [|? ? S2 _]; subst.
    apply obind_inv in H. destruct H as (h & E1 & H). apply obind_inv in H. destruct H as (p & E2 & H). injection H as <-. exists l. split; auto. cbn [an_hop an_prefixes]. split.
    + apply (must_iff (de_ip ps)); [apply ip_iff|auto].
    + apply (must_iff (de_list de_text)); [intros; apply list_iff, text_iff|auto].
  - intros (l & -> & M1 & M2). apply (must_iff (de_ip ps)) in M1 as [S1 E1]; [|apply ip_iff]. apply (must_iff (de_list de_text)) in M2 as [S2 E2]; [|intros; apply list_iff, text_iff].
    assert (O : de_object ["next_hop"; "prefixes"]%string (JObject l) = Some l) by (apply object_iff; auto). rewrite O. cbn [obind]. rewrite E1. cbn [obind]. rewrite E2. cbn [obind]. destruct a; reflexivity.
Qed.

(** * Documents *)
Lemma update_iff ps d u : de_update ps (JObject d) = Some u <->
  maybe is_path d "path" (ru_path u) /\ maybe (is_list is_pair) d "community" (ru_comms u) /\ maybe is_text d "origin" (ru_origin u) /\
  maybe (is_u (2 ^ 32)) d "med" (ru_med u) /\ maybe is_text d "aggregator" (ru_aggr u) /\
  maybe (is_list (is_announcement_of ps)) d "announcements" (ru_ann u) /\ maybe (is_list is_text) d "withdrawals" (ru_wd u).
Proof.
  rewrite <- (maybe_iff de_path is_path) by (reflexivity || (intros; reflexivity)). rewrite <- (maybe_iff (de_list de_pair)) by (reflexivity || (intros; apply list_iff, pair_iff)).
  rewrite <- (maybe_iff de_text is_text d "origin") by (reflexivity || apply text_iff). rewrite <- (maybe_iff (de_num (2 ^ 32))) by (reflexivity || apply u_iff).
  rewrite <- (maybe_iff de_text is_text d "aggregator") by (reflexivity || apply text_iff).
  rewrite <- (maybe_iff (de_list (de_announcement ps))) by (reflexivity || (intros; apply list_iff, announcement_iff)).
  rewrite <- (maybe_iff (de_list de_text)) by (reflexivity || (intros; apply list_iff, text_iff)).
  unfold de_update. split.
  - intros H. apply obind_inv in H. destruct H as (l & O & H). apply object_iff in O as [[= <-] S].
    repeat (apply obind_inv in H; let E := fresh "E" in destruct H as (? & E & H)). injection H as <-. cbn [ru_path ru_comms ru_origin ru_med ru_aggr ru_ann ru_wd].
    unfold update_fields in S. repeat (match goal with H : Forall _ (_ :: _) |- _ => inversion H; clear H; subst end). tauto.
  - intros ((S1 & E1) & (S2 & E2) & (S3 & E3) & (S4 & E4) & (S5 & E5) & (S6 & E6) & (S7 & E7)).
    assert (O : de_object update_fields (JObject d) = Some d) by (apply object_iff; split; auto; repeat (constructor; auto)).
    rewrite O. cbn [obind]. rewrite E1. cbn [obind]. rewrite E2. cbn [obind]. rewrite E3. cbn [obind]. rewrite E4. cbn [obind]. rewrite E5. cbn [obind]. rewrite E6. cbn [obind]. rewrite E7. destruct u; reflexivity.
Qed.
Definition others (d : list (bytes * json)) := List.filter (fun x => negb (is_field message_fields (fst x))) d.
Lemma others_count d k : is_field message_fields (str k) = false -> key_count (str k) (others d) = key_count (str k) d.
Proof.
  intros F. unfold key_count, others. induction d as [|[k' j] d IH]; [reflexivity|]. cbn [List.filter fst]. destruct (bytes_eqb k' (str k)) eqn:E.
  - apply bytes_eqb_eq in E. subst k'. rewrite F. cbn [negb List.filter fst]. rewrite bytes_eqb_refl. cbn [length]. rewrite IH. reflexivity.
  - destruct (is_field message_fields k'); cbn [negb List.filter fst]; [|rewrite E]; exact IH.
Qed.
Lemma others_get d k : is_field message_fields (str k) = false -> jget (str k) (others d) = jget (str k) d.
Proof.
  intros F. unfold others. induction d as [|[k' j] d IH]; [reflexivity|]. cbn [List.filter fst jget]. destruct (bytes_eqb k' (str k)) eqn:E.
  - apply bytes_eqb_eq in E. subst k'. rewrite F. cbn [negb List.filter fst jget]. rewrite bytes_eqb_refl. reflexivity.
  - destruct (is_field message_fields k'); cbn [negb List.filter fst jget]; [|rewrite E]; exact IH.
Qed.
Lemma others_maybe {A} (R : json -> A -> Prop) d k o : is_field message_fields (str k) = false -> (maybe R (others d) k o <-> maybe R d k o).
Proof.
  intros F. assert (O : forall j, once (others d) k j <-> once d k j) by (intros j; unfold once; rewrite <- !get_once, others_count, others_get by exact F; reflexivity).
  assert (L : lacks (others d) k <-> lacks d k) by (unfold lacks; rewrite <- !key_none, others_get by exact F; reflexivity).
  unfold maybe, must. destruct o; [|rewrite L, O; reflexivity]. split; intros (j & H & X); exists j; (split; [apply O, H|exact X]).
Qed.
Lemma others_once d k j : is_field message_fields (str k) = false -> (once (others d) k j <-> once d k j).
Proof. intros F. unfold once; rewrite <- !get_once, others_count, others_get by exact F; reflexivity. Qed.
Lemma body_iff ps d u : de_body ps (others d) = Some (BodyUpdate u) <-> about_update ps d u.
Proof.
  unfold about_update, de_body. rewrite <- !(others_once d "type") by reflexivity.
  rewrite <- !(others_maybe _ d "path"), <- !(others_maybe _ d "community"), <- !(others_maybe _ d "origin"), <- !(others_maybe _ d "med"), <- !(others_maybe _ d "aggregator"), <- !(others_maybe _ d "announcements"), <- !(others_maybe _ d "withdrawals") by reflexivity.
  rewrite <- update_iff. set (o := others d).
  assert (V : forall j, de_variant j = Some 0 <-> j = JText (str "UPDATE") \/ j = JNum 0).
  { intros j. split; [|intros [-> | ->]; reflexivity]. destruct j; try discriminate.
    - cbn [de_variant]. destruct (n <? 5); [|discriminate]. intros [= ->]. auto.
    - cbn [de_variant]. intros H. apply find_some in H. destruct H as [_ H]. apply bytes_eqb_eq in H. subst s. auto. }
  split.
  - intros H. apply obind_inv in H. destruct H as (l & O & H). apply object_iff in O as [[= <-] S]. inversion S as [|? ? S1 _]; subst. apply obind_inv in H. destruct H as (t & T & H).
    destruct (N.eqb_spec t 0) as [->|]; [|discriminate]. apply obind_inv in H. destruct H as (u' & U & H). injection H as ->. split; [|exact U].
    unfold field in T. apply obind_inv in T. destruct T as (j & G & T). assert (K : once o "type" j) by (apply get_once; auto). apply V in T. destruct T as [-> | ->]; auto.
  - intros [K U]. assert (E : exists j, once o "type" j /\ de_variant j = Some 0) by (destruct K; eexists; (split; [eassumption|reflexivity])). destruct E as (j & G & E). apply get_once in G as [S G].
    assert (O : de_object ["type"]%string (JObject o) = Some o) by (apply object_iff; auto). rewrite O. cbn [obind]. unfold field. rewrite G. cbn [obind]. rewrite E. cbn [obind N.eqb]. rewrite U. reflexivity.
Qed.
Lemma message_iff ps d m : de_ris_message ps (JObject d) = Some m <->
  must is_number d "timestamp" (rm_time m) /\ must (is_ip ps) d "peer" (rm_peer m) /\ must is_asn_text d "peer_asn" (rm_asn m) /\
  must is_text d "id" (rm_id m) /\ maybe is_text d "raw" (rm_raw m) /\ must is_text d "host" (rm_host m) /\ rm_body m = de_body ps (others d).
Proof.
  rewrite <- (must_iff de_f64 is_number) by apply number_iff. rewrite <- (must_iff (de_ip ps)) by apply ip_iff. rewrite <- (must_iff de_asn_text) by apply asn_iff.
  rewrite <- (must_iff de_text is_text d "id") by apply text_iff. rewrite <- (maybe_iff de_text is_text) by (reflexivity || apply text_iff). rewrite <- (must_iff de_text is_text d "host") by apply text_iff.
  unfold de_ris_message. split.
  - intros H. apply obind_inv in H. destruct H as (l & O & H). apply object_iff in O as [[= <-] S].
    repeat (apply obind_inv in H; let E := fresh "E" in destruct H as (? & E & H)). injection H as <-. cbn [rm_time rm_peer rm_asn rm_id rm_raw rm_host rm_body].
    unfold message_fields in S. repeat (match goal with H : Forall _ (_ :: _) |- _ => inversion H; clear H; subst end). tauto.
  - intros ((S1 & E1) & (S2 & E2) & (S3 & E3) & (S4 & E4) & (S5 & E5) & (S6 & E6) & B).
    assert (O : de_object message_fields (JObject d) = Some d) by (apply object_iff; split; auto; repeat (constructor; auto)).
    rewrite O. cbn [obind]. rewrite E1. cbn [obind]. rewrite E2. cbn [obind]. rewrite E3. cbn [obind]. rewrite E4. cbn [obind]. rewrite E5. cbn [obind]. rewrite E6. cbn [obind]. fold (others d). rewrite <- B. destruct m; reflexivity.
Qed.
Lemma message_object ps j m : de_ris_message ps j = Some m -> exists d, j = JObject d.
Proof. unfold de_ris_message. intros H. apply obind_inv in H. destruct H as (l & O & _). apply object_iff in O as [-> _]. eauto. Qed.
Lemma live_iff ps j m : de_ris_live ps j = Some (LiveMessage m) <-> exists d, envelope ps j d m /\ rm_body m = de_body ps (others d).
Proof.
  unfold envelope. split.
  - unfold de_ris_live. intros H. apply obind_inv in H. destruct H as (l & O & H). apply object_iff in O as [-> S]. inversion S as [|? ? S1 S']; subst. inversion S' as [|? ? S2 _]; subst.
    apply obind_inv in H. destruct H as (t & T & H).
    destruct (bytes_eqb t (str "ris_message")) eqn:E.
    + apply bytes_eqb_eq in E. subst t. apply obind_inv in H. destruct H as (m' & M & H). injection H as ->. unfold field in M. apply obind_inv in M. destruct M as (j & G & M).
      destruct (message_object _ _ _ M) as (d & ->). exists d. apply message_iff in M. split; [|tauto]. exists l. split; auto. split; [apply (must_iff de_text); [apply text_iff|auto]|]. split; [apply get_once; auto|tauto].
    + repeat match type of H with (if ?c then _ else _) = _ => destruct c end; try discriminate; apply obind_inv in H; destruct H as (? & _ & H); discriminate.
  - intros (d & (l & -> & T & G & X) & B). apply (must_iff de_text) in T as [S1 T]; [|apply text_iff]. apply get_once in G as [S2 G].
    assert (O : de_object ["type"; "data"]%string (JObject l) = Some l) by (apply object_iff; auto). unfold de_ris_live. rewrite O. cbn [obind]. rewrite T. cbn [obind]. rewrite bytes_eqb_refl.
    assert (M : de_ris_message ps (JObject d) = Some m) by (apply message_iff; tauto). unfold field. rewrite G. cbn [obind]. rewrite M. reflexivity.
Qed.
Lemma once_unique l k j j' : once l k j -> once l k j' -> j = j'.
Proof. intros O O'. apply get_once in O as [_ O], O' as [_ O']. congruence. Qed.
(** A document determines its message, but for what it is about. *)
Definition with_body (m : ris_message) (b : option ris_body) : ris_message :=
  RisMessage (rm_time m) (rm_peer m) (rm_asn m) (rm_id m) (rm_raw m) (rm_host m) b.
Lemma envelope_read ps j d m : envelope ps j d m -> de_ris_live ps j = Some (LiveMessage (with_body m (de_body ps (others d)))).
Proof. intros E. apply live_iff. exists d. split; [exact E|reflexivity]. Qed.

(** * Elements *)
Lemma origin_iff s o : ris_origin (Some s) = ROk (Some o) <-> origin_text s o.
Proof.
  unfold ris_origin. split.
  - destruct (bytes_eqb s (str "igp")) eqn:E1; [apply bytes_eqb_eq in E1; subst; cbn [orb]; intros [= <-]; constructor|].
    destruct (bytes_eqb s (str "IGP")) eqn:E2; [apply bytes_eqb_eq in E2; subst; cbn [orb]; intros [= <-]; constructor|].
    destruct (bytes_eqb s (str "egp")) eqn:E3; [apply bytes_eqb_eq in E3; subst; cbn [orb]; intros [= <-]; constructor|].
    destruct (bytes_eqb s (str "EGP")) eqn:E4; [apply bytes_eqb_eq in E4; subst; cbn [orb]; intros [= <-]; constructor|].
    destruct (bytes_eqb s (str "incomplete")) eqn:E5; [apply bytes_eqb_eq in E5; subst; cbn [orb]; intros [= <-]; constructor|].
    destruct (bytes_eqb s (str "INCOMPLETE")) eqn:E6; [apply bytes_eqb_eq in E6; subst; cbn [orb]; intros [= <-]; constructor|]. discriminate.
  - intros []; reflexivity.
Qed.
Lemma origin_cases t : (exists o, ris_origin t = ROk o /\ origin_of t o) \/ (exists s, t = Some s /\ (forall o, ~ origin_text s o) /\ ris_origin t = RErr (RUnknownOrigin s)).
Proof.
  destruct t as [s|]; [|left; exists None; split; [reflexivity|exact I]].
  assert (D : (exists o, ris_origin (Some s) = ROk (Some o)) \/ ris_origin (Some s) = RErr (RUnknownOrigin s)).
  { unfold ris_origin. repeat match goal with |- context [if ?c then _ else _] => destruct c end; eauto. }
  destruct D as [(o & E)|E]; [left; exists (Some o); split; [exact E|apply origin_iff, E]|right; exists s; split; auto; split; auto].
  intros o O. apply origin_iff in O. congruence.
Qed.
Lemma origin_one t o o' : origin_of t o -> origin_of t o' -> o = o'.
Proof. destruct t as [s|], o as [o|], o' as [o'|]; cbn; try tauto. intros O O'. apply origin_iff in O, O'. congruence. Qed.
Lemma colon_inv x y x' y' : x ++ 58 :: y = x' ++ 58 :: y' -> ~ In 58 x -> ~ In 58 x' -> x = x' /\ y = y'.
Proof.
  revert x'. induction x as [|c x IH]; intros [|c' x'] E N N'; cbn [app In] in *.
  - injection E as ->. auto.
  - injection E as <- _. elim N'. auto.
  - injection E as -> _. elim N. auto.
  - injection E as -> E. destruct (IH x' E) as [-> ->]; tauto.
Qed.
Lemma aggregator_cases ps t : (exists g, ris_aggregator ps t = ROk g /\ aggregator_of ps t g) \/
  (exists s, t = Some s /\ ~ In 58 s /\ ris_aggregator ps t = RErr (RIncorrectAggregator s)) \/
  (exists s, t = Some s /\ In 58 s /\ (forall g, ~ aggregator_of ps (Some s) g) /\ ris_aggregator ps t = RErr RIncorrectJson).
Proof.
  destruct t as [s|]; [|left; exists None; split; [reflexivity|exact I]]. unfold ris_aggregator. destruct (split_once [58] s) as [[x y]|] eqn:E.
  - assert (X : s = x ++ 58 :: y) by (apply split_once_inv in E; exact E).
    assert (NX : ~ In 58 x).
    { intros K. apply in_split in K. destruct K as (a & b & ->). subst s. revert E.
      assert (F : forall a r, exists a', split_once [58] (a ++ 58 :: r) = Some a' /\ (length (fst a') <= length a)%nat).
      { clear. intros a r. induction a as [|c a IH]; cbn [app]; [eexists; split; [reflexivity|cbn; lia]|]. cbn [split_once]. destruct (strip_prefix [58] (c :: a ++ 58 :: r)) as [z|]; [eexists; split; [reflexivity|cbn; lia]|].
        destruct IH as ([p q] & -> & L). eexists. split; [reflexivity|]. cbn [fst length] in *. lia. }
      rewrite <- app_assoc. cbn [app]. destruct (F a (b ++ 58 :: y)) as (z & -> & L). intros [= ->]. cbn [fst] in L. rewrite app_length in L. cbn [length] in L. lia. }
    destruct (parse_asn x) as [a|] eqn:A; [destruct (ps_ip4 ps y) as [i|] eqn:I4|].
    + left. eexists. split; [reflexivity|]. exists x, y. auto.
    + right; right. exists s. split; auto. split; [subst s; apply in_or_app; right; left; reflexivity|]. split; auto. intros [[a' i']|]; cbn; auto. intros (x' & y' & X' & N' & A' & I').
      rewrite X in X'. apply colon_inv in X' as [-> ->]; auto. congruence.
    + right; right. exists s. split; auto. split; [subst s; apply in_or_app; right; left; reflexivity|]. split; auto. intros [[a' i']|]; cbn; auto. intros (x' & y' & X' & N' & A' & I').
      rewrite X in X'. apply colon_inv in X' as [-> ->]; auto. congruence.
  - right; left. exists s. split; auto. split; auto. intros K. apply (split_once_occurs [58] s); [|exact E]. apply in_split in K. destruct K as (a & b & ->). exists a, b. reflexivity.
Qed.
Lemma aggregator_one ps t g g' : aggregator_of ps t g -> aggregator_of ps t g' -> g = g'.
Proof.
  destruct t as [s|], g as [[a i]|], g' as [[a' i']|]; cbn; try tauto. intros (x & y & -> & N & A & I') (x' & y' & E & N' & A' & I''). apply colon_inv in E as [-> ->]; auto. congruence.
Qed.
(** The loops. *)
Definition bad_prefix (ps : parsers) (l : list bytes) (e : ris_err) : Prop :=
  exists a s b, l = a ++ s :: b /\ Forall (fun t => ps_net ps t <> None) a /\ ps_net ps s = None /\ e = if bytes_eqb s (str "eor") then REndOfRib else RIncorrectPrefix s.
Lemma each_cases {A} (f : ipnet -> A) ps l :
  (exists ns, Forall2 (fun s n => ps_net ps s = Some n) l ns /\ ris_each f ps l = ROk (map f ns)) \/ (exists e, bad_prefix ps l e /\ ris_each f ps l = RErr e).
Proof.
  induction l as [|s l IH]; cbn [ris_each]; [left; exists []; split; [constructor|reflexivity]|]. unfold ris_prefix. destruct (ps_net ps s) as [n|] eqn:E.
  - cbn [rrbind]. destruct IH as [(ns & F & ->)|(e & (a & t & b & -> & Fa & T & ->) & ->)]; cbn [rrbind].
    + left. exists (n :: ns). split; [constructor; auto|reflexivity].
    + right. eexists. split; [|reflexivity]. exists (s :: a), t, b. split; [reflexivity|]. split; [constructor; auto; congruence|auto].
  - right. exists (if bytes_eqb s (str "eor") then REndOfRib else RIncorrectPrefix s). split; [exists [], s, l; auto|]. destruct (bytes_eqb s (str "eor")); reflexivity.
Qed.
Lemma bad_app ps a b e : Forall (fun t => ps_net ps t <> None) a -> bad_prefix ps b e -> bad_prefix ps (a ++ b) e.
Proof. intros F (x & s & y & -> & Fx & S & E). exists (a ++ x), s, y. split; [rewrite <- app_assoc; reflexivity|]. split; [apply Forall_app; auto|auto]. Qed.
Lemma bad_more ps a b e : bad_prefix ps a e -> bad_prefix ps (a ++ b) e.
Proof. intros (x & s & y & -> & X). exists x, s, (y ++ b). split; [rewrite <- app_assoc; reflexivity|exact X]. Qed.
Lemma readable ps l ns : Forall2 (fun s n => ps_net ps s = Some n) l ns -> Forall (fun t => ps_net ps t <> None) l.
Proof. induction 1; constructor; auto. congruence. Qed.
Definition hops (l : list announcement) : list (ip * bytes) := flat_map (fun a => map (pair (an_hop a)) (an_prefixes a)) l.
Lemma hops_texts a : map snd (map (pair (an_hop a)) (an_prefixes a)) = an_prefixes a.
Proof. rewrite map_map. apply map_id. Qed.
Lemma announced_cases mk ps l :
  (exists ns, Forall2 (fun x n => ps_net ps (snd x) = Some n) (hops l) ns /\ ris_announced mk ps l = ROk (map (fun x => mk (fst (fst x)) (snd x)) (combine (hops l) ns))) \/
  (exists e, bad_prefix ps (map snd (hops l)) e /\ ris_announced mk ps l = RErr e).
Proof.
  induction l as [|a l IH]; cbn [ris_announced]; [left; exists []; split; [constructor|reflexivity]|].
  unfold hops in *. cbn [flat_map]. rewrite map_app, hops_texts.
  destruct (each_cases (mk (an_hop a)) ps (an_prefixes a)) as [(ns & F & ->)|(e & B & ->)]; cbn [rrbind]; [|right; exists e; split; [apply bad_more, B|reflexivity]].
  destruct IH as [(ms & G & ->)|(e & B & ->)]; cbn [rrbind].
  - left. exists (ns ++ ms). assert (F' : Forall2 (fun x n => ps_net ps (snd x) = Some n) (map (pair (an_hop a)) (an_prefixes a)) ns) by (clear - F; induction F; cbn [map]; constructor; auto).
    split; [apply Forall2_app; auto|]. f_equal. assert (C : forall (A B : Type) (p q : list A) (r s : list B), length p = length r -> combine (p ++ q) (r ++ s) = combine p r ++ combine q s).
    { clear. induction p as [|x p IH]; intros q [|y r] s E; cbn in *; try discriminate; auto. rewrite IH by lia. reflexivity. }
    rewrite C by (clear - F'; induction F'; cbn; auto). rewrite map_app. f_equal. clear - F. induction F; cbn [map combine]; [reflexivity|]. f_equal. auto.
  - right. exists e. split; [apply bad_app; auto; eapply readable; eauto|reflexivity].
Qed.
Lemma update_outcome ps m u : outcome ps m u (ris_update_elems ps m u).
Proof.
  unfold ris_update_elems. destruct (origin_cases (ru_origin u)) as [(o & -> & O)|(s & S & N & ->)]; cbn [rrbind]; [|apply out_origin; auto].
  destruct (aggregator_cases ps (ru_aggr u)) as [(g & -> & G)|[(s & S & N & ->)|(s & S & K & N & ->)]]; cbn [rrbind]; [|eapply out_no_colon; eauto|eapply out_aggregator; eauto].
  assert (B : forall e, bad_prefix ps (prefix_texts u) e -> outcome ps m u (RErr e)).
  { intros e (a & s & b & E & F & Z & ->). destruct (bytes_eqb s (str "eor")) eqn:Q; [apply bytes_eqb_eq in Q; eapply out_eor; eauto|eapply out_prefix; eauto]. intros ->. rewrite bytes_eqb_refl in Q. discriminate. }
  assert (HA : announced u = hops (or_nil (ru_ann u))) by (unfold announced, hops, or_nil; destruct (ru_ann u); reflexivity).
  assert (HW : withdrawn u = or_nil (ru_wd u)) by reflexivity. unfold prefix_texts in B. rewrite HA, HW in B.
  set (mk := fun (h : ip) (n : ipnet) => _).
  destruct (announced_cases mk ps (or_nil (ru_ann u))) as [(ns & F & ->)|(e & X & ->)]; cbn [rrbind]; [|apply B, bad_more, X].
  set (mw := fun (n : ipnet) => _).
  destruct (each_cases mw ps (or_nil (ru_wd u))) as [(ms & F' & ->)|(e & X & ->)]; cbn [rrbind].
  - apply (out_elems ps m u o g); auto.
    + rewrite HA. clear - F. induction F as [|x n l ns H F IH]; cbn [combine map]; constructor; auto. unfold announces, from_message. cbn. repeat split. exists n. auto.
    + rewrite HW. clear - F'. induction F' as [|s n l ns H F IH]; cbn [map]; constructor; auto. unfold withdraws, from_message, bare. cbn. repeat split. exists n. auto.
  - apply B, bad_app; auto. clear - F. induction F; cbn [map]; constructor; auto. congruence.
Qed.
Lemma announces_one ps m u o g x e e' : announces ps m u o g x e -> announces ps m u o g x e' -> e = e'.
Proof.
  unfold announces, from_message. destruct e, e'. cbn. intros ((A1 & A2 & A3 & A4) & A5 & (n & A6 & A7) & A8) ((B1 & B2 & B3 & B4) & B5 & (n' & B6 & B7) & B8).
  repeat match goal with H : _ /\ _ |- _ => destruct H end. assert (n = n') by congruence. subst. reflexivity.
Qed.
Lemma withdraws_one ps m s e e' : withdraws ps m s e -> withdraws ps m s e' -> e = e'.
Proof.
  unfold withdraws, from_message, bare. destruct e, e'. cbn. intros ((A1 & A2 & A3 & A4) & A5 & (n & A6 & A7) & A8) ((B1 & B2 & B3 & B4) & B5 & (n' & B6 & B7) & B8).
  repeat match goal with H : _ /\ _ |- _ => destruct H end. assert (n = n') by congruence. subst. reflexivity.
Qed.
Lemma Forall2_one {A B} (R : A -> B -> Prop) l r r' : (forall a b b', R a b -> R a b' -> b = b') -> Forall2 R l r -> Forall2 R l r' -> r = r'.
Proof. intros F H. revert r'. induction H; intros r' H'; inversion H'; subst; [reflexivity|]. f_equal; eauto. Qed.
Lemma first_bad ps (a a' : list bytes) s s' b b' : a ++ s :: b = a' ++ s' :: b' -> Forall (fun t => ps_net ps t <> None) a -> Forall (fun t => ps_net ps t <> None) a' ->
  ps_net ps s = None -> ps_net ps s' = None -> s = s'.
Proof.
  revert a'. induction a as [|x a IH]; intros [|y a'] E F F' S S'; cbn [app] in E; injection E as E1 E2; auto; subst.
  - inversion F'. congruence. - inversion F. congruence. - inversion F. inversion F'. eauto.
Qed.
Lemma all_good ps m u o g es fs a s b : Forall2 (announces ps m u o g) (announced u) es -> Forall2 (withdraws ps m) (withdrawn u) fs -> prefix_texts u = a ++ s :: b -> ps_net ps s <> None.
Proof.
  intros A W E. assert (K : In s (prefix_texts u)) by (rewrite E; apply in_or_app; right; left; reflexivity). unfold prefix_texts in K. apply in_app_or in K. destruct K as [K|K].
  - apply in_map_iff in K. destruct K as (x & <- & K). clear E. induction A as [|? ? ? ? R]; [elim K|]. destruct K as [<-|K]; auto. destruct R as (_ & _ & (n & E & _) & _). congruence.
  - clear E. induction W as [|? ? ? ? R]; [elim K|]. destruct K as [<-|K]; auto. destruct R as (_ & _ & (n & E & _) & _). congruence.
Qed.
Lemma outcome_one ps m u r r' : outcome ps m u r -> outcome ps m u r' -> r = r'.
Proof.
  intros H H'.
  assert (Z1 : forall s o, ru_origin u = Some s -> (forall o, ~ origin_text s o) -> origin_of (ru_origin u) o -> False).
  { intros s o E N O. rewrite E in O. destruct o as [o|]; cbn in O; [elim (N o O)|exact O]. }
  assert (Z2 : forall s g, ru_aggr u = Some s -> ~ In 58 s -> aggregator_of ps (ru_aggr u) g -> False).
  { intros s g E N G. rewrite E in G. destruct g as [[a i]|]; cbn in G; [|exact G]. destruct G as (x & y & -> & _). apply N, in_or_app. right; left; reflexivity. }
  assert (Z3 : forall s g, ru_aggr u = Some s -> (forall g, ~ aggregator_of ps (Some s) g) -> aggregator_of ps (ru_aggr u) g -> False).
  { intros s g E N G. rewrite E in G. elim (N g G). }
  inversion H; subst; inversion H'; subst; try congruence; try (exfalso; eauto; fail);
  repeat match goal with
  | A : ru_aggr u = Some ?s, B : ru_aggr u = Some ?t |- _ => assert (s = t) by congruence; subst t; clear B
  | A : prefix_texts u = ?a ++ ?s :: ?b, B : prefix_texts u = ?a' ++ ?s' :: ?b' |- _ =>
      assert (s = s') by (rewrite A in B; eapply first_bad; eauto); subst s'; clear B
  | O : origin_of ?t ?o, O' : origin_of ?t ?o' |- _ => assert (o = o') by (eapply origin_one; eauto); subst o'; clear O'
  | O : aggregator_of ps ?t ?o, O' : aggregator_of ps ?t ?o' |- _ => assert (o = o') by (eapply aggregator_one; eauto); subst o'; clear O'
  end; try congruence; try tauto;
  try (exfalso; match goal with A : Forall2 (announces _ _ _ _ _) _ _, W : Forall2 (withdraws _ _) _ _, E : prefix_texts _ = _ ++ _ :: _, N : ps_net _ _ = None |- _ => exact (all_good _ _ _ _ _ _ _ _ _ _ A W E N) end).
  f_equal. f_equal; (eapply Forall2_one; [|eassumption|eassumption]); intros; [eapply announces_one; eauto|eapply withdraws_one; eauto].
Qed.
Lemma json_update ps j m u r : update_doc ps j m u -> (parse_ris_live_message ps (Some j) = r <-> outcome ps m u r).
Proof.
  intros (d & E & U). apply envelope_read in E. apply body_iff in U. rewrite U in E. unfold parse_ris_live_message, read_live. rewrite E. cbn [rrbind rm_body with_body].
  assert (X : ris_update_elems ps (with_body m (Some (BodyUpdate u))) u = ris_update_elems ps m u) by reflexivity. rewrite X.
  split; [intros <-; apply update_outcome|]. intros O. eapply outcome_one; [apply update_outcome|exact O].
Qed.
Lemma json_other ps j d m : envelope ps j d m -> (forall u, ~ about_update ps d u) -> parse_ris_live_message ps (Some j) = ROk [].
Proof.
  intros E N. apply envelope_read in E. unfold parse_ris_live_message, read_live. rewrite E. cbn [rrbind rm_body with_body]. destruct (de_body ps (others d)) as [[u|]|] eqn:B; try reflexivity.
  apply body_iff in B. elim (N u B).
Qed.
Lemma json_elems ps doc e l : parse_ris_live_message ps doc = ROk (e :: l) -> exists j m u, doc = Some j /\ update_doc ps j m u.
Proof.
  unfold parse_ris_live_message, read_live. destruct doc as [j|]; [|discriminate]. destruct (de_ris_live ps j) as [[m|]|] eqn:E; cbn [rrbind]; try discriminate.
  apply live_iff in E. destruct E as (d & E & B). destruct (rm_body m) as [[u|]|] eqn:U; try discriminate. intros _. exists j, m, u. split; auto. exists d. split; auto. apply body_iff. congruence.
Qed.
Lemma json_np ps doc : parse_ris_live_message ps doc <> RPanic.
Proof.
  unfold parse_ris_live_message, read_live. destruct doc as [j|]; [|discriminate]. destruct (de_ris_live ps j) as [[m|]|]; cbn [rrbind]; try discriminate. destruct (rm_body m) as [[u|]|]; try discriminate.
  pose proof (update_outcome ps m u) as O. intros E. rewrite E in O. inversion O.
Qed.
Lemma json_none ps j : (forall d m, ~ envelope ps j d m) -> parse_ris_live_message ps (Some j) = RErr RIncorrectJson \/ other_doc j /\ parse_ris_live_message ps (Some j) = ROk [].
Proof.
  intros N. unfold parse_ris_live_message, read_live. destruct (de_ris_live ps j) as [[m|]|] eqn:E; cbn [rrbind]; auto; [apply live_iff in E; destruct E as (d & E & _); elim (N d m E)|].
  right. split; [|reflexivity]. unfold de_ris_live in E. apply obind_inv in E. destruct E as (l & O & E). apply object_iff in O as [-> S]. inversion S as [|? ? S1 S']; subst.
  apply obind_inv in E. destruct E as (t & T & E). exists l, t. split; [reflexivity|]. split; [apply (must_iff de_text); [apply text_iff|auto]|]. cbn [map In].
  destruct (bytes_eqb t (str "ris_message")) eqn:E1; [apply obind_inv in E; destruct E as (? & _ & E); discriminate|].
  destruct (bytes_eqb t (str "ris_error")) eqn:E2; [apply bytes_eqb_eq in E2; auto|].
  destruct (bytes_eqb t (str "ris_rrc_list")) eqn:E3; [apply bytes_eqb_eq in E3; auto|].
  destruct (bytes_eqb t (str "pong")) eqn:E4; [apply bytes_eqb_eq in E4; auto|]. cbn [orb] in E.
  destruct (bytes_eqb t (str "ris_subscribe_ok")) eqn:E5; [apply bytes_eqb_eq in E5; auto|discriminate].
Qed.
(** What reading gives is what the document says. *)
Lemma read_doc ps j m u : de_ris_live ps j = Some (LiveMessage m) -> rm_body m = Some (BodyUpdate u) -> update_doc ps j m u.
Proof. intros L B. apply live_iff in L. destruct L as (d & E & X). exists d. split; auto. apply body_iff. congruence. Qed.

(** * Raw messages *)
Lemma hex_digit_iff c x : hex_digit c = Some x <-> hex_char c x.
Proof.
  unfold hex_digit. split.
  - destruct ((48 <=? c) && (c <=? 57)) eqn:E1; [intros [= <-]; replace c with (48 + (c - 48)) at 1 by lia; constructor; lia|].
    destruct ((97 <=? c) && (c <=? 102)) eqn:E2; [intros [= <-]; replace c with (97 + (c - 97)) at 1 by lia; replace (c - 87) with (10 + (c - 97)) by lia; constructor; lia|].
    destruct ((65 <=? c) && (c <=? 70)) eqn:E3; [|discriminate]. intros [= <-]. replace c with (65 + (c - 65)) at 1 by lia. replace (c - 55) with (10 + (c - 65)) by lia. constructor. lia.
  - intros H. inversion H; subst; repeat match goal with |- context [if ?c then _ else _] => destruct c eqn:? end; try lia; f_equal; lia.
Qed.
Lemma hex_iff s b : hex_decode s = Some b <-> hex_text s b.
Proof.
  split.
  - revert s b. fix IH 1. intros [|c [|d s]] b; cbn [hex_decode].
    + intros [= <-]. constructor.
    + discriminate.
    + intros H. apply obind_inv in H. destruct H as (x & X & H). apply obind_inv in H. destruct H as (y & Y & H). apply obind_inv in H. destruct H as (r & R & H). injection H as <-.
      constructor; [apply hex_digit_iff, X|apply hex_digit_iff, Y|apply IH, R].
  - induction 1 as [|c d x y s b X Y S IH]; [reflexivity|]. apply hex_digit_iff in X, Y. cbn [hex_decode]. rewrite X. cbn [obind]. rewrite Y. cbn [obind]. rewrite IH. reflexivity.
Qed.
Lemma read_raw ps j m s raw b : de_ris_live ps j = Some (LiveMessage m) -> rm_raw m = Some s -> hex_decode s = Some raw -> run (parse_bgp_message false Bits32) raw = Ok b -> raw_doc ps j m b.
Proof.
  intros L S H B. apply live_iff in L. destruct L as (d & E & X). exists d, s, raw. split; auto. split; auto. split; [apply hex_iff, H|]. unfold raw_message, run in *. destruct (parse_bgp_message false Bits32 raw) as [[m' r]| |]; try discriminate. injection B as ->. eauto.
Qed.
(** What an attribute block fails with does not depend on how its values are read. *)
Lemma loop_err fuel k k' mask s e : attrs_loop fuel k mask s = Err e -> attrs_loop fuel k' mask s = Err e.
Proof.
  revert mask s. induction fuel as [|fuel IH]; intros mask s; cbn [attrs_loop]; destruct (Nat.leb 3 (length s)); auto.
  destruct (read_attr_header s) as [[[[f c] len] s1]|e'|]; cbn [rbind]; auto. destruct (nlen s1 <? len); [discriminate|].
  destruct (split_to (N.to_nat len) s1) as [[v s2]|e'|]; cbn [rbind]; auto.
  pose proof (attr_of_raw_ok k (RawAttr f c v)) as A. pose proof (attr_of_raw_ok k' (RawAttr f c v)) as A'. cbn [r_code r_flag r_value] in A, A'. rewrite A, A'. cbn [rbind].
  destruct (attr_out k (RawAttr f c v)) as [a we], (attr_out k' (RawAttr f c v)) as [a' we']. specialize (IH (N.setbit mask c) s2).
  destruct (attrs_loop fuel k (N.setbit mask c) s2) as [[rest m]|e'|] eqn:E; cbn [rbind]; try discriminate. intros [= ->]. rewrite (IH eq_refl). reflexivity.
Qed.
Lemma attributes_err k k' s e : parse_attributes k s = Err e -> parse_attributes k' s = Err e.
Proof.
  unfold parse_attributes. pose proof (loop_err (length s) k k' 0 s) as L. destruct (attrs_loop (length s) k 0 s) as [[r m]|e'|]; cbn [rbind]; try discriminate.
  intros [= ->]. rewrite (L e eq_refl). reflexivity.
Qed.
Lemma update_err ap al al' s e : parse_update ap al s = Err e -> parse_update ap al' s = Err e.
Proof.
  unfold parse_update, run, bind, lift, peek, ret.
  destruct (read_u16 s) as [[n s1]|x|]; auto. destruct (has_n n s1) as [[[] s2]|x|]; auto. destruct (split_to (N.to_nat n) s2) as [[w s3]|x|]; auto.
  destruct (nlri_section false ap w) as [[wd ww]|x|]; cbn [rbind]; auto.
  destruct (read_u16 s3) as [[k s4]|x|]; auto. destruct (has_n k s4) as [[[] s5]|x|]; auto. destruct (split_to (N.to_nat k) s5) as [[a s6]|x|]; auto.
  pose proof (attributes_err (ACfg al ap None None None) (ACfg al' ap None None None) a) as X.
  destruct (parse_attributes (ACfg al ap None None None) a) as [at0|x|]; cbn [rbind].
  - unfold nlri_section. destruct (read_nlri s6 ap) as [l|x|]; cbn [rbind]; discriminate.
  - intros [= ->]. rewrite (X e eq_refl). reflexivity.
  - discriminate.
Qed.
Lemma message_err ap al al' s e : parse_bgp_message ap al s = Err e -> parse_bgp_message ap al' s = Err e.
Proof.
  unfold parse_bgp_message. unfold bind, lift, fail. destruct (has_n 19 s) as [[[] s1]|x|]; auto. destruct (has_n 16 s1) as [[[] s2]|x|]; auto.
  destruct (split_to 16 s2) as [[? s3]|x|]; auto. destruct (read_u16 s3) as [[len s4]|x|]; auto. destruct (len <? 19); auto.
  destruct (read_u8 s4) as [[t s5]|x|]; auto. destruct ((t <? 1) || (5 <? t)); auto. destruct (((t =? 1) || (t =? 4)) && (4096 <? len)); auto.
  destruct (has_n _ s5) as [[[] s6]|x|]; auto. destruct (split_to _ s6) as [[d s7]|x|]; auto.
  assert (B : forall d, parse_body ap al t d = Err e -> parse_body ap al' t d = Err e).
  { clear. intros d. destruct (N.eq_dec t 2) as [->|T]; [|intros <-; destruct t as [|[[[]|[]|]|[[]|[]|]|]]; try reflexivity; congruence].
    cbn [parse_body]. pose proof (update_err ap al al' d) as X. destruct (parse_update ap al d) as [u|x|]; cbn [rbind]; try discriminate. intros [= ->]. rewrite (X e eq_refl). reflexivity. }
  destruct (parse_body ap al t d) as [m|x|] eqn:E; cbn [rbind]; try discriminate. intros [= ->]. rewrite (B d E). reflexivity.
Qed.
(** So trying again with AS numbers of two octets is of no use. *)
Lemma fallback raw : parse_raw_bgp raw = match run (parse_bgp_message false Bits32) raw with Ok m => ROk m | _ => RErr RIncorrectRawBytes end.
Proof.
  unfold parse_raw_bgp, run. pose proof (message_np false Bits32 raw) as NP. pose proof (message_err false Bits32 Bits16 raw) as X.
  destruct (parse_bgp_message false Bits32 raw) as [[m r]|e|]; auto; [|elim NP; reflexivity]. rewrite (X e eq_refl). reflexivity.
Qed.
Lemma raw_ok raw b : parse_raw_bgp raw = ROk b <-> raw_message raw b.
Proof.
  rewrite fallback. unfold raw_message, run. destruct (parse_bgp_message false Bits32 raw) as [[m r]|e|]; split; try discriminate; try (intros (z & D); discriminate); [intros [= <-]; eauto|intros (z & [= -> ->]); reflexivity].
Qed.
Lemma raw_no raw : (forall b, ~ raw_message raw b) -> parse_raw_bgp raw = RErr RIncorrectRawBytes.
Proof. rewrite fallback. unfold raw_message, run. intros H. destruct (parse_bgp_message false Bits32 raw) as [[m r]|e|]; auto. elim (H m). eauto. Qed.
Definition raw_time (t : f64) : f64 := bmp_time (f64_to_u32 t) (get_micro_seconds t).
Lemma bgp_elems_fun b t pi pa l l' : bgp_elems b t pi pa l -> bgp_elems b t pi pa l' -> l = l'.
Proof. destruct b; cbn [bgp_elems]; try congruence. apply update_elems_fun. Qed.
Lemma raw_elems m raw b : raw_message raw b -> exists l, ris_raw_elems m raw = ROk l /\ bgp_elems b (raw_time (rm_time m)) (rm_peer m) (rm_asn m) l.
Proof.
  intros B. apply raw_ok in B. unfold ris_raw_elems. rewrite B. cbn [rrbind]. destruct (record_elems_ok None (ris_record m b)) as (l & -> & R). exists l. split; [reflexivity|]. exact R.
Qed.
Lemma decode_iff ps j m raw : decode_ris_live_raw ps (Some j) = ROk (m, raw) <-> exists d s, envelope ps j d m /\ rm_body m = de_body ps (others d) /\ rm_raw m = Some s /\ hex_text s raw.
Proof.
  unfold decode_ris_live_raw, read_live. split.
  - destruct (de_ris_live ps j) as [[m'|]|] eqn:E; cbn [rrbind]; try discriminate. destruct (rm_raw m') as [s|] eqn:S; [|discriminate]. destruct (hex_decode s) as [b|] eqn:H; [|discriminate]. intros [= -> ->].
    apply live_iff in E. destruct E as (d & E & B). exists d, s. apply hex_iff in H. auto.
  - intros (d & s & E & B & S & H). assert (L : de_ris_live ps j = Some (LiveMessage m)) by (apply live_iff; eauto). rewrite L. cbn [rrbind]. rewrite S. apply hex_iff in H. rewrite H. reflexivity.
Qed.
Lemma decode_doc ps j m d s raw : envelope ps j d m -> rm_raw m = Some s -> hex_text s raw -> decode_ris_live_raw ps (Some j) = ROk (with_body m (de_body ps (others d)), raw).
Proof. intros E S H. apply decode_iff. exists d, s. split; [exact E|auto]. Qed.
Lemma raw_doc_elems ps j m b : raw_doc ps j m b -> exists l, parse_ris_live_message_raw ps (Some j) = ROk l /\ bgp_elems b (raw_time (rm_time m)) (rm_peer m) (rm_asn m) l.
Proof.
  intros (d & s & raw & E & S & H & B). unfold parse_ris_live_message_raw. rewrite (decode_doc ps j m d s raw E S H). cbn [rrbind].
  destruct (raw_elems (with_body m (de_body ps (others d))) raw b B) as (l & -> & X). eauto.
Qed.
Lemma raw_is_doc ps doc l : parse_ris_live_message_raw ps doc = ROk l -> exists j m b, doc = Some j /\ raw_doc ps j m b.
Proof.
  unfold parse_ris_live_message_raw. destruct doc as [j|]; [|discriminate]. destruct (decode_ris_live_raw ps (Some j)) as [[m raw]| |] eqn:D; cbn [rrbind]; try discriminate.
  apply decode_iff in D. destruct D as (d & s & E & _ & S & H). unfold ris_raw_elems. destruct (parse_raw_bgp raw) as [b| |] eqn:R; cbn [rrbind]; try discriminate. intros _.
  exists j, m, b. split; auto. exists d, s, raw. apply raw_ok in R. auto.
Qed.
Lemma raw_errors ps j d m : envelope ps j d m -> (forall b, ~ raw_doc ps j m b) -> parse_ris_live_message_raw ps (Some j) = RErr RIncorrectRawBytes.
Proof.
  intros E N. unfold parse_ris_live_message_raw, decode_ris_live_raw, read_live. rewrite (envelope_read _ _ _ _ E). cbn [rrbind rm_raw with_body].
  destruct (rm_raw m) as [s|] eqn:S; [|reflexivity]. destruct (hex_decode s) as [raw|] eqn:H; [|reflexivity]. cbn [rrbind]. unfold ris_raw_elems. rewrite raw_no; [reflexivity|].
  intros b B. apply hex_iff in H. apply (N b). exists d, s, raw. auto.
Qed.
Lemma raw_np ps doc : parse_ris_live_message_raw ps doc <> RPanic /\ parse_ris_live_message_raw_full ps doc <> RPanic.
Proof.
  assert (D : decode_ris_live_raw ps doc <> RPanic).
  { unfold decode_ris_live_raw, read_live. destruct doc as [j|]; [|discriminate]. destruct (de_ris_live ps j) as [[m|]|]; cbn [rrbind]; try discriminate.
    destruct (rm_raw m) as [s|]; [|discriminate]. destruct (hex_decode s); discriminate. }
  assert (E : forall m raw, ris_raw_elems m raw <> RPanic).
  { intros m raw. unfold ris_raw_elems. rewrite fallback. destruct (run (parse_bgp_message false Bits32) raw); cbn [rrbind]; try discriminate. destruct (record_elems_ok None (ris_record m a)) as (l & -> & _). discriminate. }
  unfold parse_ris_live_message_raw, parse_ris_live_message_raw_full. destruct (decode_ris_live_raw ps doc) as [[m raw]| |]; cbn [rrbind]; try (split; discriminate); [|congruence].
  split; [apply E|]. pose proof (E m raw) as X. assert (Y : parse_raw_bgp raw <> RPanic) by (rewrite fallback; destruct (run (parse_bgp_message false Bits32) raw); discriminate).
  destruct (parse_raw_bgp raw); cbn [rrbind]; try discriminate; [|congruence]. destruct (ris_raw_elems m raw); cbn [rrbind]; try discriminate. congruence.
Qed.
Lemma full_errors ps doc e : parse_ris_live_message_raw_full ps doc = RErr e <-> parse_ris_live_message_raw ps doc = RErr e.
Proof.
  unfold parse_ris_live_message_raw, parse_ris_live_message_raw_full. destruct (decode_ris_live_raw ps doc) as [[m raw]| |]; cbn [rrbind]; try (split; (discriminate || (intros [= ->]; reflexivity))).
  unfold ris_raw_elems. destruct (parse_raw_bgp raw) as [b| |]; cbn [rrbind]; try (split; (discriminate || (intros [= ->]; reflexivity))).
  destruct (record_elems_ok None (ris_record m b)) as (l & -> & _). cbn [rrbind]. split; discriminate.
Qed.
Lemma full_ok ps doc f : parse_ris_live_message_raw_full ps doc = ROk f <->
  exists j m b, doc = Some j /\ raw_doc ps j m b /\ parse_ris_live_message_raw ps doc = ROk (rf_elems f) /\
    rf_host f = rm_host m /\ rf_id f = rm_id m /\ rf_peer f = rm_peer m /\ rf_asn f = rm_asn m /\ rf_time f = rm_time m /\ rf_attrs f = attributes_of b.
Proof.
  split.
  - unfold parse_ris_live_message_raw, parse_ris_live_message_raw_full. destruct doc as [j|]; [|discriminate].
    destruct (decode_ris_live_raw ps (Some j)) as [[m raw]| |] eqn:D; cbn [rrbind]; try discriminate. apply decode_iff in D. destruct D as (d & s & E & _ & S & H).
    destruct (parse_raw_bgp raw) as [b| |] eqn:B; cbn [rrbind]; try discriminate. apply raw_ok in B. destruct (ris_raw_elems m raw) as [l| |]; cbn [rrbind]; try discriminate. intros [= <-].
    exists j, m, b. split; auto. split; [exists d, s, raw; auto|]. repeat (split; [reflexivity|]). reflexivity.
  - intros (j & m & b & -> & (d & s & raw & E & S & H & B) & P & X). unfold parse_ris_live_message_raw, parse_ris_live_message_raw_full in *.
    rewrite (decode_doc ps j m d s raw E S H) in *. cbn [rrbind] in *. apply raw_ok in B. rewrite B. cbn [rrbind]. rewrite P. cbn [rrbind].
    destruct f. cbn in *. destruct X as (-> & -> & -> & -> & -> & ->). destruct b; reflexivity.
Qed.

(** * JSON fields and raw message *)
Lemma hop_one vs h h' : hop_is vs h -> hop_is vs h' -> h = h'.
Proof. intros (r & x & R & X & E) (r' & x' & R' & X' & E'). rewrite (last_is_fun _ _ _ _ R R'), (last_is_fun _ _ _ _ X X') in E. congruence. Qed.
Lemma same_routes ps m u v es t : shows ps u v -> t = rm_time m -> update_elems v t (rm_peer m) (rm_asn m) es ->
  exists fs, outcome ps m u (ROk fs) /\ Forall2 same_route fs es.
Proof.
  intros (reach & unreach & p & p4 & o & g & R & U & P & P4 & E & O & O' & G & G' & M & C & H & A & W) -> (reach' & unreach' & q & q4 & path & R' & U' & Q & Q4 & E' & T & F).
  rewrite <- (last_is_fun _ _ _ _ R R') in T. rewrite <- (last_is_fun _ _ _ _ U U') in T. rewrite <- (last_is_fun _ _ _ _ P Q), <- (last_is_fun _ _ _ _ P4 Q4) in E'. clear R' U' Q Q4.
  assert (path = ru_path u).
  { unfold effective in E, E'. destruct p, p4; try congruence. destruct E as (x & X & ->), E' as (x' & X' & ->). congruence. } subst path. clear E'.
  set (vs := map a_value (at_inner (u_attrs v))) in *.
  apply map_eq_app in T. destruct T as (es1 & es2 & -> & T1 & T2). apply Forall_app in F as [F1 F2].
  assert (X1 : exists fs, Forall2 (announces ps m u o g) (announced u) fs /\ Forall2 same_route fs es1).
  { revert es1 T1 F1. revert A H. generalize (u_announced v ++ prefixes_of reach). induction (announced u) as [|[h s] l IH]; intros ns A H es1 T1 F1; cbn [map snd] in A; inversion A as [|? n ? ns' (i & I' & ->) A']; subst.
    - destruct es1; [|discriminate]. exists []. split; constructor.
    - destruct es1 as [|e es1]; [discriminate|]. cbn [map] in T1. injection T1 as T1 T1' T1''. inversion F1 as [|? ? (K1 & K2 & K3 & K4 & K5) F1']; subst. inversion H as [|? ? H0 H']; subst. cbn [fst] in H0.
      destruct (IH ns' A' H' es1 T1'' F1') as (fs & X & Y). rewrite T1 in K5. destruct K5 as (C1 & C2 & C3 & C4 & (rr & hh & C5 & C5' & C5'') & _ & (md & C7 & C7') & (ag & C8 & C8' & C8'') & _ & C10 & _).
      exists (Elem (rm_time m) Announce (rm_peer m) (rm_asn m) None (Pfx i None) (Some h) (ru_path u) None o None (ru_med u) (option_map (map (fun p => MPlain (CCustom (fst p) (snd p)))) (ru_comms u)) false (option_map fst g) (option_map snd g) None None None :: fs).
      split; constructor; auto.
      + unfold announces, from_message. cbn. repeat split. exists i. auto.
      + unfold same_route. cbn. rewrite T1, T1', K1, K2, K3, K4, C1, C8', C8'', C7'. rewrite (last_is_fun _ _ _ _ C8 G), (last_is_fun _ _ _ _ C7 M), (last_is_fun _ _ _ _ C3 O). repeat (split; [reflexivity|]).
        split; [rewrite C5''; symmetry; destruct H0 as (r0 & h0 & Z1 & Z2 & Z3); rewrite (last_is_fun _ _ _ _ C5 Z1), (last_is_fun _ _ _ _ C5' Z2); exact Z3|]. repeat (split; [reflexivity|]).
        split; [|reflexivity]. rewrite C in C10. unfold opt_list_is in C10. destruct (e_comms e), (ru_comms u); cbn [option_map]; intuition congruence. }
  assert (X2 : exists fs, Forall2 (withdraws ps m) (withdrawn u) fs /\ Forall2 same_route fs es2).
  { revert es2 T2 F2. revert W. generalize (u_withdrawn v ++ prefixes_of unreach). induction (withdrawn u) as [|s l IH]; intros ns W' es2 T2 F2; inversion W' as [|? n ? ns' (i & I' & ->) W'']; subst.
    - destruct es2; [|discriminate]. exists []. split; constructor.
    - destruct es2 as [|e es2]; [discriminate|]. cbn [map] in T2. injection T2 as T2 T2' T2''. inversion F2 as [|? ? (K1 & K2 & K3 & K4 & K5) F2']; subst.
      destruct (IH ns' W'' es2 T2'' F2') as (fs & X & Y). rewrite T2 in K5. destruct K5 as (C1 & C2 & C3 & C4 & C5 & C6 & C7 & C8 & C9 & C10 & C11 & C12 & C13).
      exists (Elem (rm_time m) Withdraw (rm_peer m) (rm_asn m) None (Pfx i None) None None None None None None None false None None None None None :: fs).
      split; constructor; auto.
      + unfold withdraws, from_message, bare. cbn. repeat split. exists i. auto.
      + unfold same_route. cbn. rewrite T2, T2', K1, K2, K3, K4, C1, C2, C4, C6, C7, C9, C10. repeat (split; [reflexivity|]). reflexivity. }
  destruct X1 as (fs1 & A1 & S1), X2 as (fs2 & A2 & S2). exists (fs1 ++ fs2). split; [eapply out_elems; eauto|apply Forall2_app; auto].
Qed.
