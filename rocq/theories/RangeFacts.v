(** Everything read from octets is in range. *)
From Coq Require Import ZifyBool ZifyNat ZifyN Lia.
From Verif Require Import Base BaseFacts Reader ReaderFacts Tac Net NetSpec NetFacts AsPath AsPathSpec AsPathFacts
  Community CommunitySpec CommunityFacts Mpls MplsFacts Nlri NlriSpec NlriFacts Attr AttrSpec AttrFacts
  BgpMsg Bgp4mp TableDump Stream Framing FramingFacts MrtRecord Elem JsonSpec PsvSpec RangeSpec.

(** * Parsers and the values they yield *)
Definition yields {A} (p : P A) (Q : A -> Prop) : Prop :=
  forall s a r, bytes_ok s -> p s = Ok (a, r) -> Q a /\ bytes_ok r.
Lemma y_bind {A B} (p : P A) (k : A -> P B) Q R :
  yields p Q -> (forall a, Q a -> yields (k a) R) -> yields (bind p k) R.
Proof.
  intros Hp Hk s b r Hs H. apply bind_inv in H as (a & s' & H1 & H2).
  destruct (Hp _ _ _ Hs H1) as [Ha Hr]. exact (Hk a Ha _ _ _ Hr H2).
Qed.
Lemma y_ret {A} (a : A) (Q : A -> Prop) : Q a -> yields (ret a) Q.
Proof. intros Ha s b r Hs H. apply ret_inv in H as [<- <-]. auto. Qed.
Lemma y_fail {A} e (Q : A -> Prop) : yields (fail e) Q.
Proof. intros s b r Hs H. discriminate. Qed.
Lemma y_lift {A} (x : res A) (Q : A -> Prop) : (forall a, x = Ok a -> Q a) -> yields (lift x) Q.
Proof. intros Hx s b r Hs H. apply lift_inv in H as [H <-]. auto. Qed.
Lemma y_be k : yields (read_be k) (fun n => n < 256 ^ N.of_nat k).
Proof. intros s n r Hs H. apply read_be_inv_ok in H as (_ & H & Hr); auto. Qed.
Lemma y_any {A} (p : P A) Q : yields p Q -> yields p (fun _ => True).
Proof. intros Hp s a r Hs H. destruct (Hp _ _ _ Hs H); auto. Qed.
Lemma y_has n : yields (has_n n) (fun _ => True).
Proof. intros s n' r Hs H. apply has_n_inv in H as (-> & _). auto. Qed.
Lemma y_split n : yields (split_to n) bytes_ok.
Proof.
  intros s a r Hs H. apply split_to_inv in H. destruct H as (-> & H). apply bytes_ok_app in Hs. tauto.
Qed.
Lemma y_nbytes n : yields (read_n_bytes n) bytes_ok.
Proof. intros s a r Hs H. apply read_n_bytes_inv in H as (-> & H). apply bytes_ok_app in Hs. tauto. Qed.
Lemma y_peek : yields peek bytes_ok.
Proof. intros s a r Hs H. unfold peek in H. injection H as <- <-. auto. Qed.
Lemma y_remaining : yields remaining (fun _ => True).
Proof. intros s a r Hs H. unfold remaining in H. injection H as _ <-. auto. Qed.
Lemma y_impl {A} (p : P A) (Q R : A -> Prop) : yields p Q -> (forall a, Q a -> R a) -> yields p R.
Proof. intros Hp HQ s a r Hs H. destruct (Hp _ _ _ Hs H); auto. Qed.
Lemma y_run {A} (p : P A) Q s a : yields p Q -> bytes_ok s -> run p s = Ok a -> Q a.
Proof. intros Hp Hs H. apply run_inv in H as (r & H). exact (proj1 (Hp _ _ _ Hs H)). Qed.
Lemma y_many {A} (p : P A) Q : yields p Q ->
  forall fuel s l, bytes_ok s -> many_p fuel p s = Ok l -> Forall Q l.
Proof.
  intros Hp. induction fuel; intros s l Hs H; destruct s as [|b s]; cbn [many_p] in H; try discriminate; try (inv H; auto; fail).
  apply rbind_inv in H as ([a s'] & H1 & H). apply rbind_inv in H as (l' & H2 & H). injection H as <-.
  destruct (Hp _ _ _ Hs H1). constructor; eauto.
Qed.
Lemma y_repeat {A} (p : P A) Q n : yields p Q -> yields (repeat_p n p) (Forall Q).
Proof.
  intros Hp. induction n; cbn [repeat_p]. { apply y_ret. constructor. }
  eapply y_bind; [exact Hp|]. intros a Ha. eapply y_bind; [exact IHn|]. intros l Hl. apply y_ret. constructor; auto.
Qed.
Lemma y_upto {A} (p : P A) Q : yields p Q -> forall n s l, bytes_ok s -> upto_p n p s = Ok l -> Forall Q l.
Proof.
  intros Hp. induction n; intros s l Hs H; cbn [upto_p] in H. { injection H as <-. constructor. }
  destruct (p s) as [[a s']|e|] eqn:E; try discriminate; [|injection H as <-; constructor].
  apply rbind_inv in H as (l' & H2 & H). injection H as <-. destruct (Hp _ _ _ Hs E). constructor; eauto.
Qed.

(** * Addresses, AS numbers, prefixes *)
Lemma y_u32 : yields read_u32 (fun n => n < 2 ^ 32).
Proof. exact (y_be 4). Qed.
Lemma y_u16 : yields read_u16 (fun n => n < 2 ^ 32).
Proof. eapply y_impl; [exact (y_be 2)|]. intros n H. cbv beta in *. lits. lia. Qed.
Lemma y_asn l : yields (read_asn l) (fun n => n < 2 ^ 32).
Proof. destruct l; [exact y_u16|exact y_u32]. Qed.
Lemma y_afi : yields read_afi (fun _ => True).
Proof. eapply y_bind; [exact y_u16|]. intros n _. apply y_lift. auto. Qed.
Lemma y_addr a : yields (read_address a) ip_ok.
Proof.
  intros s i r Hs H. destruct a; cbn [read_address] in H.
  - destruct (read_ipv4 s) as [[n r']| |] eqn:E; try discriminate. injection H as <- <-. exact (y_u32 _ _ _ Hs E).
  - destruct (read_ipv6 s) as [[n r']| |] eqn:E; try discriminate. injection H as <- <-. exact (y_be 16 _ _ _ Hs E).
  - injection H as <- <-. split; [reflexivity|exact Hs].
Qed.
Lemma y_safi : yields read_safi (fun _ => True).
Proof. eapply y_bind; [exact (y_be 1)|]. intros n _. apply y_lift. auto. Qed.
Lemma y_prefix a ap : yields (read_nlri_prefix a ap) prefix_ok.
Proof.
  intros s p r Hs H. destruct (afi_eqb a ALinkState) eqn:E.
  - destruct a; try discriminate. unfold read_nlri_prefix in H. revert s p r Hs H.
    eapply (y_bind _ _ id_ok).
    { destruct ap; [eapply y_bind; [exact y_u32|intros i Hi; apply y_ret; exact Hi]|apply y_ret; exact I]. }
    intros i Hi. eapply y_bind; [exact (y_be 1)|]. intros n Hn. cbn [afi_eqb].
    destruct (N.ltb_spec 0 n); [apply y_fail|]. apply y_ret. split; [split; cbn [p_net net_addr net_len ip_ok net_width]; lia|exact Hi].
  - assert (a <> ALinkState) as Ha by (destruct a; discriminate). destruct (read_nlri_prefix_inv _ _ _ _ _ H Hs Ha) as (-> & Hp & _).
    apply bytes_ok_app in Hs. tauto.
Qed.
Lemma y_net4 : yields read_ipv4_prefix net_ok.
Proof.
  eapply y_bind; [exact y_u32|]. intros n Hn. eapply y_bind; [exact (y_be 1)|]. intros m _.
  destruct (m <=? 32) eqn:E; [apply y_ret; split; cbn; [exact Hn|lia]|apply y_fail].
Qed.
Lemma y_net6 : yields read_ipv6_prefix net_ok.
Proof.
  eapply y_bind; [exact (y_be 16)|]. intros n Hn. eapply y_bind; [exact (y_be 1)|]. intros m _.
  destruct (m <=? 128) eqn:E; [apply y_ret; split; cbn; [exact Hn|lia]|apply y_fail].
Qed.
Lemma nlri_loop_ranged fuel ap a i h s l : nlri_loop fuel ap a i h s = Ok l -> bytes_ok s -> Forall prefix_ok l.
Proof.
  revert i h s l. induction fuel; intros i h s l H Hs; destruct s as [|b s]; cbn [nlri_loop] in H;
    try discriminate; try (inv H; auto; fail).
  set (i' := i || _) in H. set (h' := h || _) in H.
  destruct (read_nlri_prefix a i' (b :: s)) as [[p s']|e|] eqn:E; try discriminate.
  - apply rbind_inv in H as (l' & H2 & H). injection H as <-. destruct (y_prefix _ _ _ _ _ Hs E). constructor; eauto.
  - destruct h'; try discriminate. apply rbind_inv in H as ([p s'] & H1 & H). apply rbind_inv in H as (l' & H2 & H). injection H as <-.
    destruct (y_prefix _ _ _ _ _ Hs H1). constructor; eauto.
Qed.
Lemma nlri_list_ranged s ap a l : parse_nlri_list s ap a = Ok l -> bytes_ok s -> Forall prefix_ok l.
Proof. apply nlri_loop_ranged. Qed.

(** * Next hops and reachability *)
Lemma y_next_hop b : yields (read_next_hop b) (opt_all (fun h => ip_ok (nh_addr h))).
Proof.
  destruct b; unfold read_next_hop; [|apply y_ret; exact I].
  eapply y_bind; [exact (y_be 1)|]. intros n _. eapply y_bind; [apply y_has|]. intros _ _. eapply y_bind; [apply y_split|].
  intros d Hd. apply y_lift. intros o Ho. apply parse_mp_nh_inv in Ho; auto. destruct Ho as [_ Ho].
  destruct o as [[]|]; cbn in Ho |- *; tauto.
Qed.
Lemma y_all {A} (f : bytes -> res A) (Q : A -> Prop) : (forall s a, bytes_ok s -> f s = Ok a -> Q a) -> yields (all_of f) Q.
Proof.
  intros Hf s a r Hs H. unfold all_of in H. apply rbind_inv in H as (x & H1 & H). injection H as <- <-. split; [eauto|constructor].
Qed.
Lemma y_reserved b : yields (skip_reserved b) (fun _ => True).
Proof. destruct b; unfold skip_reserved; [eapply y_bind; [exact (y_be 1)|]; intros; apply y_ret; auto|apply y_ret; auto]. Qed.
Lemma y_label_head ap : yields (read_label_head ap) (fun x => id_ok (fst (fst x)) /\ snd (fst x) < 256 /\ bytes_ok (snd x)).
Proof.
  intros s [[i t] d] r Hs H. destruct (read_label_head_inv _ _ _ _ _ _ H Hs) as (-> & H1 & _ & _ & H4 & _ & H6).
  split; [cbn; auto|]. apply bytes_ok_app in Hs as [_ Hs]. apply bytes_ok_app in Hs as [_ Hs]. apply bytes_ok_app in Hs as [_ Hs]. exact Hs.
Qed.
Lemma y_need n e : yields (need n e) (fun _ => True).
Proof. intros s u r Hs H. apply need_inv in H as (-> & _). auto. Qed.
Lemma y_get k : yields (get_be k) (fun _ => True).
Proof. intros s n r Hs H. apply get_be_inv in H as (l & -> & _ & _). apply bytes_ok_app in Hs. tauto. Qed.
Lemma y_label_prefix a t n : t < 256 -> yields (read_label_prefix a t n) net_ok.
Proof. intros Ht s x r Hs H. destruct (read_label_prefix_inv _ _ _ _ _ _ H Hs Ht) as (-> & Hx & _). split; [exact Hx|constructor]. Qed.
Lemma y_labeled_withdrawal a ap : yields (read_labeled_withdrawal a ap) prefix_ok.
Proof.
  unfold read_labeled_withdrawal. eapply y_bind; [apply y_label_head|]. intros [[i t] d] (Hi & Ht & Hd). cbn [fst snd] in *.
  apply y_lift. intros p Hp. revert Hp. apply y_run; auto.
  eapply y_bind; [apply y_need|]. intros _ _. eapply y_bind; [apply y_get|]. intros _ _.
  eapply y_bind; [apply y_label_prefix; auto|]. intros x Hx. apply y_ret. split; auto.
Qed.
Definition nlri_ranged (n : nlri) : Prop := Forall prefix_ok (nl_prefixes n) /\ opt_all (fun h => ip_ok (nh_addr h)) (nl_next n).
Lemma parse_nlri_ranged s a sf ps b ap n : bytes_ok s -> opt_all (Forall prefix_ok) ps ->
  parse_nlri s a sf ps b ap = Ok n -> nlri_ranged n.
Proof.
  intros Hs Hps. unfold parse_nlri. set (zero := match s with b :: _ => b =? 0 | [] => false end). apply y_run; auto.
  eapply (y_bind _ _ (fun _ => True)).
  { unfold given_or. destruct a; [destruct zero|]; [apply y_afi|apply y_ret; auto|apply y_afi]. }
  intros a' _. eapply (y_bind _ _ (fun _ => True)).
  { unfold given_or. destruct sf; [destruct zero|]; [apply y_safi|apply y_ret; auto|apply y_safi]. }
  intros sf' _. eapply y_bind; [apply y_next_hop|]. intros nh Hn.
  destruct (afi_eqb a' ALinkState && _).
  { eapply y_bind; [apply y_reserved|]. intros _ _. eapply (y_bind _ _ (fun _ => True)); [apply y_all; auto|].
    intros l _. apply y_ret. split; [constructor|exact Hn]. }
  destruct (safi_eqb sf' SMplsLabel).
  { destruct b.
    - eapply y_bind; [apply y_reserved|]. intros _ _. eapply (y_bind _ _ (fun _ => True)); [apply y_all; auto|].
      intros l _. apply y_ret. split; [constructor|exact Hn].
    - eapply (y_bind _ _ (Forall prefix_ok)).
      { apply y_all. intros t l Ht Hl. eapply y_many; [|exact Ht|exact Hl]. apply y_labeled_withdrawal. }
      intros l Hl. apply y_ret. split; auto. }
  assert (yields (skip_reserved b ;;; all_of (fun s => parse_nlri_list s ap a')) (Forall prefix_ok)) as Hr.
  { eapply y_bind; [apply y_reserved|]. intros _ _. apply y_all. intros t l Ht Hl. exact (nlri_list_ranged _ _ _ _ Hl Ht). }
  eapply (y_bind _ _ (Forall prefix_ok)).
  { destruct ps as [l|]; [destruct zero|]; auto. apply y_ret. exact Hps. }
  intros l Hl. apply y_ret. split; auto.
Qed.

(** * Attributes *)
Lemma path_ranged s l p : bytes_ok s -> parse_as_path s l = Ok p -> path_u32 p.
Proof.
  intros Hs H. apply path_parse_inv in H as [_ H]; auto. eapply Forall_impl; [|exact H]. intros x Hx.
  apply wire_seg_fits in Hx as [_ Hx]. eapply Forall_impl; [|exact Hx]. intros n Hn. unfold asn_fits in Hn. destruct l; lia.
Qed.
Lemma aggregator_ranged s a i : bytes_ok s -> parse_aggregator s = Ok (a, i) -> a < 2 ^ 32 /\ i < 2 ^ 32.
Proof.
  intros Hs. unfold parse_aggregator.
  assert (forall l, run (a <- read_asn l ;; i <- read_ipv4 ;; ret (a, i)) s = Ok (a, i) -> a < 2 ^ 32 /\ i < 2 ^ 32) as G.
  { intros l. apply (y_run _ (fun x => fst x < 2 ^ 32 /\ snd x < 2 ^ 32)); auto.
    eapply y_bind; [apply y_asn|]. intros x Hx. eapply y_bind; [apply y_u32|]. intros y Hy. apply y_ret. auto. }
  destruct (length s) as [|[|[|[|[|[|[|[|[|n]]]]]]]]]; try discriminate; apply G.
Qed.
Lemma res_map_inv {A B} (f : A -> B) r b : res_map f r = Ok b -> exists a, r = Ok a /\ b = f a.
Proof. unfold res_map. intros H. apply rbind_inv in H as (a & H1 & H). injection H as <-. eauto. Qed.
Definition cfg_ranged (k : acfg) : Prop := opt_all (Forall prefix_ok) (ac_prefixes k).
Lemma attr_value_ranged k c s v : bytes_ok s -> cfg_ranged k -> parse_attr_value k c s = Ok v -> value_ranged v.
Proof.
  intros Hs Hk. unfold parse_attr_value. intros H.
  repeat match type of H with
  | match ?x with _ => _ end = _ => destruct x; try discriminate
  end;
  try (injection H as <-; exact I);
  apply res_map_inv in H as (x & H & ->); cbn [value_ranged]; try exact I;
  try (destruct x as [? ?]; exact (aggregator_ranged _ _ _ Hs H));
  try exact (path_ranged _ _ _ Hs H);
  try exact (y_run _ _ _ _ (y_addr _) Hs H);
  try exact (y_run _ _ _ _ y_u32 Hs H);
  try exact (parse_nlri_ranged _ _ _ _ _ _ _ Hs Hk H);
  try exact (proj2 (regular_reencode _ _ Hs H));
  try exact (proj2 (large_reencode _ _ Hs H));
  try exact (proj2 (ipv6_ext_reencode _ _ Hs H)).
  destruct (ext_reencode _ _ Hs H) as (? & _ & _ & _ & Hx). exact Hx.
Qed.
Lemma attr_out_ranged k r : raw_ok r -> cfg_ranged k -> value_ranged (a_value (fst (attr_out k r))).
Proof.
  intros (_ & Hc & Hv & _) Hk. pose proof (attr_of_raw_ok k r) as H. unfold attr_of_raw in H.
  assert (raw_ranged (r_code r, r_value r)) as Hr by (split; auto).
  destruct (mem (r_code r) deprecated_codes); [injection H as H; rewrite <- H; exact Hr|].
  destruct (negb _); [injection H as H; rewrite <- H; exact Hr|].
  destruct (mem (r_code r) raw_retained_codes); [injection H as H; rewrite <- H; exact Hr|].
  destruct (parse_attr_value k (r_code r) (r_value r)) as [v|e|] eqn:E; try discriminate.
  - destruct (attr_code v =? r_code r); try discriminate. injection H as H; rewrite <- H. exact (attr_value_ranged _ _ _ _ Hv Hk E).
  - injection H as H; rewrite <- H; exact Hr.
Qed.
Lemma attributes_ranged k s A : bytes_ok s -> cfg_ranged k -> parse_attributes k s = Ok A -> attrs_ranged A.
Proof.
  intros Hs Hk H. apply parse_block_inv in H as (l & e & _ & Hl & _ & _ & ->); auto.
  unfold attrs_ranged, values. cbn [at_inner]. rewrite map_map. induction Hl; constructor; auto. apply attr_out_ranged; auto.
Qed.
Lemma mandatory_ranged A a b : attrs_ranged A -> attrs_ranged (check_mandatory A a b).
Proof. unfold check_mandatory. destruct (negb a); auto. Qed.
Lemma warned_ranged l A : attrs_ranged A -> attrs_ranged (fold_left add_warning l A).
Proof. revert A. induction l; cbn [fold_left]; auto. Qed.

(** * Messages *)
Lemma section_ranged b ap s x : bytes_ok s -> nlri_section b ap s = Ok x -> Forall prefix_ok (fst x).
Proof.
  intros Hs H. unfold nlri_section in H. destruct (read_nlri s ap) as [l|e|] eqn:E; try discriminate; injection H as <-; cbn [fst]; [|constructor].
  unfold read_nlri in E. destruct s as [|c [|d s]]; [injection E as <-; constructor| |exact (nlri_list_ranged _ _ _ _ E Hs)].
  destruct (c =? 0); try discriminate. exact (nlri_list_ranged _ _ _ _ E Hs).
Qed.
Lemma update_ranged_of ap al s m : bytes_ok s -> parse_update ap al s = Ok m -> update_ranged m.
Proof.
  intros Hs. apply y_run; auto.
  eapply y_bind; [exact y_u16|]. intros n _. eapply y_bind; [apply y_has|]. intros _ _. eapply y_bind; [apply y_split|]. intros w Hw.
  eapply y_bind; [apply y_lift; intros x Hx; exact (section_ranged _ _ _ _ Hw Hx)|]. intros [wd ww] Hwd.
  eapply y_bind; [exact y_u16|]. intros k _. eapply y_bind; [apply y_has|]. intros _ _. eapply y_bind; [apply y_split|]. intros a Ha.
  eapply y_bind; [apply y_lift; intros x Hx; refine (attributes_ranged _ _ _ Ha _ Hx); exact I|]. intros at0 Hat.
  eapply y_bind; [apply y_peek|]. intros r Hr.
  eapply y_bind; [apply y_lift; intros x Hx; exact (section_ranged _ _ _ _ Hr Hx)|]. intros [an aw] Han.
  apply y_ret. split; [exact Hwd|split; [|exact Han]]. cbn [u_attrs]. apply warned_ranged, mandatory_ranged, Hat.
Qed.
Lemma body_ranged_of ap al t s m : bytes_ok s -> parse_body ap al t s = Ok m -> bgp_ranged m.
Proof.
  intros Hs H. unfold parse_body in H.
  repeat match type of H with match ?x with _ => _ end = _ => destruct x end;
    try (apply rbind_inv in H as (x & H & E); injection E as <-; cbn [bgp_ranged]; auto);
    try (exact (update_ranged_of _ _ _ _ Hs H)); try (injection H as <-; exact I).
Qed.
Lemma y_bgp ap al : yields (parse_bgp_message ap al) bgp_ranged.
Proof.
  intros s m r Hs H. unfold parse_bgp_message in H. revert H. cbv zeta. generalize (nlen s) as total. intros total.
  match goal with |- ?p s = _ -> _ => enough (yields p bgp_ranged) as G by exact (G _ _ _ Hs) end.
  eapply y_bind; [apply y_has|]. intros _ _. eapply y_bind; [apply y_has|]. intros _ _. eapply y_bind; [apply y_split|]. intros _ _.
  eapply y_bind; [exact y_u16|]. intros len _. destruct (len <? 19); [apply y_fail|].
  eapply y_bind; [exact (y_be 1)|]. intros t _. destruct (_ || _); [apply y_fail|]. destruct (_ && _); [apply y_fail|].
  eapply y_bind; [apply y_has|]. intros _ _. eapply y_bind; [apply y_split|]. intros d Hd.
  apply y_lift. intros x Hx. exact (body_ranged_of _ _ _ _ _ Hd Hx).
Qed.

(** * Records *)
Lemma y_state : yields read_state (fun _ => True).
Proof. eapply y_bind; [exact y_u16|]. intros n _. apply y_lift. auto. Qed.
Lemma mp_message_ranged ap al t s m : bytes_ok s -> parse_mp_message ap al t s = Ok m -> body_ranged (MrtBgp4mp (MpMessage m)).
Proof.
  intros Hs. unfold parse_mp_message. generalize (is_short_zebra_open s al) as z, (nlen s) as n. intros z n.
  apply (y_run _ (fun m => body_ranged (MrtBgp4mp (MpMessage m)))); auto.
  eapply y_bind; [apply y_asn|]. intros pa Hpa. eapply y_bind; [apply y_asn|]. intros la _. destruct z.
  - eapply y_bind; [apply y_bgp|]. intros b Hb. apply y_ret. cbn. repeat split; auto; lia.
  - eapply y_bind; [exact y_u16|]. intros i _. eapply y_bind; [apply y_afi|]. intros a _.
    eapply (y_bind _ _ (fun _ => True)); [apply y_lift; auto|]. intros k _.
    eapply y_bind; [apply y_addr|]. intros pi Hpi. eapply y_bind; [apply y_addr|]. intros li _.
    eapply y_bind; [apply y_remaining|]. intros r _. destruct (negb _); [apply y_fail|].
    eapply y_bind; [apply y_bgp|]. intros b Hb. apply y_ret. cbn. repeat split; auto.
Qed.
Lemma bgp4mp_ranged sub s m : bytes_ok s -> parse_bgp4mp sub s = Ok m -> body_ranged (MrtBgp4mp m).
Proof.
  intros Hs H. unfold parse_bgp4mp in H.
  repeat match type of H with match ?x with _ => _ end = _ => destruct x; try discriminate H end;
    apply rbind_inv in H as (x & H & E); injection E as <-; try exact I; exact (mp_message_ranged _ _ _ _ _ Hs H).
Qed.
Lemma legacy_ranged sub s m : bytes_ok s -> parse_legacy sub s = Ok m -> body_ranged (MrtLegacy m).
Proof.
  intros Hs.
  assert (forall k, run (pa <- read_u16 ;; pi <- read_ipv4 ;; la <- read_u16 ;; li <- read_ipv4 ;;
           r <- peek ;; m <- lift (parse_legacy_payload k r) ;;
           ret (LgMessage (LgMsg pa (V4 pi) la (V4 li) m))) s = Ok m -> body_ranged (MrtLegacy m)) as G.
  { intros k. apply (y_run _ (fun m => body_ranged (MrtLegacy m))); auto.
    eapply y_bind; [exact y_u16|]. intros pa Hpa. eapply y_bind; [exact y_u32|]. intros pi Hpi.
    eapply y_bind; [exact y_u16|]. intros la _. eapply y_bind; [exact y_u32|]. intros li _.
    eapply y_bind; [apply y_peek|]. intros r Hr. eapply (y_bind _ _ bgp_ranged).
    { apply y_lift. intros x H. unfold parse_legacy_payload in H.
      repeat match type of H with match ?x with _ => _ end = _ => destruct x; try discriminate H end;
        try (injection H as <-; exact I);
        apply rbind_inv in H as (y & H & E); injection E as <-; try exact I; exact (update_ranged_of _ _ _ _ Hr H). }
    intros b Hb. apply y_ret. cbn. auto. }
  assert (run (pa <- read_u16 ;; pi <- read_ipv4 ;; o <- read_state ;; n <- read_state ;;
           r <- peek ;;
           match r with
           | [] => ret (LgStateChange (LgState pa (V4 pi) o n))
           | _ => fail EParse
           end) s = Ok m -> body_ranged (MrtLegacy m)) as G2.
  { apply (y_run _ (fun m => body_ranged (MrtLegacy m))); auto.
    eapply y_bind; [exact y_u16|]. intros pa Hpa. eapply y_bind; [exact y_u32|]. intros pi Hpi.
    eapply y_bind; [exact y_state|]. intros o _. eapply y_bind; [exact y_state|]. intros n _.
    eapply y_bind; [apply y_peek|]. intros r _. destruct r; [apply y_ret; exact I|apply y_fail]. }
  intros H. unfold parse_legacy in H.
  repeat match type of H with match ?x with _ => _ end = _ => destruct x; try discriminate H end; try exact (G _ H); exact (G2 H).
Qed.
Lemma dumps_ranged sub s l : bytes_ok s -> parse_dumps sub s = Ok l -> Forall dump_ranged l.
Proof.
  intros Hs. unfold parse_dumps. destruct (dump_afi sub) as [a|]; [|discriminate]. apply y_run; auto.
  eapply y_bind; [exact y_u16|]. intros v _. eapply y_bind; [exact y_u16|]. intros q _. eapply y_bind; [apply y_peek|]. intros r Hr.
  eapply (y_bind _ _ (Forall dump_ranged)).
  - apply y_lift. intros x Hx. refine (y_many _ _ _ _ _ _ Hr Hx). unfold read_dump_entry.
    eapply (y_bind _ _ net_ok).
    { destruct a; [apply y_net4|apply y_net6|apply y_ret; split; cbn; lia]. }
    intros p Hp. eapply y_bind; [exact (y_be 1)|]. intros st _. eapply y_bind; [exact y_u32|]. intros tm Htm.
    eapply y_bind; [apply y_addr|]. intros pi Hpi. eapply y_bind; [exact y_u16|]. intros pa Hpa. eapply y_bind; [exact y_u16|]. intros n _.
    eapply y_bind; [apply y_has|]. intros _ _. eapply y_bind; [apply y_split|]. intros b Hb.
    eapply y_bind; [apply y_lift; intros y Hy; refine (attributes_ranged _ _ _ Hb _ Hy); exact I|]. intros at0 Hat.
    apply y_ret. split; [split; [exact Hp|exact I]|]. repeat split; auto.
  - intros x Hx. destruct x; [apply y_fail|apply y_ret; exact Hx].
Qed.
Lemma y_peer : yields read_peer peer_ok.
Proof.
  unfold read_peer. eapply y_bind; [exact (y_be 1)|]. intros t _. eapply y_bind; [exact y_u32|]. intros i Hi.
  eapply y_bind; [apply y_addr|]. intros a Ha. eapply y_bind; [apply y_asn|]. intros n Hn. apply y_ret. repeat split; auto.
Qed.
Lemma map_insert_all {V} (P : V -> Prop) k v (m : list (N * V)) :
  P v -> Forall (fun x => P (snd x)) m -> Forall (fun x => P (snd x)) (map_insert N.eqb k v m).
Proof.
  intros Hv Hm. induction Hm as [|[k' v'] m Hx Hm IH]; cbn [map_insert]; [constructor; auto|]. destruct (N.eqb k k'); constructor; auto.
Qed.
Lemma number_ranged l k t : Forall peer_ok l -> Forall (fun x => peer_ok (snd x)) (pt_peers t) ->
  Forall (fun x => peer_ok (snd x)) (pt_peers (number_peers k l t)).
Proof.
  intros Hl. revert k t. induction Hl; intros k t Ht; cbn [number_peers]; auto. apply IHHl. cbn [pt_peers]. apply map_insert_all; auto.
Qed.
Lemma table_ok_of t : Forall (fun x => peer_ok (snd x)) (pt_peers t) -> table_ok (Some t).
Proof.
  intros H i p. unfold get_peer_by_id. induction H as [|[k v] m Hx Hm IH]; cbn [map_get]; [discriminate|].
  destruct (N.eqb i k); auto. intros E. injection E as <-. exact Hx.
Qed.
Lemma y_table : yields parse_peer_table (fun t => table_ok (Some t)).
Proof.
  unfold parse_peer_table. eapply y_bind; [exact y_u32|]. intros c _. eapply y_bind; [exact y_u16|]. intros n _.
  eapply y_bind; [apply y_nbytes|]. intros nm _. eapply y_bind; [exact y_u16|]. intros k _.
  eapply y_bind; [apply y_repeat, y_peer|]. intros l Hl. apply y_ret. apply table_ok_of, number_ranged; [exact Hl|constructor].
Qed.
Lemma y_rib_entry ap a sf p : prefix_ok p -> yields (read_rib_entry ap a sf p) entry_ranged.
Proof.
  intros Hp s e r Hs H. unfold read_rib_entry in H. destruct (Nat.ltb (length s) 8); try discriminate. revert H.
  match goal with |- ?p s = _ -> _ => enough (yields p entry_ranged) as G by exact (G _ _ _ Hs) end.
  eapply y_bind; [exact y_u16|]. intros pi _. eapply y_bind; [exact y_u32|]. intros t Ht.
  eapply (y_bind _ _ (fun _ => True)). { destruct ap; [eapply y_bind; [exact y_u32|]; intros; apply y_ret; auto|apply y_ret; auto]. }
  intros pid _. eapply y_bind; [exact y_u16|]. intros n _. eapply y_bind; [apply y_has|]. intros _ _. eapply y_bind; [apply y_split|]. intros b Hb.
  eapply y_bind; [apply y_lift; intros y Hy; refine (attributes_ranged _ _ _ Hb _ Hy)|]. { cbn. repeat constructor; apply Hp. }
  intros at0 Hat. apply y_ret. split; [exact Ht|]. apply mandatory_ranged, Hat.
Qed.
Lemma dump_v2_ranged sub s m : bytes_ok s -> parse_dump_v2 sub s = Ok m -> body_ranged (MrtV2 m).
Proof.
  intros Hs. assert (forall k r, parse_rib k s = Ok r -> body_ranged (MrtV2 (V2Rib r))) as G.
  { intros k r. unfold parse_rib. destruct (rib_family k) as [[a sf]|]; [|discriminate]. apply (y_run _ (fun r => body_ranged (MrtV2 (V2Rib r)))); auto.
    eapply y_bind; [exact y_u32|]. intros q _. eapply y_bind; [apply y_prefix|]. intros p Hp. eapply y_bind; [exact y_u16|]. intros c _.
    eapply y_bind; [apply y_peek|]. intros d Hd. eapply y_bind; [apply y_lift; intros x Hx; exact (y_upto _ _ (y_rib_entry _ _ _ _ Hp) _ _ _ Hd Hx)|].
    intros l Hl. apply y_ret. split; auto. }
  intros H. unfold parse_dump_v2 in H.
  repeat match type of H with match ?x with _ => _ end = _ => destruct x; try discriminate H end;
    apply rbind_inv in H as (x & H & E); injection E as <-; try exact I; try exact (G _ _ H).
  exact (y_run _ _ _ _ y_table Hs H).
Qed.
Lemma mrt_body_ranged ty sub s m : bytes_ok s -> parse_mrt_body ty sub s = Ok m -> body_ranged m.
Proof.
  intros Hs H. unfold parse_mrt_body in H. destruct (negb _); try discriminate.
  repeat match type of H with match ?x with _ => _ end = _ => destruct x; try discriminate H end;
    apply rbind_inv in H as (x & H & E); injection E as <-;
    try exact (bgp4mp_ranged _ _ _ Hs H); try exact (dump_v2_ranged _ _ _ Hs H); try exact (legacy_ranged _ _ _ Hs H).
  apply dumps_ranged in H; auto. destruct x as [|d [|d' l]]; auto. cbn. inversion H; auto.
Qed.
(** * Framing *)
Lemma upto_octets n s st g s' : read_upto n s = (st, g, s') -> octet_source s -> bytes_ok g /\ octet_source s'.
Proof. intros H Hs. apply read_upto_bytes in H. unfold octet_source in *. rewrite H in Hs. apply bytes_ok_app in Hs. exact Hs. Qed.
Lemma be4_bound b : bytes_ok b -> be_val (firstn 4 b) < 2 ^ 32.
Proof.
  intros Hb. pose proof (be_val_bound _ (bytes_ok_firstn 4 b Hb)) as H. eapply N.lt_le_trans; [exact H|].
  change (2 ^ 32) with (256 ^ 4). apply N.pow_le_mono_r; [lia|]. pose proof (firstn_le_length 4 b). lia.
Qed.
Lemma header_clock s h b s' : parse_common_header_s s = HOk h b s' -> octet_source s -> clock_ok h /\ octet_source s'.
Proof.
  intros H Hs. unfold parse_common_header_s in H. destruct (read_upto 12 s) as [[[] g] s1] eqn:E1; try discriminate.
  destruct (upto_octets _ _ _ _ _ E1 Hs) as [Hg Hs1]. unfold split_header in H. cbv beta iota zeta in H.
  destruct (negb _); try discriminate. destruct (_ =? ET_BGP4MP_ET).
  - destruct (_ <? 4); try discriminate. destruct (read_upto 4 s1) as [[[] u] s2] eqn:E2; try discriminate.
    destruct (upto_octets _ _ _ _ _ E2 Hs1) as [Hu Hs2]. injection H as <- _ <-. split; [|exact Hs2]. split; [apply be4_bound, Hg|].
    cbn [h_us opt_all]. pose proof (be_val_bound _ Hu) as Hv. rewrite (read_upto_full _ _ _ _ E2) in Hv. exact Hv.
  - injection H as <- _ <-. split; [|exact Hs1]. split; [apply be4_bound, Hg|exact I].
Qed.
Lemma chunk_octets s r s' : chunk_mrt_record_s s = CRec r s' -> octet_source s ->
  clock_ok (r_hdr r) /\ bytes_ok (r_body r) /\ octet_source s'.
Proof.
  intros H Hs. unfold chunk_mrt_record_s in H. destruct (parse_common_header_s s) as [h b s1|e c s1] eqn:E1.
  2:{ destruct e; try discriminate H; destruct c; discriminate H. }
  destruct (header_clock _ _ _ _ E1 Hs) as [Hh Hs1]. destruct (_ <? h_len h); try discriminate.
  destruct (read_upto _ s1) as [[[] g] s2] eqn:E2; try discriminate. destruct (upto_octets _ _ _ _ _ E2 Hs1) as [Hg Hs2].
  destruct (_ && _).
  - destruct (read_upto 4 s2) as [[[] c] s3] eqn:E3; try discriminate. destruct (upto_octets _ _ _ _ _ E3 Hs2) as [Hc Hs3].
    injection H as <- <-. cbn [r_hdr r_body]. rewrite bytes_ok_app. auto.
  - injection H as <- <-. auto.
Qed.
Lemma err_octets s e h c s' : chunk_mrt_record_s s = CErr e h c s' -> octet_source s -> octet_source s'.
Proof.
  intros H Hs. unfold chunk_mrt_record_s in H. destruct (parse_common_header_s s) as [hd b s1|e1 c1 s1] eqn:E1.
  - destruct (header_clock _ _ _ _ E1 Hs) as [Hh Hs1]. destruct (_ <? h_len hd); [injection H as _ _ _ <-; auto|].
    destruct (read_upto _ s1) as [[[] g] s2] eqn:E2; destruct (upto_octets _ _ _ _ _ E2 Hs1) as [Hg Hs2];
      try (injection H as _ _ _ <-; auto; fail).
    destruct (_ && _); try discriminate.
    destruct (read_upto 4 s2) as [[[] c2] s3] eqn:E3; try discriminate; destruct (upto_octets _ _ _ _ _ E3 Hs2); injection H as _ _ _ <-; auto.
  - assert (octet_source s1) as Hs1.
    { clear H. unfold parse_common_header_s in E1. destruct (read_upto 12 s) as [[[] g] s2] eqn:E2;
        destruct (upto_octets _ _ _ _ _ E2 Hs) as [Hg Hs2]; try (injection E1 as _ _ <-; auto; fail).
      destruct (split_header g) as [[[? ?] ?] ?]. destruct (negb _); [injection E1 as _ _ <-; auto|].
      destruct (_ =? ET_BGP4MP_ET); try discriminate. destruct (_ <? 4); [injection E1 as _ _ <-; auto|].
      destruct (read_upto 4 s2) as [[[] u] s3] eqn:E3; try discriminate; destruct (upto_octets _ _ _ _ _ E3 Hs2); injection E1 as _ _ <-; auto. }
    destruct e1; try (injection H as _ _ _ <-; auto; fail). destruct c1; injection H as _ _ _ <-; auto.
Qed.
Lemma record_ranged_of s r z s' : octet_source s -> parse_mrt_record_s s = RRec r z s' -> record_ranged r /\ octet_source s'.
Proof.
  intros Hs H. unfold parse_mrt_record_s in H. destruct (chunk_mrt_record_s s) as [w s1|] eqn:E; try discriminate.
  destruct (chunk_octets _ _ _ E Hs) as (Hh & Hb & Hs1). unfold parse_raw in H.
  destruct (parse_mrt_body _ _ _) as [m|e|] eqn:E2; try discriminate. cbn [rbind] in H. injection H as <- _ <-.
  split; [|exact Hs1]. split; [exact Hh|]. exact (mrt_body_ranged _ _ _ _ Hb E2).
Qed.
Lemma record_err_octets s e c s' : octet_source s -> parse_mrt_record_s s = RErr e c s' -> octet_source s'.
Proof.
  intros Hs H. unfold parse_mrt_record_s in H. destruct (chunk_mrt_record_s s) as [w s1|e1 h1 c1 s1] eqn:E.
  - destruct (chunk_octets _ _ _ E Hs) as (_ & _ & Hs1). destruct (parse_raw w); try discriminate. injection H as _ _ <-. exact Hs1.
  - injection H as _ _ <-. exact (err_octets _ _ _ _ _ E Hs).
Qed.

(** * Elements *)
Lemma comm_meta c : comm_ok c -> (forall x, c = MPlain x -> community_ok x) -> meta_ranged c.
Proof.
  destruct c as [c|x|c|c]; cbn [comm_ok meta_ranged]; intros H Hp; auto.
  - specialize (Hp _ eq_refl). destruct c; cbn [community_ok] in Hp; auto. lia.
  - destruct x; cbn [ext_ok] in H; cbn [ext_ranged]; unfold octets_of in H; unfold octets_n, nlen;
      repeat match goal with H : _ /\ _ |- _ => destruct H end; repeat split; auto; lia.
  - destruct H as (Ht & H). split; [|exact H]. unfold ect_ok in Ht. destruct (ie_type c); auto. tauto.
Qed.
Definition meta_ok (c : meta_community) : Prop := comm_ok c /\ meta_ranged c.
Definition rel_ranged (r : relevant) : Prop :=
  opt_all path_u32 (v_path r) /\ opt_all path_u32 (v_path4 r) /\ opt_all ip_ok (v_hop r) /\
  opt_all (fun n => n < 2 ^ 32) (v_pref r) /\ opt_all (fun n => n < 2 ^ 32) (v_med r) /\ Forall meta_ok (v_comms r) /\
  opt_all (fun x => fst x < 2 ^ 32 /\ snd x < 2 ^ 32) (v_aggr r) /\ opt_all nlri_ranged (v_reach r) /\ opt_all nlri_ranged (v_unreach r) /\
  opt_all (fun n => n < 2 ^ 32) (v_otc r) /\ Forall raw_ranged (v_unknown r) /\ Forall raw_ranged (v_depr r).
Lemma metas_ok {A} (f : A -> meta_community) (Q : A -> Prop) l cs :
  (forall a, Q a -> meta_ok (f a)) -> Forall Q l -> Forall meta_ok cs -> Forall meta_ok (cs ++ map f l).
Proof. intros Hf Hl Hc. apply Forall_app. split; auto. apply Forall_map. eapply Forall_impl; [|exact Hl]. auto. Qed.
Lemma rel_step_ranged r v : rel_ranged r -> value_ranged v -> rel_ranged (rel_step r v).
Proof.
  destruct r as [p p4 o h lp md cs at_ ag an wd otc un de]. unfold rel_ranged.
  cbn [v_path v_path4 v_hop v_pref v_med v_comms v_aggr v_reach v_unreach v_otc v_unknown v_depr].
  intros (H1 & H2 & H3 & H4 & H5 & H6 & H7 & H8 & H9 & H10 & H11 & H12) Hv.
  assert (forall r : N * bytes, raw_ranged r -> Forall raw_ranged (un ++ [r])) as Hun by (intros r Hr; apply Forall_app; auto).
  assert (forall r : N * bytes, raw_ranged r -> Forall raw_ranged (de ++ [r])) as Hde by (intros r Hr; apply Forall_app; auto).
  destruct v; cbn [rel_step v_path v_path4 v_hop v_pref v_med v_comms v_aggr v_reach v_unreach v_otc v_unknown v_depr value_ranged] in *;
    refine (conj _ (conj _ (conj _ (conj _ (conj _ (conj _ (conj _ (conj _ (conj _ (conj _ (conj _ _)))))))))));
    try assumption; try exact Hv; try (apply Hun, Hv); try (apply Hde, Hv).
  - refine (metas_ok _ _ _ _ _ Hv H6). intros a Ha. split; [exact I|]. apply comm_meta; [exact I|]. intros x E. injection E as <-. exact Ha.
  - refine (metas_ok _ _ _ _ _ Hv H6). intros a Ha. split; [exact Ha|]. apply comm_meta; [exact Ha|discriminate].
  - refine (metas_ok _ _ _ _ _ Hv H6). intros a Ha. split; [exact Ha|]. apply comm_meta; [exact Ha|discriminate].
  - refine (metas_ok _ _ _ _ _ Hv H6). intros a Ha. split; [exact Ha|]. apply comm_meta; [exact Ha|discriminate].
Qed.
Lemma relevant_ranged a : attrs_ranged a -> rel_ranged (get_relevant_attributes a).
Proof.
  intros Ha. unfold get_relevant_attributes.
  assert (rel_ranged (fold_left rel_step (values a) rel_init)) as H.
  { assert (rel_ranged rel_init) as Hi by (repeat split; try constructor; cbn; lia).
    revert Hi. generalize rel_init. induction Ha as [|v l Hv Hl IH]; intros r Hr; cbn [fold_left]; auto. apply IH, rel_step_ranged; auto. }
  destruct (fold_left rel_step (values a) rel_init) as [p p4 o h lp md cs at_ ag an wd otc un de].
  unfold rel_ranged in *. cbn [v_path v_path4 v_hop v_pref v_med v_comms v_aggr v_reach v_unreach v_otc v_unknown v_depr] in *.
  destruct H as (H1 & H2 & H3 & H4 & H5 & H6 & H7 & H8 & H9 & H10 & H11 & H12).
  do 2 (split; [assumption|]). split; [|tauto].
  destruct h; auto. destruct an as [n|]; auto. destruct H8 as [_ H8]. destruct (nl_next n); auto.
Qed.
Lemma leading_ranged k p l : path_u32 p -> take_leading k p = Ok l -> path_u32 l.
Proof.
  intros Hp. revert k l. induction Hp as [|s p Hs Hp IH]; intros k l H; cbn [take_leading] in H. { injection H as <-. constructor. }
  destruct k as [|k]; [injection H as <-; constructor|]. destruct (seg_route_len s) as [|n].
  - apply rbind_inv in H as (l' & H1 & H). injection H as <-. constructor; [auto|exact (IH _ _ H1)].
  - destruct (Nat.leb (S n) (S k)).
    + apply rbind_inv in H as (l' & H1 & H). injection H as <-. constructor; [auto|exact (IH _ _ H1)].
    + destruct (s_kind s); try discriminate. apply rbind_inv in H as (l' & H1 & H). injection H as <-. constructor; [|exact (IH _ _ H1)].
      cbn [s_asns]. unfold u32s. rewrite <- (firstn_skipn (S k) (s_asns s)) in Hs. apply Forall_app in Hs. apply Hs.
Qed.
Lemma coalesce_from_ranged s l : u32s (s_asns s) -> path_u32 l -> path_u32 (coalesce_from plain_merge s l).
Proof.
  intros Hs Hl. revert s Hs. induction Hl as [|y l Hy Hl IH]; intros s Hs; cbn [coalesce_from]. { repeat constructor; auto. }
  unfold plain_merge at 1. destruct (merge_in_place s y) as [m|] eqn:E; [|constructor; [exact Hs|exact (IH y Hy)]].
  apply IH. unfold merge_in_place in E.
  destruct (s_kind s), (s_kind y); try (injection E as <-; apply Forall_app; auto; fail);
    (destruct (is_empty_seq s); [injection E as <-; auto|]; destruct (is_empty_seq y); [injection E as <-; auto|discriminate]).
Qed.
Lemma merge_ranged p q m : path_u32 p -> path_u32 q -> merge_aspath_as4path p q = Ok m -> path_u32 m.
Proof.
  intros Hp Hq H. unfold merge_aspath_as4path in H. destruct (Nat.ltb _ _); [injection H as <-; auto|].
  apply rbind_inv in H as (l & H1 & H). injection H as <-. pose proof (leading_ranged _ _ _ Hp H1) as Hl.
  assert (path_u32 (l ++ q)) as Hc by (apply Forall_app; auto). unfold coalesce. destruct (l ++ q); [constructor|].
  apply Forall_cons_iff in Hc as [Hs Hc]. apply coalesce_from_ranged; auto.
Qed.
Lemma paths_ranged p q m : opt_all path_u32 p -> opt_all path_u32 q -> merge_paths p q = Ok m -> opt_all path_u32 m.
Proof.
  unfold merge_paths. destruct p as [p|], q as [q|]; cbn [opt_all]; intros Hp Hq H; try (injection H as <-; auto; fail).
  apply rbind_inv in H as (l & H1 & H). injection H as <-. exact (merge_ranged _ _ _ Hp Hq H1).
Qed.
Lemma last_in {A} (l : list A) a : last_opt l = Some a -> In a l.
Proof. unfold last_opt. destruct (rev l) as [|x t] eqn:E; [discriminate|]. intros H. injection H as <-. apply in_rev. rewrite E. left. auto. Qed.
Lemma origins_ranged p : path_u32 p -> u32s (iter_origins p).
Proof.
  intros Hp. unfold iter_origins. destruct (last_opt p) as [[k v]|] eqn:E; [|constructor].
  apply last_in in E. unfold path_u32 in Hp. rewrite Forall_forall in Hp. specialize (Hp _ E). cbn [s_asns] in Hp.
  destruct k; try constructor; auto. destruct (last_opt v) as [a|] eqn:E2; [|constructor]. apply last_in in E2.
  unfold u32s in Hp. rewrite Forall_forall in Hp. constructor; [auto|constructor].
Qed.
Lemma some_list_all {A} (Q : A -> Prop) l : Forall Q l -> opt_all (Forall Q) (some_list l).
Proof. destruct l; cbn; auto. Qed.
(** An element made of those variables. *)
Lemma made_ranged r t ty pi pa id p h path : rel_ranged r -> opt_all path_u32 path -> opt_all ip_ok h ->
  ip_ok pi -> pa < 2 ^ 32 -> opt_all (fun n => n < 2 ^ 32) id -> prefix_ok p ->
  in_range (Elem t ty pi pa id p h path (option_map iter_origins path) (v_origin r) (v_pref r) (v_med r)
    (some_list (v_comms r)) (v_atomic r) (option_map fst (v_aggr r)) (option_map snd (v_aggr r)) (v_otc r)
    (some_list (v_unknown r)) (some_list (v_depr r))).
Proof.
  intros (H1 & H2 & H3 & H4 & H5 & H6 & H7 & H8 & H9 & H10 & H11 & H12) Hp Hh Hi Ha Hid Hx.
  assert (Forall comm_ok (v_comms r) /\ Forall meta_ranged (v_comms r)) as [Hc Hm].
  { split; (eapply Forall_impl; [|exact H6]); intros c Hc; apply Hc. }
  split; [|apply some_list_all; exact Hc]. unfold elem_ranged.
  cbn [e_peer e_asn e_id e_prefix e_hop e_path e_origins e_pref e_med e_comms e_aggr_asn e_aggr_ip e_otc e_unknown e_depr].
  do 6 (split; [assumption|]). split. { destruct path; cbn; auto. apply origins_ranged. exact Hp. }
  do 2 (split; [assumption|]). split; [apply some_list_all; exact Hm|].
  split; [destruct (v_aggr r); cbn in *; tauto|]. split; [destruct (v_aggr r); cbn in *; tauto|].
  split; [assumption|]. split; apply some_list_all; assumption.
Qed.
Lemma dump_elem_ranged m : dump_ranged m -> in_range (table_dump_to_elem m).
Proof.
  intros (Hp & _ & Hi & Ha & Hat). unfold table_dump_to_elem. pose proof (relevant_ranged _ Hat) as Hr.
  apply made_ranged; auto; try apply Hr. exact I.
Qed.
Lemma rib_elem_ranged p pe e x : prefix_ok p -> peer_ok pe -> entry_ranged e -> rib_entry_to_elem p pe e = Ok x -> in_range x.
Proof.
  intros Hp (Hi & Ha & Hid) (_ & Hat) H. unfold rib_entry_to_elem in H. pose proof (relevant_ranged _ Hat) as Hr. cbv zeta in H.
  set (r := get_relevant_attributes (re_attrs e)) in *. clearbody r.
  apply rbind_inv in H as (path & H1 & H). injection H as <-. pose proof Hr as (R1 & R2 & R3 & R4 & R5 & R6 & R7 & R8 & _).
  apply made_ranged; auto; try exact (paths_ranged _ _ _ R1 R2 H1).
  destruct (v_hop r); auto. destruct (v_reach r) as [n|]; [|exact I]. destruct R8 as [_ R8]. destruct (nl_next n); auto.
Qed.
(** Iterators over the elements of one record. *)
Definition model_ranged (e : elem) : Prop := forall p, prefix_ok p -> in_range (with_prefix e p).
Definition upd_ranged (u : upd_iter) : Prop :=
  model_ranged (ui_model u) /\ Forall prefix_ok (ui_ann u) /\ Forall prefix_ok (ui_wd u).
Lemma withdrawal_ranged e p : model_ranged e -> prefix_ok p -> in_range (withdrawal e p).
Proof.
  intros He Hp. destruct (He p Hp) as [H _]. unfold elem_ranged in H. cbn [with_prefix e_peer e_asn e_id] in H. destruct H as (H1 & H2 & H3 & _).
  split; [|exact I]. unfold elem_ranged. cbn. repeat split; auto; apply Hp.
Qed.
Lemma upd_next_ranged u o u' : upd_ranged u -> upd_next u = (o, u') -> opt_all in_range o /\ upd_ranged u'.
Proof.
  destruct u as [m a w ph]. intros (Hm & Ha & Hw) H. cbn [ui_model ui_ann ui_wd] in *. unfold upd_next in H. cbn [ui_phase ui_ann ui_wd ui_model] in H.
  assert (forall ph' a', Forall prefix_ok a' -> match w with
    | p :: l => (Some (withdrawal m p), UpdIter m a' l ph') | [] => (None, UpdIter m a' w ph') end = (o, u') ->
    opt_all in_range o /\ upd_ranged u') as G.
  { intros ph' a' Ha' E. destruct w as [|p w]; [injection E as <- <-; split; [exact I|split; [exact Hm|split; assumption]]|]. injection E as <- <-.
    apply Forall_cons_iff in Hw as [Hp Hw]. split; [apply withdrawal_ranged; auto|split; [exact Hm|split; assumption]]. }
  destruct ph; [exact (G true a Ha H)|]. destruct a as [|p a]; [exact (G true [] (Forall_nil _) H)|].
  apply Forall_cons_iff in Ha as [Hp Ha]. injection H as <- <-. split; [apply Hm; auto|split; [exact Hm|split; assumption]].
Qed.
Lemma upd_of_ranged m t pi pa u : update_ranged m -> ip_ok pi -> pa < 2 ^ 32 -> bgp_update_to_elems_iter m t pi pa = Ok u -> upd_ranged u.
Proof.
  intros (Hw & Hat & Han) Hi Ha H. unfold bgp_update_to_elems_iter in H. pose proof (relevant_ranged _ Hat) as Hr. cbv zeta in H.
  set (r := get_relevant_attributes (u_attrs m)) in *. clearbody r.
  apply rbind_inv in H as (path & H1 & H). injection H as <-. pose proof Hr as (R1 & R2 & R3 & R4 & R5 & R6 & R7 & R8 & R9 & _).
  split; [|split]; cbn [ui_model ui_ann ui_wd].
  - intros p Hp. unfold with_prefix. cbn. apply made_ranged; auto; try exact (paths_ranged _ _ _ R1 R2 H1). exact I.
  - apply Forall_app. split; auto. destruct (v_reach r) as [n|]; [apply R8|constructor].
  - apply Forall_app. split; auto. destruct (v_unreach r) as [n|]; [apply R9|constructor].
Qed.
Lemma upd_collect_ranged f u : upd_ranged u -> Forall in_range (upd_collect f u).
Proof.
  revert u. induction f; intros u Hu; cbn [upd_collect]; [constructor|]. destruct (upd_next u) as [[e|] u'] eqn:E; [|constructor].
  destruct (upd_next_ranged _ _ _ Hu E) as [He Hu']. constructor; auto.
Qed.
Lemma bgp_elems_ranged m t pi pa l : bgp_ranged m -> ip_ok pi -> pa < 2 ^ 32 -> bgp_to_elems m t pi pa = Ok l -> Forall in_range l.
Proof.
  intros Hm Hi Ha H. unfold bgp_to_elems, bgp_to_elems_iter in H. destruct m; try (injection H as <-; constructor).
  apply rbind_inv in H as (o & H1 & H). apply rbind_inv in H1 as (u & H1 & H2). injection H2 as <-. injection H as <-.
  apply (upd_collect_ranged (S (upd_size u))). exact (upd_of_ranged _ _ _ _ _ Hm Hi Ha H1).
Qed.
Definition rec_ranged (i : rec_iter) : Prop :=
  match i with
  | RIEmpty => True
  | RIDump e => opt_all in_range e
  | RIBatch l => Forall dump_ranged l
  | RIRib t p l => table_ok (Some t) /\ prefix_ok p /\ Forall entry_ranged l
  | RIBgp u => upd_ranged u
  end.
Lemma rec_next_ranged i o i' : rec_ranged i -> rec_next i = Ok (o, i') -> opt_all in_range o /\ rec_ranged i'.
Proof.
  destruct i as [|e|l|t p l|u]; cbn [rec_ranged rec_next]; intros Hi H.
  - injection H as <- <-. split; exact I.
  - injection H as <- <-. split; [exact Hi|exact I].
  - destruct l as [|m l]; injection H as <- <-; [split; [exact I|constructor]|]. apply Forall_cons_iff in Hi as [Hm Hl].
    split; [apply dump_elem_ranged; exact Hm|exact Hl].
  - destruct Hi as (Ht & Hp & Hl). destruct l as [|e l]; [injection H as <- <-; split; [exact I|split; [exact Ht|split; assumption]]|].
    apply Forall_cons_iff in Hl as [He Hl]. destruct (get_peer_by_id t (re_peer e)) as [pe|] eqn:E; [|injection H as <- <-; split; exact I].
    apply rbind_inv in H as (x & H1 & H). injection H as <- <-. split; [exact (rib_elem_ranged _ _ _ _ Hp (Ht _ _ E) He H1)|].
    split; [exact Ht|split; assumption].
  - destruct (upd_next u) as [e u'] eqn:E. injection H as <- <-. exact (upd_next_ranged _ _ _ Hi E).
Qed.
Lemma rec_collect_ranged f i l : rec_ranged i -> rec_collect f i = Ok l -> Forall in_range l.
Proof.
  revert i l. induction f; intros i l Hi H; cbn [rec_collect] in H; [injection H as <-; constructor|].
  apply rbind_inv in H as ([o i'] & H1 & H). destruct (rec_next_ranged _ _ _ Hi H1) as [Ho Hi'].
  destruct o; [|injection H as <-; constructor]. apply rbind_inv in H as (l' & H2 & H). injection H as <-. constructor; eauto.
Qed.
Lemma record_elems_ranged el r l el' : table_ok el -> record_ranged r -> record_to_elems el r = Ok (l, el') ->
  Forall in_range l /\ table_ok el'.
Proof.
  intros Hel (_ & Hr) H. unfold record_to_elems in H.
  assert (forall o, record_to_elems_iter el r = Ok o -> match o with inr i => rec_ranged i | inl _ => True end) as G.
  { intros o Ho. unfold record_to_elems_iter in Ho. cbv zeta in Ho. destruct (mr_msg r) as [m|ms|[t|b| |g]|[m|m]|[m|m]]; cbn [body_ranged] in Hr;
      try (injection Ho as <-; cbn; auto; fail).
    - injection Ho as <-. exact (dump_elem_ranged _ Hr).
    - destruct el as [t|]; injection Ho as <-; [|exact I]. split; [exact Hel|exact Hr].
    - destruct Hr as (Ha & Hi & Hb). apply rbind_inv in Ho as (x & H1 & Ho). injection Ho as <-. unfold bgp_to_elems_iter in H1.
      destruct (mm_bgp m); try (injection H1 as <-; exact I). apply rbind_inv in H1 as (u & H1 & H2). injection H2 as <-.
      exact (upd_of_ranged _ _ _ _ _ Hb Hi Ha H1).
    - destruct Hr as (Ha & Hi & Hb). apply rbind_inv in Ho as (x & H1 & Ho). injection Ho as <-. unfold bgp_to_elems_iter in H1.
      destruct (lg_bgp m); try (injection H1 as <-; exact I). apply rbind_inv in H1 as (u & H1 & H2). injection H2 as <-.
      exact (upd_of_ranged _ _ _ _ _ Hb Hi Ha H1). }
  destruct (mr_msg r) as [m|ms|[t|b| |g]|m|m] eqn:Em;
    try (injection H as <- <-; split; [constructor|exact Hr]);
    apply rbind_inv in H as (o & H1 & H); specialize (G _ H1); (destruct o as [x|i]; [injection H as <- <-; split; [constructor|exact Hel]|]);
    apply rbind_inv in H as (l' & H2 & H); injection H as <- <-; (split; [exact (rec_collect_ranged _ _ _ G H2)|exact Hel]).
Qed.
