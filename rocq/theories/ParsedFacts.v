(** Everything read from octets is in range, including what elements do not show. *)
From Coq Require Import ZifyBool ZifyNat ZifyN Lia Sorting.Permutation.
From Verif Require Import Base BaseFacts Reader ReaderFacts Tac Net NetSpec NetFacts AsPath AsPathSpec AsPathFacts
  Community CommunitySpec CommunityFacts Mpls MplsFacts Tlv LinkState LinkStateSpec LinkStateFacts Nlri NlriSpec NlriFacts Attr AttrSpec AttrFacts
  Cap BgpError BgpMsg Bgp4mp TableDump TableDumpSpec TableDumpFacts Stream Framing FramingFacts MrtRecord Elem JsonSpec PsvSpec RangeSpec RangeFacts JsonRec JsonMsgSpec JsonRecSpec.

Lemma y_u8v : yields read_u8 u8v.
Proof. exact (y_be 1). Qed.
Lemma y_u16v : yields read_u16 u16v.
Proof. exact (y_be 2). Qed.
Lemma y_u32v : yields read_u32 u32v.
Proof. exact (y_be 4). Qed.
Lemma y_u64v : yields (read_be 8) u64v.
Proof. exact (y_be 8). Qed.
Lemma y_u128v : yields read_ipv6 u128v.
Proof. exact (y_be 16). Qed.
Lemma y_min {A} (p : P A) Q m : yields p Q ->
  forall fuel s l, bytes_ok s -> many_min m fuel p s = Ok l -> Forall Q l.
Proof.
  intros Hp. induction fuel; intros s l Hs H; cbn [many_min] in H; destruct (length s <? m)%nat; try discriminate; try (inv H; auto; fail).
  apply rbind_inv in H as ([a s'] & H1 & H). apply rbind_inv in H as (l' & H2 & H). injection H as <-.
  destruct (Hp _ _ _ Hs H1). constructor; eauto.
Qed.

(** * NLRI *)
Lemma y_hop b : yields (read_next_hop b) (opt_all hop_ranged).
Proof.
  destruct b; unfold read_next_hop; [|apply y_ret; exact I].
  eapply y_bind; [exact (y_be 1)|]. intros n _. eapply y_bind; [apply y_has|]. intros _ _. eapply y_bind; [apply y_split|].
  intros d Hd. apply y_lift. intros o Ho. apply parse_mp_nh_inv in Ho; auto. destruct Ho as [_ Ho]. destruct o as [[]|]; exact Ho.
Qed.
Lemma label_small n : fst (label_decode n) < 2 ^ 20.
Proof.
  cbn [label_decode fst]. unfold label_masked, MAX_LABEL. change 0xFFFFF with (N.ones 20). rewrite N.land_ones. apply N.mod_lt. discriminate.
Qed.
Lemma stack_in fuel mx peer : forall cnt s l r, bytes_ok s -> read_stack fuel mx peer cnt s = Ok (l, r) -> Forall (fun x => x < 2 ^ 20) l /\ bytes_ok r.
Proof.
  induction fuel; intros cnt s l r Hs H; cbn [read_stack] in H;
    destruct (mx <=? cnt); try discriminate; destruct (match peer with Some p => p <=? cnt | None => false end); try discriminate;
    destruct (length s <? 3)%nat; try discriminate.
  apply rbind_inv in H as ([w s1] & H1 & H). pose proof (label_small w) as Hw. destruct (label_decode w) as [x []] eqn:E; cbn [fst] in Hw.
  - assert (l = [x] /\ r = s1) as [-> ->] by (split; congruence). destruct (y_get 3 _ _ _ Hs H1). auto.
  - apply rbind_inv in H as ([l' s2] & H2 & H). assert (l = x :: l' /\ r = s2) as [-> ->] by (split; congruence).
    destruct (y_get 3 _ _ _ Hs H1) as [_ Hs1]. destruct (IHfuel _ _ _ _ Hs1 H2). auto.
Qed.
Lemma y_labels c : yields (read_labels c) (Forall (fun x => x < 2 ^ 20)).
Proof.
  intros s l r Hs H. unfold read_labels in H. destruct (lc_mode c); [|exact (stack_in _ _ _ _ _ _ _ Hs H)]. revert H.
  match goal with |- ?p s = _ -> _ => enough (yields p (Forall (fun x => x < 2 ^ 20))) as G by exact (G _ _ _ Hs) end.
  eapply y_bind; [apply y_need|]. intros _ _. eapply y_bind; [apply y_get|]. intros n _. apply y_ret. constructor; [apply label_small|constructor].
Qed.
Lemma y_labeled a c : yields (read_labeled a c) labeled_ranged.
Proof.
  unfold read_labeled. eapply y_bind; [apply y_label_head|]. intros [[i t] d] (Hi & Ht & Hd). cbn [fst snd] in *.
  apply y_lift. intros p Hp. revert Hp. apply y_run; auto.
  eapply y_bind; [apply y_labels|]. intros l Hl. eapply y_bind; [apply y_label_prefix; auto|]. intros x Hx. apply y_ret.
  split; [exact Hx|split; [exact Hl|]]. destruct i; [exact Hi|exact I].
Qed.
Lemma be_small k l : bytes_ok l -> length l = k -> be_val l < 256 ^ N.of_nat k.
Proof. intros Hl E. pose proof (be_val_bound l Hl) as H. rewrite E in H. exact H. Qed.
Lemma node_add d t : node_ranged d -> tlv_ranged (2 ^ 16) t -> node_ranged (add_node_desc d t).
Proof.
  intros (H1 & H2 & H3 & H4 & H5) [Ht Hv]. unfold add_node_desc. cbv zeta.
  repeat match goal with |- context [if ?b then _ else _] => destruct b eqn:? end;
    refine (conj _ (conj _ (conj _ (conj _ _)))); cbn [nd_as nd_ls_id nd_area nd_router nd_unknown opt_all]; auto;
    try (apply (be_small 4); auto; lia). apply Forall_app. split; [auto|]. constructor; [split; auto|constructor].
Qed.
Lemma link_add d t : link_ranged d -> tlv_ranged (2 ^ 16) t -> link_ranged (add_link_desc d t).
Proof.
  intros (H1 & H2 & H3 & H4 & H5 & H6 & H7) [Ht Hv]. unfold add_link_desc. cbv zeta.
  repeat match goal with |- context [if ?b then _ else _] => destruct b eqn:? end;
    refine (conj _ (conj _ (conj _ (conj _ (conj _ (conj _ _))))));
    cbn [ld_ids ld_if4 ld_nb4 ld_if6 ld_nb6 ld_mt ld_unknown opt_all fst snd]; auto;
    try (apply (be_small 4); auto; lia); try (apply (be_small 16); auto; lia); try (apply (be_small 2); auto; lia).
  - split; apply (be_small 4); [apply bytes_ok_firstn; auto|rewrite firstn_length; lia| |rewrite skipn_length; lia].
    rewrite <- (firstn_skipn 4 (t_value t)) in Hv. apply bytes_ok_app in Hv. tauto.
  - apply Forall_app. split; [auto|]. constructor; [split; auto|constructor].
Qed.
Lemma ip_prefix_in d x : bytes_ok d -> parse_ip_prefix d = Ok x -> net_ok x.
Proof.
  intros Hd H. unfold parse_ip_prefix in H. destruct d as [|n r]; [discriminate|]. apply Forall_cons_iff in Hd as [Hn Hr]. cbv zeta in H.
  assert (forall k w, (k <= w)%nat -> (k <= length r)%nat -> be_val (firstn k r ++ repeat 0 (w - k)) < 256 ^ N.of_nat w) as G.
  { intros k w Hk Hl. apply be_small; [|rewrite app_length, firstn_length, repeat_length; lia]. apply bytes_ok_app. split; [apply bytes_ok_firstn; auto|].
    apply Forall_forall. intros z Hz. apply repeat_spec in Hz. subst. reflexivity. }
  unfold byte_len in *. destruct (n <=? 32) eqn:E.
  - destruct (_ <? _)%nat eqn:E2 in H; try discriminate. apply ok_inj in H; subst x. split; [|cbn; lia]. cbn [net_addr ip_ok]. apply G; lia.
  - destruct (_ <? _)%nat eqn:E2 in H; try discriminate. destruct (128 <? n) eqn:E3; try discriminate. apply ok_inj in H; subst x. split; [|cbn; lia]. cbn [net_addr ip_ok]. apply G; lia.
Qed.
Lemma pdesc_add d t : pdesc_ranged d -> tlv_ranged (2 ^ 16) t -> pdesc_ranged (add_prefix_desc d t).
Proof.
  intros (H1 & H2 & H3 & H4) [Ht Hv]. unfold add_prefix_desc. cbv zeta.
  repeat match goal with |- context [if ?b then _ else _] => destruct b eqn:? | |- context [match ?x with Ok _ => _ | _ => _ end] => destruct x eqn:? end;
    refine (conj _ (conj _ (conj _ _))); cbn [pd_mt pd_ospf pd_reach pd_unknown opt_all]; auto;
    try (apply (be_small 1); auto; lia); try (apply (be_small 2); auto; lia).
  - eapply ip_prefix_in; eauto.
  - apply Forall_app. split; [auto|]. constructor; [split; auto|constructor].
Qed.
Lemma desc_tlvs_in fuel : forall s l, bytes_ok s -> desc_tlvs fuel s = Ok l -> Forall (tlv_ranged (2 ^ 16)) l.
Proof.
  induction fuel; intros s l Hs H; cbn [desc_tlvs] in H; destruct (length s <? 4)%nat; try discriminate; try (inv H; auto; fail).
  apply rbind_inv in H as ([h r] & H1 & H).
  assert (u16v (fst h) /\ bytes_ok r) as [Hh Hr].
  { revert H1. match goal with |- ?p s = _ -> _ => enough (yields p (fun h => u16v (fst h))) as G by exact (G _ _ _ Hs) end.
    eapply y_bind; [apply y_u16v|]. intros t Ht. eapply y_bind; [apply y_u16v|]. intros n _. apply y_ret. exact Ht. }
  destruct (_ <? _); [inv H; constructor|]. apply rbind_inv in H as ([v r'] & H2 & H). apply rbind_inv in H as (l' & H3 & H). injection H as <-.
  destruct (y_split _ _ _ _ Hr H2) as [Hv Hr']. constructor; [split; auto|eauto].
Qed.
Lemma y_desc {D} (add : D -> tlv -> D) e (Q : D -> Prop) :
  (forall d t, Q d -> tlv_ranged (2 ^ 16) t -> Q (add d t)) -> Q e -> yields (read_desc add e) Q.
Proof.
  intros Ha He. unfold read_desc. eapply y_bind; [apply y_remaining|]. intros k _. destruct (k <? 2)%nat; [apply y_ret, He|].
  eapply y_bind; [apply y_u16v|]. intros n _. eapply y_bind; [apply y_need|]. intros _ _. eapply y_bind; [apply y_nbytes|]. intros d Hd.
  eapply y_bind; [apply y_lift; intros l Hl; exact (desc_tlvs_in _ _ _ Hd Hl)|]. intros l Hl. apply y_ret.
  revert e He. induction Hl; intros e He; cbn [fold_left]; auto.
Qed.
Lemma y_node : yields read_node_desc node_ranged.
Proof. apply y_desc; [exact node_add|]. repeat split; constructor. Qed.
Lemma y_link : yields read_link_desc link_ranged.
Proof. apply y_desc; [exact link_add|]. repeat split; constructor. Qed.
Lemma y_pdesc : yields read_prefix_desc pdesc_ranged.
Proof. apply y_desc; [exact pdesc_add|]. repeat split; constructor. Qed.
Lemma type7 n : nlri_type_of n <= 7.
Proof. unfold nlri_type_of. destruct (n <=? 7) eqn:E; lia. Qed.
Lemma proto9 n : protocol_of n <= 9.
Proof. unfold protocol_of. destruct (n <=? 9) eqn:E; lia. Qed.
Lemma single_ls_in t d x : bytes_ok d -> parse_single_ls t d = Ok x -> ls_ranged x.
Proof.
  intros Hd. unfold parse_single_ls. cbv zeta. apply y_run; auto. pose proof (type7 t) as Ht.
  eapply y_bind; [apply y_need|]. intros _ _. eapply y_bind; [apply y_u8v|]. intros p _. pose proof (proto9 p) as Hp.
  eapply y_bind; [apply y_u64v|]. intros i Hi. destruct (nlri_type_of t =? 2); [|destruct (_ || _)];
    (eapply y_bind; [apply y_node|]; intros l Hl).
  - eapply y_bind; [apply y_node|]. intros r Hr. eapply y_bind; [apply y_link|]. intros k Hk. apply y_ret.
    refine (conj _ (conj _ (conj _ (conj _ (conj _ (conj _ _)))))); cbn; auto.
  - eapply y_bind; [apply y_pdesc|]. intros k Hk. apply y_ret. refine (conj _ (conj _ (conj _ (conj _ (conj _ (conj _ _)))))); cbn; auto.
  - apply y_ret. refine (conj _ (conj _ (conj _ (conj _ (conj _ (conj _ _)))))); cbn; auto.
Qed.
Lemma y_ls : yields read_ls_nlri ls_ranged.
Proof.
  unfold read_ls_nlri. eapply y_bind; [apply y_u16v|]. intros t _. eapply y_bind; [apply y_u16v|]. intros n _.
  eapply y_bind; [apply y_need|]. intros _ _. eapply y_bind; [apply y_nbytes|]. intros d Hd. apply y_lift. intros x. apply single_ls_in, Hd.
Qed.
Lemma nlri_in s a sf ps b ap n : bytes_ok s -> opt_all (Forall prefix_ok) ps -> parse_nlri s a sf ps b ap = Ok n -> nlri_ranged n.
Proof.
  intros Hs Hps. unfold parse_nlri. set (zero := match s with b :: _ => b =? 0 | [] => false end). apply y_run; auto.
  eapply (y_bind _ _ (fun _ => True)).
  { unfold given_or. destruct a; [destruct zero|]; [apply y_afi|apply y_ret; auto|apply y_afi]. }
  intros a' _. eapply (y_bind _ _ (fun _ => True)).
  { unfold given_or. destruct sf; [destruct zero|]; [apply y_safi|apply y_ret; auto|apply y_safi]. }
  intros sf' _. eapply y_bind; [apply y_hop|]. intros nh Hn.
  assert (forall l x y, Forall prefix_ok l -> opt_all (Forall labeled_ranged) x -> opt_all (Forall ls_ranged) y ->
    nlri_ranged (Nlri a' sf' nh l x y None)) as G by (intros l x y Hl Hx Hy; refine (conj _ (conj _ (conj _ (conj _ _)))); auto; exact I).
  destruct (afi_eqb a' ALinkState && _).
  { eapply y_bind; [apply y_reserved|]. intros _ _. eapply (y_bind _ _ (Forall ls_ranged)).
    { apply y_all. intros t l Ht Hl. eapply y_min; [apply y_ls|exact Ht|exact Hl]. }
    intros l Hl. apply y_ret, G; auto; exact I. }
  destruct (safi_eqb sf' SMplsLabel).
  { destruct b.
    - eapply y_bind; [apply y_reserved|]. intros _ _. eapply (y_bind _ _ (Forall labeled_ranged)).
      { apply y_all. intros t l Ht Hl. eapply y_many; [apply y_labeled|exact Ht|exact Hl]. }
      intros l Hl. apply y_ret, G; auto; exact I.
    - eapply (y_bind _ _ (Forall prefix_ok)).
      { apply y_all. intros t l Ht Hl. eapply y_many; [|exact Ht|exact Hl]. apply y_labeled_withdrawal. }
      intros l Hl. apply y_ret, G; auto; exact I. }
  assert (yields (skip_reserved b ;;; all_of (fun s => parse_nlri_list s ap a')) (Forall prefix_ok)) as Hr.
  { eapply y_bind; [apply y_reserved|]. intros _ _. apply y_all. intros t l Ht Hl. exact (nlri_list_ranged _ _ _ _ Hl Ht). }
  eapply (y_bind _ _ (Forall prefix_ok)).
  { destruct ps as [l|]; [destruct zero|]; auto. apply y_ret. exact Hps. }
  intros l Hl. apply y_ret, G; auto; exact I.
Qed.

(** * Attributes *)
Lemma y_tlv k n : yields (read_tlv k n) (tlv_ranged (256 ^ N.of_nat k)).
Proof.
  unfold read_tlv. eapply y_bind; [apply y_need|]. intros _ _. eapply y_bind; [apply y_be|]. intros t Ht.
  eapply y_bind; [apply y_be|]. intros m _. eapply y_bind; [apply y_need|]. intros _ _. eapply y_bind; [apply y_split|]. intros v Hv.
  apply y_ret. split; auto.
Qed.
Lemma y_ls_tlv : yields read_ls_tlv (tlv_ranged (2 ^ 16)).
Proof.
  unfold read_ls_tlv. eapply y_bind; [apply y_u16v|]. intros t Ht. eapply y_bind; [apply y_u16v|]. intros n _.
  eapply y_bind; [apply y_need|]. intros _ _. eapply y_bind; [apply y_nbytes|]. intros v Hv. apply y_ret. split; auto.
Qed.
Lemma keyed_insert types k v m : In k types -> bytes_ok v -> keyed types m -> keyed types (kinsert k v m).
Proof.
  intros Hk Hv [Hi Hm]. split; [apply kinsert_incr, Hi|]. clear Hi. induction Hm as [|[k' v'] m Hx Hm IH]; cbn [kinsert]; [constructor; auto|].
  destruct (k <? k'); [constructor; auto|]. destruct (k =? k'); constructor; auto.
Qed.
Lemma ls_add a t : ls_attr_ranged a -> tlv_ranged (2 ^ 16) t -> ls_attr_ranged (add_ls_tlv a t).
Proof.
  intros (H1 & H2 & H3 & H4) [Ht Hv]. rewrite add_ls_filed. unfold filed. destruct (slot_of (t_type t)) eqn:E;
    refine (conj _ (conj _ (conj _ _))); cbn [add_node add_link add_prefix add_unknown la_node la_link la_prefix la_unknown]; auto.
  - apply keyed_insert; auto. right. apply slot_node, E.
  - apply keyed_insert; auto. do 5 right. apply slot_link, E.
  - apply keyed_insert; auto. right. apply slot_prefix, E.
  - apply Forall_app. split; [auto|]. constructor; [split; auto|constructor].
Qed.
Lemma link_state_in s a : bytes_ok s -> parse_link_state s = Ok a -> ls_attr_ranged a.
Proof.
  intros Hs H. unfold parse_link_state in H. apply rbind_inv in H as (l & H1 & H). injection H as <-.
  apply (y_min _ _ _ y_ls_tlv _ _ _ Hs) in H1.
  assert (ls_attr_ranged ls_empty) as He by (repeat split; constructor). revert He. generalize ls_empty.
  induction H1; intros e He; cbn [fold_left]; auto. apply IHForall, ls_add; auto.
Qed.
Lemma sub_type_in n : sub_type_of n <= 20 \/ sub_type_of n = 128 \/ sub_type_of n = 129.
Proof. unfold sub_type_of. destruct (_ || _) eqn:E; lia. Qed.
Lemma y_sub : yields read_sub_tlv sub_ranged.
Proof.
  unfold read_sub_tlv. eapply y_bind; [apply y_need|]. intros _ _. eapply y_bind; [apply y_u8v|]. intros t _.
  eapply (y_bind _ _ (fun _ => True)).
  { destruct (t <? 128); (eapply y_bind; [apply y_need|]; intros _ _); eapply y_any; apply y_be. }
  intros n _. eapply y_bind; [apply y_need|]. intros _ _. eapply y_bind; [apply y_nbytes|]. intros v Hv. apply y_ret. split; [apply sub_type_in|exact Hv].
Qed.
Lemma y_tunnel : yields read_tunnel tunnel_ranged.
Proof.
  unfold read_tunnel. eapply y_bind; [apply y_u16v|]. intros t _. eapply y_bind; [apply y_u16v|]. intros n _.
  eapply y_bind; [apply y_need|]. intros _ _. eapply y_bind; [apply y_nbytes|]. intros d Hd. apply y_lift. intros x H.
  unfold parse_tunnel_tlv in H. apply rbind_inv in H as (l & H1 & H). injection H as <-. split; cbn [tn_type tn_subs].
  - unfold tunnel_type_of. destruct (t <=? 22) eqn:E; lia.
  - exact (y_many _ _ y_sub _ _ _ Hd H1).
Qed.
Lemma repeat_len {A} (p : P A) n s l r : repeat_p n p s = Ok (l, r) -> length l = n.
Proof.
  revert s l r. induction n; cbn [repeat_p]; intros s l r H. { apply ret_inv in H as [<- _]. reflexivity. }
  apply bind_inv in H as (a & s1 & _ & H). apply bind_inv in H as (l' & s2 & H1 & H). apply ret_inv in H as [<- _]. cbn [length]. f_equal. eauto.
Qed.
Lemma traffic_in s t : bytes_ok s -> parse_traffic_eng s = Ok t -> te_ranged t.
Proof.
  intros Hs. unfold parse_traffic_eng. apply y_run; auto. eapply y_bind; [apply y_need|]. intros _ _.
  eapply y_bind; [apply y_u8v|]. intros c Hc. eapply y_bind; [apply y_u8v|]. intros e He. eapply y_bind; [apply y_u16v|]. intros r Hr.
  eapply (y_bind _ _ (fun l => nlen l = 8)).
  { intros z l rest Hz H. destruct (y_repeat _ _ 8 y_u32v _ _ _ Hz H) as [_ H2]. split; [|exact H2]. unfold nlen. rewrite (repeat_len _ _ _ _ _ H). reflexivity. }
  intros l Hl. eapply y_bind; [apply y_peek|]. intros v Hv. apply y_ret. refine (conj _ (conj _ (conj _ (conj _ _)))); auto.
Qed.
Lemma bfd_in s b : bytes_ok s -> parse_bfd s = Ok b -> u8v (bfd_mode b) /\ u32v (bfd_disc b) /\ Forall (tlv_ranged 256) (bfd_tlvs b).
Proof.
  intros Hs H. unfold parse_bfd in H. apply rbind_inv in H as ([[m d] r] & H1 & H). apply rbind_inv in H as (l & H2 & H). injection H as <-.
  cbn [bfd_mode bfd_disc bfd_tlvs].
  assert (u8v m /\ u32v d /\ bytes_ok r) as (Hm & Hd & Hr).
  { revert H1. apply (y_run _ (fun x => u8v (fst (fst x)) /\ u32v (snd (fst x)) /\ bytes_ok (snd x))); auto.
    eapply y_bind; [apply y_need|]. intros _ _. eapply y_bind; [apply y_u8v|]. intros c Hc. eapply y_bind; [apply y_u32v|]. intros e He.
    eapply y_bind; [apply y_peek|]. intros v Hv. apply y_ret. auto. }
  repeat split; auto. exact (y_many _ _ (y_tlv 1 1) _ _ _ Hr H2).
Qed.
Lemma y_aigp : yields read_aigp_tlv aigp_ranged.
Proof.
  unfold read_aigp_tlv. eapply y_bind; [apply y_need|]. intros _ _. eapply y_bind; [apply y_u8v|]. intros t Ht.
  eapply y_bind; [apply y_u16v|]. intros n Hn. destruct (n <? 3); [apply y_fail|]. eapply y_bind; [apply y_need|]. intros _ _.
  eapply y_bind; [apply y_split|]. intros v Hv. apply y_ret. repeat split; auto.
Qed.
Lemma raw_in c s : c < 256 -> bytes_ok s -> u8v c /\ bytes_ok s.
Proof. auto. Qed.
Lemma attr_value_in k c s v : bytes_ok s -> cfg_ranged k -> parse_attr_value k c s = Ok v -> av_ranged v.
Proof.
  intros Hs Hk. unfold parse_attr_value. intros H.
  repeat match type of H with
  | match ?x with _ => _ end = _ => destruct x; try discriminate
  end;
  try (injection H as <-; first [exact I|exact Hs]);
  apply res_map_inv in H as (x & H & ->); cbn [av_ranged]; try exact I;
  try (destruct x as [? ?]; exact (aggregator_ranged _ _ _ Hs H));
  try exact (path_ranged _ _ _ Hs H);
  try exact (y_run _ _ _ _ (y_addr _) Hs H);
  try exact (y_run _ _ _ _ y_u32 Hs H);
  try exact (nlri_in _ _ _ _ _ _ _ Hs Hk H);
  try exact (link_state_in _ _ Hs H);
  try exact (traffic_in _ _ Hs H);
  try exact (bfd_in _ _ Hs H);
  try exact (y_min _ _ _ y_tunnel _ _ _ Hs H);
  try exact (y_many _ _ y_aigp _ _ _ Hs H);
  try exact (y_many _ _ y_u32v _ _ _ Hs H);
  try exact (y_many _ _ (y_tlv 1 2) _ _ _ Hs H);
  try exact (y_many _ _ (y_tlv 2 2) _ _ _ Hs H);
  try (unfold parse_originator_id in H; destruct (Nat.eqb _ _); try discriminate; exact (y_run _ _ _ _ y_u32 Hs H)).
  all: first
    [ destruct (ext_reencode _ _ Hs H) as (? & _ & _ & _ & Hx); eapply Forall_impl; [|exact Hx]; intros z Hz;
      exact (comm_meta (MExtended z) Hz ltac:(discriminate))
    | eapply Forall_impl; [|exact (proj2 (regular_reencode _ _ Hs H))]; intros z Hz; apply comm_meta; [exact I|]; intros y E; injection E as <-; exact Hz
    | eapply Forall_impl; [|exact (proj2 (ipv6_ext_reencode _ _ Hs H))]; intros z Hz; exact (comm_meta (MIpv6Extended z) Hz ltac:(discriminate))
    | eapply Forall_impl; [|exact (proj2 (large_reencode _ _ Hs H))]; intros z Hz; exact (comm_meta (MLarge z) Hz ltac:(discriminate)) ].
Qed.
Lemma attr_out_in k r : raw_ok r -> cfg_ranged k -> attr_in (fst (attr_out k r)).
Proof.
  intros (Hf & Hc & Hv & _) Hk. pose proof (attr_of_raw_ok k r) as H. unfold attr_of_raw in H.
  assert (u8v (r_code r) /\ bytes_ok (r_value r)) as Hr by (split; auto).
  destruct (mem (r_code r) deprecated_codes); [injection H as H; rewrite <- H; split; auto|].
  destruct (negb _); [injection H as H; rewrite <- H; split; auto|].
  destruct (mem (r_code r) raw_retained_codes); [injection H as H; rewrite <- H; split; auto|].
  destruct (parse_attr_value k (r_code r) (r_value r)) as [v|e|] eqn:E; try discriminate.
  - destruct (attr_code v =? r_code r); try discriminate. injection H as H; rewrite <- H. split; [exact (attr_value_in _ _ _ _ Hv Hk E)|exact Hf].
  - injection H as H; rewrite <- H; split; auto.
Qed.
Lemma attributes_in k s A : bytes_ok s -> cfg_ranged k -> parse_attributes k s = Ok A -> attrs_in_range A.
Proof.
  intros Hs Hk H. apply parse_block_inv in H as (l & e & _ & Hl & _ & _ & ->); auto.
  unfold attrs_in_range. cbn [at_inner]. apply Forall_map. eapply Forall_impl; [|exact Hl]. intros r Hr. apply attr_out_in; auto.
Qed.
Lemma mandatory_in A a b : attrs_in_range A -> attrs_in_range (check_mandatory A a b).
Proof. unfold check_mandatory. destruct (negb a); auto. Qed.
Lemma warned_in l A : attrs_in_range A -> attrs_in_range (fold_left add_warning l A).
Proof. revert A. induction l; cbn [fold_left]; auto. Qed.

(** * Messages *)
Lemma update_in ap al s m : bytes_ok s -> parse_update ap al s = Ok m -> up_ranged m.
Proof.
  intros Hs. apply y_run; auto.
  eapply y_bind; [exact y_u16|]. intros n _. eapply y_bind; [apply y_has|]. intros _ _. eapply y_bind; [apply y_split|]. intros w Hw.
  eapply y_bind; [apply y_lift; intros x Hx; exact (section_ranged _ _ _ _ Hw Hx)|]. intros [wd ww] Hwd.
  eapply y_bind; [exact y_u16|]. intros k _. eapply y_bind; [apply y_has|]. intros _ _. eapply y_bind; [apply y_split|]. intros a Ha.
  eapply y_bind; [apply y_lift; intros x Hx; refine (attributes_in _ _ _ Ha _ Hx); exact I|]. intros at0 Hat.
  eapply y_bind; [apply y_peek|]. intros r Hr.
  eapply y_bind; [apply y_lift; intros x Hx; exact (section_ranged _ _ _ _ Hr Hx)|]. intros [an aw] Han.
  apply y_ret. split; [exact Hwd|split; [|exact Han]]. cbn [u_attrs]. apply warned_in, mandatory_in, Hat.
Qed.
Lemma or_raw_in {A} b (r : res A) f v : bytes_ok b -> (forall a, r = Ok a -> cv_ranged (f a)) -> or_raw b r f = Ok v -> cv_ranged v.
Proof. intros Hb Hf H. unfold or_raw in H. destruct r; try discriminate; apply ok_inj in H; subst v; auto. Qed.
Lemma cap_value_in c b v : bytes_ok b -> parse_cap_value c b = Ok v -> cv_ranged v.
Proof.
  intros Hb H. unfold parse_cap_value in H.
  repeat match type of H with match ?x with _ => _ end = _ => destruct x; try discriminate end;
  try (injection H as <-; exact Hb); (eapply or_raw_in; [exact Hb| |exact H]);
  intros a Ha; try exact I.
  all: first
    [ unfold parse_as4 in Ha; destruct (Nat.eqb _ _) in Ha; try discriminate; exact (y_run _ _ _ _ y_u32v Hb Ha)
    | destruct a; exact I
    | unfold parse_restart in Ha; destruct (Nat.ltb _ _) in Ha; try discriminate; apply rbind_inv in Ha as ([w r] & H1 & Ha);
      apply rbind_inv in Ha as (l & H2 & Ha); apply ok_inj in Ha; subst a; cbn [cv_ranged gr_time]; unfold u16v; change 0x0FFF with (N.ones 12);
      rewrite N.land_ones; pose proof (N.mod_lt w (2 ^ 12)); lits; lia ].
Qed.
Lemma y_cap : yields read_cap cap_ranged.
Proof.
  unfold read_cap. eapply y_bind; [apply y_u8v|]. intros c Hc. eapply y_bind; [apply y_u8v|]. intros n _. eapply y_bind; [apply y_nbytes|]. intros b Hb.
  eapply y_bind; [apply y_lift; intros v Hv; exact (cap_value_in _ _ _ Hb Hv)|]. intros v Hv. apply y_ret. split; auto.
Qed.
Lemma y_param_body e t : u8v t -> yields (read_param_body e t) param_ranged.
Proof.
  intros Ht. unfold read_param_body. eapply (y_bind _ _ (fun _ => True)); [destruct e; eapply y_any; apply y_be|]. intros n _. destruct (t =? 2).
  - eapply y_bind; [apply y_has|]. intros _ _. eapply y_bind; [apply y_split|]. intros d Hd.
    eapply y_bind; [apply y_lift; intros l Hl; exact (y_min _ _ _ y_cap _ _ _ Hd Hl)|]. intros l Hl. apply y_ret. split; auto.
  - eapply y_bind; [apply y_nbytes|]. intros b Hb. apply y_ret. split; auto.
Qed.
Lemma y_param e : yields (read_param e) param_ranged.
Proof. unfold read_param. eapply y_bind; [apply y_u8v|]. intros t Ht. apply y_param_body, Ht. Qed.
Lemma params_in o s e l : bytes_ok s -> open_params o s = Ok (e, l) -> Forall param_ranged l.
Proof.
  intros Hs H. unfold open_params in H. destruct (Nat.ltb _ _). { injection H as _ <-. constructor. }
  apply rbind_inv in H as ([t s1] & H1 & H). destruct (y_u8v _ _ _ Hs H1) as [Ht Hs1]. destruct (t =? 255).
  - destruct (o =? 0); try discriminate. apply rbind_inv in H as ([n s2] & H2 & H). destruct (y_u16v _ _ _ Hs1 H2) as [_ Hs2].
    destruct (n =? 0). { injection H as _ <-. constructor. }
    apply rbind_inv in H as ([t' s3] & H3 & H). destruct (y_u8v _ _ _ Hs2 H3) as [Ht' Hs3].
    apply rbind_inv in H as ([p s4] & H4 & H). destruct (y_param_body _ _ Ht' _ _ _ Hs3 H4) as [Hp Hs4].
    apply rbind_inv in H as (l' & H5 & H). injection H as _ <-. constructor; auto. exact (y_min _ _ _ (y_param _) _ _ _ Hs4 H5).
  - apply rbind_inv in H as ([p s4] & H4 & H). destruct (y_param_body _ _ Ht _ _ _ Hs1 H4) as [Hp Hs4].
    apply rbind_inv in H as (l' & H5 & H). injection H as _ <-. constructor; auto. exact (y_min _ _ _ (y_param _) _ _ _ Hs4 H5).
Qed.
Lemma open_in s m : bytes_ok s -> parse_open s = Ok m -> open_ranged m.
Proof.
  intros Hs H. unfold parse_open in H. apply rbind_inv in H as ([[[[[v a] h] i] o] r] & H1 & H). apply rbind_inv in H as ([e l] & H2 & H). injection H as <-.
  assert ((u8v v /\ u16v a /\ u16v h /\ u32v i) /\ bytes_ok r) as ((Hv & Ha & Hh & Hi) & Hr).
  { revert H1. match goal with |- ?p s = _ -> _ => enough (yields p (fun x => u8v (fst (fst (fst (fst x)))) /\ u16v (snd (fst (fst (fst x)))) /\
      u16v (snd (fst (fst x))) /\ u32v (snd (fst x)))) as G by exact (G _ _ _ Hs) end.
    eapply y_bind; [apply y_has|]. intros _ _. eapply y_bind; [apply y_u8v|]. intros v' Hv. eapply y_bind; [apply y_u16v|]. intros a' Ha.
    eapply y_bind; [apply y_u16v|]. intros h' Hh. eapply y_bind; [apply y_u32v|]. intros i' Hi. eapply y_bind; [apply y_u8v|]. intros o' _.
    apply y_ret. cbn [fst snd]. auto. }
  refine (conj _ (conj _ (conj _ (conj _ _)))); cbn [o_version o_asn o_hold o_id o_params]; auto.
  - unfold u16v, u32v in *. lits. lia.
  - exact (params_in _ _ _ _ Hr H2).
Qed.
Lemma error_in c s : u8v c -> u8v s -> error_ranged (error_of c s).
Proof.
  intros Hc Hs. unfold error_of.
  repeat match goal with |- context [match ?x with _ => _ end] => is_var x; destruct x end; cbn [error_ranged]; auto;
    unfold header_error_of, open_error_of, update_error_of, fsm_error_of, cease_of, refresh_error_of;
    repeat match goal with |- context [match ?x with _ => _ end] => is_var x; destruct x end; try exact I; exact Hs.
Qed.
Lemma notif_in s m : bytes_ok s -> parse_notif s = Ok m -> error_ranged (nt_error m) /\ bytes_ok (nt_data m).
Proof.
  intros Hs. apply (y_run _ (fun m => error_ranged (nt_error m) /\ bytes_ok (nt_data m))); auto.
  eapply y_bind; [apply y_u8v|]. intros c Hc. eapply y_bind; [apply y_u8v|]. intros u Hu. eapply y_bind; [apply y_peek|]. intros d Hd.
  apply y_ret. split; [apply error_in; auto|exact Hd].
Qed.
Lemma refresh_in s m : bytes_ok s -> parse_refresh s = Ok m -> refresh_ranged m.
Proof.
  intros Hs. apply y_run; auto. eapply y_bind; [apply y_has|]. intros _ _. eapply y_bind; [apply y_u16v|]. intros a Ha.
  eapply y_bind; [apply y_u8v|]. intros t Ht. eapply y_bind; [apply y_u8v|]. intros f Hf. eapply y_bind; [apply y_peek|]. intros d Hd.
  apply y_ret. refine (conj _ (conj _ (conj _ _))); auto.
Qed.
Lemma msg_body_in ap al t s m : bytes_ok s -> parse_body ap al t s = Ok m -> msg_ranged m.
Proof.
  intros Hs H. unfold parse_body in H.
  repeat match type of H with match ?x with _ => _ end = _ => destruct x end;
    try (apply rbind_inv in H as (x & H & E); injection E as <-; cbn [msg_ranged]);
    first [exact (update_in _ _ _ _ Hs H) | exact (open_in _ _ Hs H) | exact (notif_in _ _ Hs H) | exact (refresh_in _ _ Hs H) | injection H as <-; exact I].
Qed.
Lemma y_msg ap al : yields (parse_bgp_message ap al) msg_ranged.
Proof.
  intros s m r Hs H. unfold parse_bgp_message in H. revert H. cbv zeta. generalize (nlen s) as total. intros total.
  match goal with |- ?p s = _ -> _ => enough (yields p msg_ranged) as G by exact (G _ _ _ Hs) end.
  eapply y_bind; [apply y_has|]. intros _ _. eapply y_bind; [apply y_has|]. intros _ _. eapply y_bind; [apply y_split|]. intros _ _.
  eapply y_bind; [exact y_u16|]. intros len _. destruct (len <? 19); [apply y_fail|].
  eapply y_bind; [exact (y_be 1)|]. intros t _. destruct (_ || _); [apply y_fail|]. destruct (_ && _); [apply y_fail|].
  eapply y_bind; [apply y_has|]. intros _ _. eapply y_bind; [apply y_split|]. intros d Hd.
  apply y_lift. intros x Hx. exact (msg_body_in _ _ _ _ _ Hd Hx).
Qed.

(** * Records *)
Lemma y_asnv l : yields (read_asn l) u32v.
Proof. apply y_asn. Qed.
Lemma mp_message_in ap al t s m : mp_code t -> bytes_ok s -> parse_mp_message ap al t s = Ok m -> mp_in (MpMessage m).
Proof.
  intros Hc Hs. unfold parse_mp_message. generalize (is_short_zebra_open s al) as z, (nlen s) as n. intros z n.
  apply (y_run _ (fun m => mp_in (MpMessage m))); auto.
  eapply y_bind; [apply y_asnv|]. intros pa Hpa. eapply y_bind; [apply y_asnv|]. intros la Hla. destruct z.
  - eapply y_bind; [apply y_msg|]. intros b Hb. apply y_ret. refine (conj _ (conj _ (conj _ (conj _ (conj _ (conj _ _)))))); auto; reflexivity.
  - eapply y_bind; [exact y_u16v|]. intros i Hi. eapply y_bind; [apply y_afi|]. intros a _.
    eapply (y_bind _ _ (fun _ => True)); [apply y_lift; auto|]. intros k _.
    eapply y_bind; [apply y_addr|]. intros pi Hpi. eapply y_bind; [apply y_addr|]. intros li Hli.
    eapply y_bind; [apply y_remaining|]. intros r _. destruct (negb _); [apply y_fail|].
    eapply y_bind; [apply y_msg|]. intros b Hb. apply y_ret. refine (conj _ (conj _ (conj _ (conj _ (conj _ (conj _ _)))))); auto.
Qed.
Lemma mp_state_in al t s m : mp_code t -> bytes_ok s -> parse_mp_state_change al t s = Ok m -> mp_in (MpStateChange m).
Proof.
  intros Hc Hs. unfold parse_mp_state_change. generalize (match al with Bits16 => nlen s =? 8 | Bits32 => false end) as z. intros z.
  apply (y_run _ (fun m => mp_in (MpStateChange m))); auto.
  eapply y_bind; [apply y_asnv|]. intros pa Hpa. eapply y_bind; [apply y_asnv|]. intros la Hla. destruct z.
  - eapply y_bind; [apply y_state|]. intros o _. eapply y_bind; [apply y_state|]. intros n _. apply y_ret.
    refine (conj _ (conj _ (conj _ (conj _ (conj _ _))))); auto; reflexivity.
  - eapply y_bind; [exact y_u16v|]. intros i Hi. eapply y_bind; [apply y_afi|]. intros a _.
    eapply (y_bind _ _ (fun _ => True)); [apply y_lift; auto|]. intros k _.
    eapply y_bind; [apply y_addr|]. intros pi Hpi. eapply y_bind; [apply y_addr|]. intros li Hli.
    eapply y_bind; [apply y_state|]. intros o _. eapply y_bind; [apply y_state|]. intros n _. apply y_ret.
    refine (conj _ (conj _ (conj _ (conj _ (conj _ _))))); auto.
Qed.
Lemma bgp4mp_in sub s m : bytes_ok s -> parse_bgp4mp sub s = Ok m -> mp_in m.
Proof.
  intros Hs H. unfold parse_bgp4mp in H.
  repeat match type of H with match ?x with _ => _ end = _ => destruct x; try discriminate H end;
    apply rbind_inv in H as (x & H & E); injection E as <-;
    first [refine (mp_message_in _ _ _ _ _ _ Hs H) | refine (mp_state_in _ _ _ _ _ Hs H)]; unfold mp_code; lia.
Qed.
Lemma legacy_payload_in k r x : bytes_ok r -> parse_legacy_payload k r = Ok x -> msg_ranged x.
Proof.
  intros Hr H. unfold parse_legacy_payload in H.
  repeat match type of H with match ?x with _ => _ end = _ => destruct x; try discriminate H end;
    try (injection H as <-; exact I);
    apply rbind_inv in H as (y & H & E); injection E as <-; cbn [msg_ranged];
    first [exact (update_in _ _ _ _ Hr H) | exact (open_in _ _ Hr H) | exact (notif_in _ _ Hr H)].
Qed.
Lemma small16 n : u16v n -> u32v n.
Proof. unfold u16v, u32v. lits. lia. Qed.
Lemma legacy_in_of sub s m : bytes_ok s -> parse_legacy sub s = Ok m -> legacy_in m.
Proof.
  intros Hs.
  assert (forall k, run (pa <- read_u16 ;; pi <- read_ipv4 ;; la <- read_u16 ;; li <- read_ipv4 ;;
           r <- peek ;; m <- lift (parse_legacy_payload k r) ;;
           ret (LgMessage (LgMsg pa (V4 pi) la (V4 li) m))) s = Ok m -> legacy_in m) as G.
  { intros k. apply y_run; auto.
    eapply y_bind; [exact y_u16v|]. intros pa Hpa. eapply y_bind; [exact y_u32v|]. intros pi Hpi.
    eapply y_bind; [exact y_u16v|]. intros la Hla. eapply y_bind; [exact y_u32v|]. intros li Hli.
    eapply y_bind; [apply y_peek|]. intros r Hr. eapply y_bind; [apply y_lift; intros x Hx; exact (legacy_payload_in _ _ _ Hr Hx)|].
    intros b Hb. apply y_ret. refine (conj _ (conj _ (conj _ (conj _ _)))); cbn [lg_peer_as lg_peer lg_local_as lg_local lg_bgp]; auto using small16. }
  assert (run (pa <- read_u16 ;; pi <- read_ipv4 ;; o <- read_state ;; n <- read_state ;;
           r <- peek ;;
           match r with
           | [] => ret (LgStateChange (LgState pa (V4 pi) o n))
           | _ => fail EParse
           end) s = Ok m -> legacy_in m) as G2.
  { apply y_run; auto.
    eapply y_bind; [exact y_u16v|]. intros pa Hpa. eapply y_bind; [exact y_u32v|]. intros pi Hpi.
    eapply y_bind; [exact y_state|]. intros o _. eapply y_bind; [exact y_state|]. intros n _.
    eapply y_bind; [apply y_peek|]. intros r _. destruct r; [apply y_ret|apply y_fail]. split; [apply small16, Hpa|exact Hpi]. }
  intros H. unfold parse_legacy in H.
  repeat match type of H with match ?x with _ => _ end = _ => destruct x; try discriminate H end; try exact (G _ H); exact (G2 H).
Qed.
Lemma dumps_in sub s l : bytes_ok s -> parse_dumps sub s = Ok l -> Forall dump_in l.
Proof.
  intros Hs. unfold parse_dumps. destruct (dump_afi sub) as [a|]; [|discriminate]. apply y_run; auto.
  eapply y_bind; [exact y_u16v|]. intros v Hv. eapply y_bind; [exact y_u16v|]. intros q Hq. eapply y_bind; [apply y_peek|]. intros r Hr.
  eapply (y_bind _ _ (Forall dump_in)).
  - apply y_lift. intros x Hx. refine (y_many _ _ _ _ _ _ Hr Hx). unfold read_dump_entry.
    eapply (y_bind _ _ net_ok).
    { destruct a; [apply y_net4|apply y_net6|apply y_ret; split; cbn; lia]. }
    intros p Hp. eapply y_bind; [exact y_u8v|]. intros st Hst. eapply y_bind; [exact y_u32v|]. intros tm Htm.
    eapply y_bind; [apply y_addr|]. intros pi Hpi. eapply y_bind; [exact y_u16v|]. intros pa Hpa. eapply y_bind; [exact y_u16|]. intros n _.
    eapply y_bind; [apply y_has|]. intros _ _. eapply y_bind; [apply y_split|]. intros b Hb.
    eapply y_bind; [apply y_lift; intros y Hy; refine (attributes_in _ _ _ Hb _ Hy); exact I|]. intros at0 Hat.
    apply y_ret. refine (conj _ (conj _ (conj _ (conj _ (conj _ (conj _ (conj _ _)))))));
      cbn [td_view td_seq td_prefix td_status td_time td_peer td_asn td_attrs]; auto using small16, mandatory_in.
    + split; [exact Hp|exact I].
    + unfold u32v, u64v in *. lits. lia.
  - intros x Hx. destruct x; [apply y_fail|apply y_ret; exact Hx].
Qed.
Lemma y_peer_in : yields read_peer peer_in.
Proof.
  unfold read_peer. eapply y_bind; [exact y_u8v|]. intros t Ht. eapply y_bind; [exact y_u32v|]. intros i Hi.
  eapply y_bind; [apply y_addr|]. intros a Ha. eapply y_bind; [apply y_asnv|]. intros n Hn. apply y_ret. refine (conj _ (conj _ (conj _ _))); auto.
Qed.
Lemma insert_in {K V} (eqb : K -> K -> bool) (Q : K * V -> Prop) k v (m : list (K * V)) :
  Q (k, v) -> Forall Q m -> Forall Q (map_insert eqb k v m).
Proof.
  intros Hv Hm. induction Hm as [|[k' v'] m Hx Hm IH]; cbn [map_insert]; [constructor; auto|]. destruct (eqb k k'); constructor; auto.
Qed.
Lemma mod16 k : u16v (k mod 65536).
Proof. unfold u16v. change (2 ^ 16) with 65536. apply N.mod_lt. discriminate. Qed.
Lemma number_in l k t : Forall peer_in l -> table_in t -> table_in (number_peers k l t).
Proof.
  intros Hl. revert k t. induction Hl as [|p l Hp Hl IH]; intros k t Ht; cbn [number_peers]; auto. apply IH.
  destruct Ht as (H1 & H2 & H3 & H4 & H5). refine (conj _ (conj _ (conj _ (conj _ _)))); cbn [pt_collector pt_peers pt_ids]; auto.
  - apply (insert_ok N.eqb N.eqb_eq), H2.
  - apply insert_in; auto. split; [apply mod16|exact Hp].
  - apply (insert_ok ip_eqb ip_eqb_eq), H4.
  - apply insert_in; auto. split; [apply Hp|apply mod16].
Qed.
Lemma y_table_in : yields parse_peer_table table_in.
Proof.
  unfold parse_peer_table. eapply y_bind; [exact y_u32v|]. intros c Hc. eapply y_bind; [exact y_u16|]. intros n _.
  eapply y_bind; [apply y_nbytes|]. intros nm _. eapply y_bind; [exact y_u16|]. intros k _.
  eapply y_bind; [apply y_repeat, y_peer_in|]. intros l Hl. apply y_ret. apply number_in; [exact Hl|].
  refine (conj _ (conj _ (conj _ (conj _ _)))); cbn [pt_collector pt_peers pt_ids map]; auto; constructor.
Qed.
Lemma y_geo_in : yields parse_geo_table geo_in.
Proof.
  unfold parse_geo_table. eapply y_bind; [exact y_u32v|]. intros c Hc. eapply y_bind; [exact y_u16|]. intros n _.
  eapply y_bind; [apply y_nbytes|]. intros nm _. eapply y_bind; [exact (y_be 4)|]. intros la _. eapply y_bind; [exact (y_be 4)|]. intros lo _.
  eapply y_bind; [exact y_u16|]. intros k _.
  eapply (y_bind _ _ (Forall (fun g => peer_in (gp_peer g)))).
  { apply y_repeat. unfold read_geo_peer. eapply y_bind; [exact y_u8v|]. intros t Ht. eapply y_bind; [exact y_u32v|]. intros i Hi.
    eapply (y_bind _ _ ip_ok).
    { destruct (type_ipv6 t); [eapply y_bind; [exact y_u128v|]|eapply y_bind; [exact y_u32v|]]; intros x Hx; apply y_ret; exact Hx. }
    intros a Ha. eapply (y_bind _ _ u32v).
    { destruct (type_as4 t); [exact y_u32v|]. eapply y_impl; [exact y_u16v|apply small16]. }
    intros x Hx. eapply y_bind; [exact (y_be 4)|]. intros y1 _. eapply y_bind; [exact (y_be 4)|]. intros y2 _. apply y_ret.
    refine (conj _ (conj _ (conj _ _))); auto. }
  intros l Hl. apply y_ret. split; auto.
Qed.
Lemma y_entry_in ap a sf p : prefix_ok p -> yields (read_rib_entry ap a sf p) entry_in.
Proof.
  intros Hp s e r Hs H. unfold read_rib_entry in H. destruct (Nat.ltb (length s) 8); try discriminate. revert H.
  match goal with |- ?p s = _ -> _ => enough (yields p entry_in) as G by exact (G _ _ _ Hs) end.
  eapply y_bind; [exact y_u16v|]. intros pi Hpi. eapply y_bind; [exact y_u32v|]. intros t Ht.
  eapply (y_bind _ _ (opt_all u32v)). { destruct ap; [eapply y_bind; [exact y_u32v|]; intros; apply y_ret; auto|apply y_ret; exact I]. }
  intros pid Hpid. eapply y_bind; [exact y_u16|]. intros n _. eapply y_bind; [apply y_has|]. intros _ _. eapply y_bind; [apply y_split|]. intros b Hb.
  eapply y_bind; [apply y_lift; intros y Hy; refine (attributes_in _ _ _ Hb _ Hy)|]. { cbn. repeat constructor; apply Hp. }
  intros at0 Hat. apply y_ret. refine (conj _ (conj _ (conj _ _))); auto.
Qed.
Lemma family_type k x : rib_family k = Some x -> 1 <= k <= 12.
Proof.
  unfold rib_family. intros H.
  repeat match type of H with match ?x with _ => _ end = _ => destruct x; try discriminate H end; lia.
Qed.
Lemma dump_v2_in sub s m : bytes_ok s -> parse_dump_v2 sub s = Ok m -> body_in (MrtV2 m).
Proof.
  intros Hs. assert (forall k r, parse_rib k s = Ok r -> body_in (MrtV2 (V2Rib r))) as G.
  { intros k r. unfold parse_rib. destruct (rib_family k) as [[a sf]|] eqn:E; [|discriminate]. apply family_type in E.
    apply (y_run _ (fun r => body_in (MrtV2 (V2Rib r)))); auto.
    eapply y_bind; [exact y_u32v|]. intros q Hq. eapply y_bind; [apply y_prefix|]. intros p Hp. eapply y_bind; [exact y_u16|]. intros c _.
    eapply y_bind; [apply y_peek|]. intros d Hd. eapply y_bind; [apply y_lift; intros x Hx; exact (y_upto _ _ (y_entry_in _ _ _ _ Hp) _ _ _ Hd Hx)|].
    intros l Hl. apply y_ret. refine (conj _ (conj _ (conj _ _))); auto. }
  intros H. unfold parse_dump_v2 in H.
  repeat match type of H with match ?x with _ => _ end = _ => destruct x; try discriminate H end;
    apply rbind_inv in H as (x & H & E); injection E as <-; try exact (G _ _ H);
    first [exact (y_run _ _ _ _ y_table_in Hs H) | exact (y_run _ _ _ _ y_geo_in Hs H)].
Qed.
Lemma mrt_body_in ty sub s m : bytes_ok s -> parse_mrt_body ty sub s = Ok m -> body_in m.
Proof.
  intros Hs H. unfold parse_mrt_body in H. destruct (negb _); try discriminate.
  repeat match type of H with match ?x with _ => _ end = _ => destruct x; try discriminate H end;
    apply rbind_inv in H as (x & H & E); injection E as <-;
    try exact (bgp4mp_in _ _ _ Hs H); try exact (dump_v2_in _ _ _ Hs H); try exact (legacy_in_of _ _ _ Hs H).
  apply dumps_in in H; auto. destruct x as [|d [|d' l]]; auto. cbn. inversion H; auto.
Qed.
(** * Framing *)
Lemma part_small k j b : bytes_ok b -> be_val (firstn k (skipn j b)) < 256 ^ N.of_nat k.
Proof.
  intros Hb. assert (bytes_ok (skipn j b)) as Hj by (rewrite <- (firstn_skipn j b) in Hb; apply bytes_ok_app in Hb; tauto).
  pose proof (be_val_bound _ (bytes_ok_firstn k _ Hj)) as H. eapply N.lt_le_trans; [exact H|].
  apply N.pow_le_mono_r; [lia|]. pose proof (firstn_le_length k (skipn j b)). lia.
Qed.
Lemma header_in_of s h b s' : parse_common_header_s s = HOk h b s' -> octet_source s -> header_in h.
Proof.
  intros H Hs. destruct (header_clock _ _ _ _ H Hs) as [[Hc Hu] _]. unfold parse_common_header_s in H.
  destruct (read_upto 12 s) as [[[] g] s1] eqn:E1; try discriminate.
  destruct (upto_octets _ _ _ _ _ E1 Hs) as [Hg Hs1]. unfold split_header in H. cbv beta iota zeta in H.
  destruct (negb _) eqn:Ek in H; try discriminate. apply Bool.negb_false_iff in Ek.
  pose proof (part_small 2 6 g Hg) as H2. pose proof (part_small 4 8 g Hg) as H4.
  destruct (_ =? ET_BGP4MP_ET) eqn:Et in H.
  - destruct (_ <? 4) in H; try discriminate. destruct (read_upto 4 s1) as [[[] u] s2] eqn:E2; try discriminate. 
    assert (h = Hdr (be_val (firstn 4 g)) (Some (be_val u)) (be_val (firstn 2 (skipn 4 g))) (be_val (firstn 2 (skipn 6 g)))
      (be_val (firstn 4 (skipn 8 g)) - 4)) as -> by congruence.
    refine (conj Hc (conj Hu (conj Ek (conj H2 _)))). cbn [h_len]. unfold u32v. change (2 ^ 32) with (256 ^ N.of_nat 4).
    revert H4. generalize (256 ^ N.of_nat 4), (be_val (firstn 4 (skipn 8 g))). intros. lia.
  - assert (h = Hdr (be_val (firstn 4 g)) None (be_val (firstn 2 (skipn 4 g))) (be_val (firstn 2 (skipn 6 g)))
      (be_val (firstn 4 (skipn 8 g)))) as -> by congruence.
    exact (conj Hc (conj Hu (conj Ek (conj H2 H4)))).
Qed.
Lemma chunk_header s r s' : chunk_mrt_record_s s = CRec r s' -> octet_source s -> header_in (r_hdr r).
Proof.
  intros H Hs. unfold chunk_mrt_record_s in H. destruct (parse_common_header_s s) as [h b s1|e c s1] eqn:E1.
  2:{ destruct e; try discriminate H; destruct c; discriminate H. }
  pose proof (header_in_of _ _ _ _ E1 Hs) as Hh. destruct (_ <? h_len h); try discriminate.
  destruct (read_upto _ s1) as [[[] g] s2] eqn:E2; try discriminate.
  destruct (_ && _).
  - destruct (read_upto 4 s2) as [[[] c] s3] eqn:E3; try discriminate. injection H as <- <-. exact Hh.
  - injection H as <- <-. exact Hh.
Qed.
Lemma record_in_of s r z s' : octet_source s -> parse_mrt_record_s s = RRec r z s' -> record_in r /\ octet_source s'.
Proof.
  intros Hs H. split; [|exact (proj2 (record_ranged_of _ _ _ _ Hs H))].
  unfold parse_mrt_record_s in H. destruct (chunk_mrt_record_s s) as [w s1|] eqn:E; try discriminate.
  destruct (chunk_octets _ _ _ E Hs) as (_ & Hb & Hs1). unfold parse_raw in H.
  destruct (parse_mrt_body _ _ _) as [m|e|] eqn:E2; try discriminate. cbn [rbind] in H. injection H as <- _ <-.
  split; [exact (chunk_header _ _ _ E Hs)|]. exact (mrt_body_in _ _ _ _ Hb E2).
Qed.
