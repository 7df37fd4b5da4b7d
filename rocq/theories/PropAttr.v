(** C14, C15, C16, C17, C51: path attributes. *)
From Coq Require Import Lia.
From Verif Require Import Base BaseFacts Reader Net NetSpec AsPath AsPathSpec AsPathFacts Community CommunitySpec Mpls MplsSpec
  Tlv TlvSpec LinkState LinkStateSpec Nlri NlriSpec Attr AttrSpec AttrFacts.

(** ** C14: framing and round trip *)
Theorem C14_attributes_roundtrip k l : Forall (attr_ok k) l ->
  exists b rs, encode_attributes (ac_asn k) l = Ok b /\
    Forall2 (written (ac_asn k)) l rs /\ b = flat_map attr_wire rs /\
    exists A, parse_attributes k b = Ok A /\ at_inner A = l.
Proof. exact (attributes_roundtrip k l). Qed.
Print Assumptions C14_attributes_roundtrip.
(** The width of the length field is that announced by the flags, and a value that does
    not fit it is refused. *)
Theorem C14_attribute_encode l a b : a_flag a < 256 -> attr_code (a_value a) < 256 ->
  (encode_attribute l a = Ok b <->
   exists v, encode_attr_value l (a_value a) = Ok v /\
     nlen v < (if N.testbit (a_flag a) 4 then 65536 else 256) /\
     b = attr_wire (RawAttr (a_flag a) (attr_code (a_value a)) v)).
Proof.
  intros H1 H2. rewrite (encode_attr_iff l a b H1 H2). unfold length_width, extended.
  destruct (N.testbit (a_flag a) 4); reflexivity.
Qed.
Print Assumptions C14_attribute_encode.
Theorem C14_attribute_too_large l a v : encode_attr_value l (a_value a) = Ok v ->
  (if N.testbit (a_flag a) 4 then 65536 else 256) <= nlen v -> encode_attribute l a = Err EEncTooLarge.
Proof.
  intros E H. apply (encode_attr_big l a v E). unfold length_width, extended.
  destruct (N.testbit (a_flag a) 4); exact H.
Qed.
Print Assumptions C14_attribute_too_large.
(** In the 2-octet form an AS number above 65535 is refused, never cut short. *)
Theorem C14_two_octet_as a b : encode_attribute Bits16 a = Ok b ->
  (forall x i, a_value a = AAggregator x i -> x < 2 ^ 16) /\
  (forall p s x, a_value a = AAsPath p -> In s p -> In x (s_asns s) -> x < 2 ^ 16).
Proof. exact (two_octet_as a b). Qed.
Print Assumptions C14_two_octet_as.
Example C14_ex_two_octet : encode_attribute Bits16 (Attr (AAggregator 65536 1) 0xC0) = Err EEncTooLarge /\
  exists b, encode_attribute Bits16 (Attr (AAggregator 65535 1) 0xC0) = Ok b.
Proof. split; [reflexivity|]. eexists. reflexivity. Qed.
(** The flags an attribute is given when none are stated raise no flag warning. *)
Theorem C14_default_flags v : default_flags v < 256 /\ N.testbit (default_flags v) 4 = false /\
  forall x, proper_flags (attr_code v) = Some x ->
    (forall c b, v <> ARaw c b /\ v <> ADeprecated c b /\ v <> AUnknown c b) ->
    (forall l, v <> AIpv6ExtCommunities l) -> default_flags v = x.
Proof.
  split; [destruct v; reflexivity|]. split; [destruct v; reflexivity|]. intros x H N1 N2.
  destruct v; try (cbn in H |- *; congruence).
  - elim (N2 l eq_refl).
  - elim (proj1 (N1 code b) eq_refl).
  - elim (proj1 (proj2 (N1 code b)) eq_refl).
  - elim (proj2 (proj2 (N1 code b)) eq_refl).
Qed.
Print Assumptions C14_default_flags.
Definition k4 := ACfg Bits32 false None None None.
Definition ex_attrs := [
  Attr (AOrigin IGP) 0x40; Attr (AAsPath [Seg KSeq [65000; 400000]; Seg KSet [1; 2]]) 0x50;
  Attr (ANextHop (V4 0xC0000201)) 0x40; Attr (AMed 7) 0x80; Attr (AAggregator 65000 1) 0xC0;
  Attr (ACommunities [CNoExport; CCustom 65000 1]) 0xC0;
  Attr (AMpReach (Nlri AIpv6 SUnicast (Some (NH6 1)) [Pfx (Net (V6 (0x20010db8 * 2 ^ 96)) 32) None] None None None)) 0x90;
  Attr (AUnknown 99 [1; 2; 3]) 0xE0; Attr (ADeprecated 13 [9]) 0xC0; Attr (ARaw 9 [1; 2; 3]) 0x80 ].
Example C14_ex : Forall (attr_ok k4) ex_attrs.
Proof.
  unfold ex_attrs, attr_ok, k4.
  repeat (apply Forall_cons; [cbn [a_flag a_value value_ok ac_asn ac_afi ac_add_path];
    (split; [reflexivity|split; [|intros b E; cbn in E; injection E as <-; reflexivity]])|]); auto.
  - repeat constructor; cbn; lia.
  - split; reflexivity.
  - reflexivity.
  - split; reflexivity.
  - repeat constructor; try (cbn; lia); reflexivity.
  - exists AIpv6, (NH6 1). split; [auto|]. split; [reflexivity|]. left. eexists SUnicast, _. split; [discriminate|]. split; [|reflexivity].
    split; [|repeat constructor]. repeat split; try (repeat constructor; intro; discriminate).
  - split; [repeat constructor|]. split; [reflexivity|]. split; [|split]; apply mem_not_In; reflexivity.
  - split; [repeat constructor|]. apply mem_In; reflexivity.
  - split; [repeat constructor|]. split; [reflexivity|]. right. split; [apply mem_In; reflexivity|]. eexists. reflexivity.
Qed.
Example C14_ex_too_large :
  encode_attribute Bits32 (Attr (AUnknown 99 (repeat 0 256)) 0xC0) = Err EEncTooLarge /\
  exists b, encode_attribute Bits32 (Attr (AUnknown 99 (repeat 0 256)) 0xD0) = Ok b.
Proof. split; [reflexivity|eexists; reflexivity]. Qed.

(** ** C15: every block is complete attributes and an end, and what is reported *)
Theorem C15_every_block s : bytes_ok s ->
  exists l e, s = flat_map attr_wire l ++ end_wire e /\ Forall raw_ok l /\ end_ok e.
Proof. exact (block_split s). Qed.
Print Assumptions C15_every_block.
Theorem C15_block_reported k l e : Forall raw_ok l -> end_ok e -> ~ end_in_header e ->
  exists A, parse_attributes k (flat_map attr_wire l ++ end_wire e) = Ok A /\
    Forall2 (fun r a => a_flag a = r_flag r /\ attr_code (a_value a) = r_code r /\ reported k r (a_value a)) l (at_inner A) /\
    (forall w, In w (at_warnings A) <-> block_warning k l e w) /\
    (forall c, has_attr A c = true <-> In c (map h_code (headers l e))).
Proof. exact (block_spec k l e). Qed.
Print Assumptions C15_block_reported.
(** In particular a value that cannot be decoded comes with a warning of its code. *)
Theorem C15_undecodable_warned k l e r x : Forall raw_ok l -> end_ok e -> ~ end_in_header e ->
  In r l -> decodable (r_code r) -> parse_attr_value k (r_code r) (r_value r) = Err x ->
  exists A, parse_attributes k (flat_map attr_wire l ++ end_wire e) = Ok A /\
    In (Attr (ARaw (r_code r) (r_value r)) (r_flag r)) (at_inner A) /\
    (In (WPartial (r_code r) x) (at_warnings A) \/ In (WMalformedList (r_code r) x) (at_warnings A) \/
     In (WOptional (r_code r) x) (at_warnings A)).
Proof.
  intros Hl He Hn Hr Hd Hx. destruct (block_spec k l e Hl He Hn) as (A & H1 & H2 & H3 & _). exists A. split; auto. split.
  - clear H3 H1. induction H2 as [|r' a l' m (Hf & Hc & Hrep) H2 IH]; [elim Hr|]. destruct Hr as [->|Hr]; [left|right; apply IH; inversion Hl; auto].
    destruct a as [v f]. cbn in *. subst f. f_equal.
    destruct (decodable_plain _ Hd) as (E1 & E2 & E3).
    destruct Hrep as [D|D|D1 D2 D3|v D E|e' D E]; auto; try congruence.
    + apply mem_not_In in E1. elim (E1 D).
    + elim (D3 Hd).
  - rewrite !H3. destruct (N.testbit (r_flag r) 5) eqn:Ep; [left; apply bw_value_partial; auto|right].
    destruct (mem (r_code r) [1; 2; 3; 5]) eqn:Em.
    + left. apply bw_value_well_known; auto. apply mem_In; auto.
    + right. apply bw_value_optional; auto. apply mem_not_In; auto.
Qed.
Print Assumptions C15_undecodable_warned.
(** The only blocks that are refused are those that end inside a four-octet header. *)
Theorem C15_refused_iff k l e : Forall raw_ok l -> end_ok e ->
  ((exists x, parse_attributes k (flat_map attr_wire l ++ end_wire e) = Err x) <-> end_in_header e).
Proof.
  intros Hl He. split; [|exact (parse_attributes_cases k l e Hl He)].
  intros [x Hx]. destruct e as [t|f c n rest|f c x']; [| |exact I].
  - destruct (block_spec k l (EndShort t) Hl He (fun x => x)) as (A & E & _). congruence.
  - destruct (block_spec k l (EndCut f c n rest) Hl He (fun x => x)) as (A & E & _). congruence.
Qed.
Print Assumptions C15_refused_iff.
Theorem C15_no_panic k s : parse_attributes k s <> Panic.
Proof. exact (parse_attributes_np k s). Qed.
Print Assumptions C15_no_panic.
(** Finding: such an end discards every attribute before it. *)
Theorem C15_header_end_refuted : exists k s x, parse_attributes k s = Err x /\
  s = attr_wire (RawAttr 0x40 1 [0]) ++ [0x50; 2; 0] /\
  exists A, parse_attributes k (attr_wire (RawAttr 0x40 1 [0]) ++ [0x50; 2]) = Ok A /\ at_inner A = [Attr (AOrigin IGP) 0x40].
Proof.
  exists k4. do 2 eexists. split; [|split; [reflexivity|]]; [vm_compute; reflexivity|]. eexists. split; reflexivity.
Qed.
Print Assumptions C15_header_end_refuted.
(** Finding: an attribute cut off by the end of the block is dropped without a warning
    and is still recorded as present. *)
Theorem C15_cut_attribute_refuted : exists k s A,
  s = [0x40; 2; 6; 2; 1] /\ parse_attributes k s = Ok A /\
  at_inner A = [] /\ at_warnings A = [] /\ has_attr A 2 = true /\ get_attr A 2 = None.
Proof. exists k4. do 2 eexists. split; [reflexivity|]. split; [reflexivity|]. repeat split. Qed.
Print Assumptions C15_cut_attribute_refuted.
Definition ex_block := [RawAttr 0x40 1 [0]; RawAttr 0xC0 1 [9]; RawAttr 0x60 2 [7; 7]; RawAttr 0xE0 99 [1]].
Example C15_ex : Forall raw_ok ex_block /\ end_ok (EndCut 0x50 5 4 [0; 0]) /\
  exists A, parse_attributes k4 (flat_map attr_wire ex_block ++ end_wire (EndCut 0x50 5 4 [0; 0])) = Ok A /\
    at_inner A = [Attr (AOrigin IGP) 0x40; Attr (ARaw 1 [9]) 0xC0; Attr (ARaw 2 [7; 7]) 0x60; Attr (AUnknown 99 [1]) 0xE0] /\
    at_warnings A = [WDuplicate 1; WFlags 1 0x40 0xC0; WMalformedList 1 EParse; WFlags 2 0x40 0x60; WPartial 2 ETrunc].
Proof.
  split; [repeat constructor|]. split; [repeat split; repeat constructor|].
  eexists. split; [vm_compute; reflexivity|]. split; reflexivity.
Qed.

(** ** C16: missing mandatory attributes *)
Theorem C16_missing_exact A ann std : exists m,
  at_warnings (check_mandatory A ann std) = at_warnings A ++ m /\ NoDup m /\
  at_inner (check_mandatory A ann std) = at_inner A /\
  forall w, In w m <->
    ann = true /\
    ((w = WMissing 1 /\ has_attr A 1 = false) \/ (w = WMissing 2 /\ has_attr A 2 = false) \/
     (w = WMissing 3 /\ has_attr A 3 = false /\ (std = true \/ has_attr A 14 = false))).
Proof.
  unfold check_mandatory. destruct ann; cbn [negb].
  - eexists. split; [reflexivity|]. split; [|split; [reflexivity|]].
    + destruct (has_attr A 1), (has_attr A 2), (has_attr A 3), (has_attr A 14), std; cbn;
        repeat first [apply NoDup_nil | apply NoDup_cons; [cbn; intuition discriminate|]].
    + intros w. destruct (has_attr A 1), (has_attr A 2), (has_attr A 3), (has_attr A 14), std; cbn; intuition (auto; discriminate).
  - exists []. rewrite app_nil_r. split; auto. split; [apply NoDup_nil|]. split; auto. intros w. split; [intros []|intros []; discriminate].
Qed.
Print Assumptions C16_missing_exact.
(** On a parsed block, "not seen" is: no header of the block carries the code; and the
    parser itself raises no such warning. *)
Theorem C16_parsed_missing k l e ann std : Forall raw_ok l -> end_ok e -> ~ end_in_header e ->
  exists A, parse_attributes k (flat_map attr_wire l ++ end_wire e) = Ok A /\
    let seen c := In c (map h_code (headers l e)) in
    forall c, In (WMissing c) (at_warnings (check_mandatory A ann std)) <->
      ann = true /\ ((c = 1 /\ ~ seen 1) \/ (c = 2 /\ ~ seen 2) \/ (c = 3 /\ ~ seen 3 /\ (std = true \/ ~ seen 14))).
Proof.
  intros Hl He Hn. destruct (block_spec k l e Hl He Hn) as (A & H1 & _ & H3 & H4). exists A. split; auto. cbv zeta. intros c.
  destruct (C16_missing_exact A ann std) as (m & E & _ & _ & Hm). rewrite E, in_app_iff, H3, Hm.
  assert (F : forall c, has_attr A c = false <-> ~ In c (map h_code (headers l e))).
  { intros c'. rewrite <- H4. destruct (has_attr A c'); split; congruence. }
  rewrite !F. split.
  - intros [H|(Ha & [[H ?]|[[H ?]|(H & ? & ?)]])]; [inversion H|injection H as ->|injection H as ->|injection H as ->]; auto 7.
  - intros (Ha & [[-> ?]|[[-> ?]|(-> & ? & ?)]]); right; auto 7.
Qed.
Print Assumptions C16_parsed_missing.
Example C16_ex : exists A, parse_attributes k4 (flat_map attr_wire [RawAttr 0x40 1 [0]] ++ []) = Ok A /\
  at_warnings (check_mandatory A true false) = [WMissing 2; WMissing 3].
Proof. eexists. split; reflexivity. Qed.

(** ** C17: what is not decoded survives byte for byte *)
Theorem C17_raw_reencoded k l e : Forall raw_ok l -> end_ok e -> ~ end_in_header e ->
  exists A, parse_attributes k (flat_map attr_wire l ++ end_wire e) = Ok A /\
    Forall2 (fun r a =>
      (~ decodable (r_code r) \/ (exists x, parse_attr_value k (r_code r) (r_value r) = Err x) \/ r_code r = 255) ->
      forall n, encode_attribute n a = Ok (attr_wire r)) l (at_inner A).
Proof.
  intros Hl He Hn. destruct (block_spec k l e Hl He Hn) as (A & H1 & H2 & _). exists A. split; auto.
  clear H1 He Hn. induction H2 as [|r a l m (Hf & Hc & Hrep) H2 IH]; constructor; [|apply IH; inversion Hl; auto].
  inversion Hl as [|? ? (B1 & B2 & B3 & B4) _]; subst. intros Hraw n.
  apply encode_attr_iff; [congruence|congruence|]. exists (r_value r). rewrite Hf, Hc.
  split; [|split; [exact B4|destruct r; reflexivity]].
  destruct Hrep as [D|D|D1 D2 D3|v D E|x D E]; try reflexivity.
  destruct Hraw as [Hd|[[x Hx]|H255]]; [tauto|congruence|]. rewrite H255 in E. injection E as <-. reflexivity.
Qed.
Print Assumptions C17_raw_reencoded.
(** The same holds for every decoded value of the kinds of [verbatim] - AS paths,
    communities, clusters, the TLV attributes - so such a block is reproduced exactly. *)
Theorem C17_block_reencoded k l : Forall raw_ok l ->
  exists A, parse_attributes k (flat_map attr_wire l) = Ok A /\
    (Forall (fun a => verbatim (a_value a) = true) (at_inner A) ->
     encode_attributes (ac_asn k) (at_inner A) = Ok (flat_map attr_wire l)).
Proof.
  intros Hl. eexists. split.
  - rewrite <- (app_nil_r (flat_map attr_wire l)). apply (parse_block k l (EndShort [])); auto using raw_ok_fit.
    split; [cbn; lia|constructor].
  - cbn [at_inner]. intros V. unfold encode_attributes.
    assert (E : rmap (encode_attribute (ac_asn k)) (map (fun r => fst (attr_out k r)) l) = Ok (map attr_wire l)).
    { induction Hl as [|r l Hr Hl IH]; cbn [map rmap]; auto. inversion V; subst.
      rewrite verbatim_attr by auto. cbn [rbind]. rewrite IH by auto. reflexivity. }
    rewrite E. cbn [rbind]. rewrite flat_map_concat_map. reflexivity.
Qed.
Print Assumptions C17_block_reencoded.
Example C17_ex : exists A, parse_attributes k4 (flat_map attr_wire [RawAttr 0xE0 99 [1; 2]; RawAttr 0x50 2 [2; 1; 0; 0; 0; 9]; RawAttr 0x80 9 [1]]) = Ok A /\
  Forall (fun a => verbatim (a_value a) = true) (at_inner A) /\ length (at_inner A) = 3%nat.
Proof. eexists. split; [vm_compute; reflexivity|]. split; [repeat constructor|reflexivity]. Qed.
(** Finding: a value of the wrong length that still decodes is not reproduced. *)
Theorem C17_long_origin_refuted : exists k s A, parse_attributes k s = Ok A /\
  encode_attributes (ac_asn k) (at_inner A) <> Ok s /\ s = attr_wire (RawAttr 0x40 1 [0; 5]).
Proof. exists k4. do 2 eexists. split; [|split; [|reflexivity]]; [reflexivity|discriminate]. Qed.
Print Assumptions C17_long_origin_refuted.

(** ** C51: accessors *)
Theorem C51_accessors A :
  first_of AOriginatorId (values A) (at_originator A) /\ first_of ANextHop (values A) (at_next_hop A) /\
  first_of AMed (values A) (at_med A) /\ first_of ALocalPref (values A) (at_local_pref A) /\
  first_of AOtc (values A) (at_otc A) /\ first_of AClusters (values A) (at_clusters A) /\
  first_of AAsPath (values A) (at_as_path A) /\ first_of AAs4Path (values A) (at_as4_path A) /\
  first_of AMpReach (values A) (at_reach A) /\ first_of AMpUnreach (values A) (at_unreach A) /\
  (exists o, first_of AOrigin (values A) o /\ at_origin A = match o with Some x => x | None => INCOMPLETE end) /\
  (at_atomic A = true <-> In AAtomicAggregate (values A)).
Proof.
  repeat split; try (apply find_map_first; intros v b; destruct v; split; congruence).
  - eexists. split; [|reflexivity]. apply find_map_first. intros v b; destruct v; split; congruence.
  - intros H. apply existsb_exists in H as (v & Hv & E). destruct v; try discriminate E. exact Hv.
  - intros H. apply existsb_exists. exists AAtomicAggregate. auto.
Qed.
Print Assumptions C51_accessors.
(** The aggregator is the last of either kind. *)
Theorem C51_aggregator A a i : at_aggregator A = Some (a, i) <->
  exists l1 v l2, values A = l1 ++ v :: l2 /\ (v = AAggregator a i \/ v = AAs4Aggregator a i) /\
    forall a' i', ~ In (AAggregator a' i') l2 /\ ~ In (AAs4Aggregator a' i') l2.
Proof.
  unfold at_aggregator. rewrite find_map_some. split.
  - intros (l1 & v & l2 & E & Hv & Hn). exists (rev l2), v, (rev l1).
    split; [|split].
    + rewrite <- (rev_involutive (values A)), E, rev_app_distr. cbn [rev]. rewrite <- app_assoc. reflexivity.
    + destruct v; try discriminate Hv; injection Hv as -> ->; auto.
    + intros a' i'. split; intros H; apply in_rev in H; apply Hn in H; discriminate.
  - intros (l1 & v & l2 & E & Hv & Hn). exists (rev l2), v, (rev l1). split; [|split].
    + rewrite E, rev_app_distr. cbn [rev]. rewrite <- app_assoc. reflexivity.
    + destruct Hv; subst; reflexivity.
    + intros y Hy. apply in_rev in Hy. destruct y; auto; [elim (proj1 (Hn a0 id) Hy)|elim (proj2 (Hn a0 id) Hy)].
Qed.
Print Assumptions C51_aggregator.
(** The effective path: AS_PATH, AS4_PATH, or their RFC 6793 merge (C09); never a panic. *)
Theorem C51_effective_path A :
  match at_as_path A, at_as4_path A with
  | None, None => effective_as_path A = Ok None
  | Some p, None | None, Some p => effective_as_path A = Ok (Some p)
  | Some p, Some q => exists m, merge_aspath_as4path p q = Ok m /\ effective_as_path A = Ok (Some m)
  end.
Proof.
  unfold effective_as_path. destruct (at_as_path A) as [p|], (at_as4_path A) as [q|]; auto.
  pose proof (merge_as4_spec p q) as S. destruct (length (hops p) <? length (hops q))%nat.
  - exists p. rewrite S. auto.
  - destruct S as (m & E & _). exists m. rewrite E. auto.
Qed.
Print Assumptions C51_effective_path.
(** The community iterator yields the plain, extended and large communities of all
    attributes, in order. *)
Definition communities_of (v : attr_value) : list meta_community :=
  match v with
  | ACommunities l => map MPlain l
  | AExtCommunities l => map MExtended l
  | ALargeCommunities l => map MLarge l
  | _ => []
  end.
Theorem C51_iter_communities vs fuel : (length (flat_map communities_of vs) < fuel)%nat ->
  communities_drain fuel vs 0 = flat_map communities_of vs.
Proof.
  intros H. destruct vs as [|v vs].
  - destruct fuel; [inversion H|reflexivity].
  - apply (drain_spec fuel (v :: vs) 0). rewrite skipn_O. exact H.
Qed.
Print Assumptions C51_iter_communities.
(** Finding: IPv6-specific extended communities are never yielded, though the item type
    has a case for them. *)
Theorem C51_ipv6_ext_refuted : exists vs fuel, In (AIpv6ExtCommunities [Ipv6Ext TIpv4Addr 2 1 0 5]) vs /\
  communities_drain fuel vs 0 = [] /\ (0 < fuel)%nat.
Proof. exists [AIpv6ExtCommunities [Ipv6Ext TIpv4Addr 2 1 0 5]], 5%nat. repeat split; [left; reflexivity|lia]. Qed.
(** Building a set: what was put in is what is there, and presence is exact. *)
Theorem C51_built l A x c :
  at_inner (attrs_of_list l) = l /\
  (has_attr (attrs_of_list l) c = true <-> exists a, In a l /\ attr_code (a_value a) = c) /\
  at_inner (add_attr A x) = at_inner A ++ [x] /\
  (has_attr (add_attr A x) c = true <-> has_attr A c = true \/ attr_code (a_value x) = c) /\
  (get_attr (attrs_of_list l) c = None <-> has_attr (attrs_of_list l) c = false).
Proof.
  assert (M : has_attr (attrs_of_list l) c = true <-> exists a, In a l /\ attr_code (a_value a) = c).
  { unfold has_attr, attrs_of_list, compute_mask. cbn [at_mask]. rewrite compute_mask_bit, N.bits_0, in_map_iff.
    split; [intros [|(a & H)]; [discriminate|exists a; tauto]|]. intros (a & H). right. exists a. tauto. }
  split; [reflexivity|]. split; [exact M|]. split; [reflexivity|]. split.
  { unfold has_attr, add_attr. cbn [at_mask]. rewrite N.setbit_iff. intuition. }
  split.
  - intros H. apply Bool.not_true_is_false. intros E. apply (proj1 M) in E as (a & Ha & Hc).
    unfold get_attr in H. cbn [at_inner attrs_of_list] in H. apply (find_none _ _ H) in Ha. rewrite Hc, N.eqb_refl in Ha. discriminate.
  - intros H. destruct (get_attr (attrs_of_list l) c) as [a|] eqn:E; auto. unfold get_attr in E. apply find_some in E as [Ha Hc].
    apply N.eqb_eq in Hc. rewrite (proj2 M) in H; [discriminate|]. exists a. auto.
Qed.
Print Assumptions C51_built.
