From Coq Require Import Lia Permutation Floats.SpecFloat.
From Verif Require Import Base BaseFacts Tac Net NetSpec NetFacts Tlv AsPath AsPathSpec Community CommunitySpec Nlri NlriSpec Attr AttrSpec AttrFacts BgpMsg MsgSpec MsgFacts
  Bgp4mp Bgp4mpSpec TableDump TableDumpSpec TableDumpFacts Stream Framing MrtRecord MrtRecordSpec MrtRecordFacts Elem ElemSpec ElemFacts Bmp Filter FilterFacts Iter IterSpec IterFacts RecoveryFacts Encoder EncoderSpec.

(** * Last and first *)
Lemma last_snoc {A} (P : A -> Prop) l a b : last_such P (l ++ [a]) b <-> (P a /\ b = a) \/ (~ P a /\ last_such P l b).
Proof.
  split.
  - intros (l1 & l2 & E & Hb & F). destruct l2 as [|c l2] using rev_ind.
    + apply app_inj_tail in E as [-> ->]. auto.
    + clear IHl2. rewrite app_comm_cons, app_assoc in E. apply app_inj_tail in E as [-> ->].
      apply Forall_app in F as [F1 F2]. inversion F2; subst. right. split; auto. exists l1, l2. auto.
  - intros [[Ha ->]|[Ha (l1 & l2 & -> & Hb & F)]].
    + exists l, []. auto.
    + exists l1, (l2 ++ [a]). split; [rewrite <- app_assoc; reflexivity|]. split; auto. apply Forall_app. auto.
Qed.
Lemma last_nil {A} (P : A -> Prop) b : ~ last_such P [] b.
Proof. intros (l1 & l2 & E & _). destruct l1; discriminate. Qed.
Lemma last_in {A} (P : A -> Prop) l b : last_such P l b -> In b l /\ P b.
Proof. intros (l1 & l2 & -> & H & _). split; auto. apply in_elt. Qed.
Lemma last_fun {A} (P : A -> Prop) l a b : last_such P l a -> last_such P l b -> a = b.
Proof.
  revert a b. induction l as [|c l IH] using rev_ind; intros a b Ha Hb; [elim (last_nil P a Ha)|].
  apply last_snoc in Ha, Hb. destruct Ha as [[Pa ->]|[Pa Ha]], Hb as [[Pb ->]|[Pb Hb]]; auto; contradiction.
Qed.
Lemma last_exists {A} (P : A -> Prop) (D : forall a, P a \/ ~ P a) l a : In a l -> P a -> exists b, last_such P l b.
Proof.
  intros Hin Ha. induction l as [|c l IH] using rev_ind; [destruct Hin|]. destruct (D c) as [Pc|Pc].
  - exists c. apply last_snoc. auto.
  - apply in_app_iff in Hin as [Hin|[->|[]]]; [|contradiction]. destruct (IH Hin) as (b & Hb). exists b. apply last_snoc. auto.
Qed.

(** * Feeding *)
Definition peer_of (f : fed) : peer := elem_peer (fst f) (snd f).
Lemma peer_of_ip f : pe_ip (peer_of f) = e_peer (snd f). Proof. reflexivity. Qed.
Record rib_inv (x : rib_encoder) (acc : list fed) : Prop := {
  ri_reg : registered (rn_table x) (firsts (map peer_of acc));
  ri_c : pt_collector (rn_table x) = 0;
  ri_nm : pt_name (rn_table x) = [];
  ri_pm : map_ok (pt_peers (rn_table x));
  ri_mok : map_ok (rn_map x);
  ri_keys : forall n, In n (map fst (rn_map x)) <-> exists f, In f acc /\ of_net n f;
  ri_get : forall n m, map_get ipnet_eqb n (rn_map x) = Some m -> map_ok m /\
    forall idx en, map_get N.eqb idx m = Some en <->
      exists p f, nth_error (firsts (map peer_of acc)) (N.to_nat idx) = Some p /\ last_such (of_route (pe_ip p) n) acc f /\ en = elem_entry idx (snd f) }.
Lemma inv_new : rib_inv rib_new [].
Proof.
  constructor; cbn [rib_new rn_table rn_map map firsts]; try reflexivity; try apply registered_empty; try (constructor; fail).
  - intros n. split; [intros []|intros (f & [] & _)].
  - discriminate.
Qed.
Lemma add_peer_maps t p r t' : add_peer t p = (r, t') -> map_ok (pt_peers t) -> map_ok (pt_peers t').
Proof.
  unfold add_peer. destruct (map_get _ _ _); [intros H; injection H as <- <-; auto|]. destruct (check_max _ _); intros H; injection H as <- <-; auto.
  intros M. cbn [pt_peers]. apply (insert_ok N.eqb N.eqb_eq). exact M.
Qed.
Lemma nodup_nth {A B} (f : A -> B) l i j a b : NoDup (map f l) -> nth_error l i = Some a -> nth_error l j = Some b -> f a = f b -> i = j.
Proof.
  intros D Ha Hb E. apply (proj1 (NoDup_nth_error (map f l)) D).
  - rewrite map_length. apply nth_error_Some. congruence.
  - rewrite !nth_error_map, Ha, Hb. cbn. congruence.
Qed.
(** The registration of an element whose peer is not refused. *)
Lemma add_ok x acc f : rib_inv x acc -> 
  (exists idx t p, add_peer (rn_table x) (peer_of f) = (Ok idx, t) /\ registered t (firsts (map peer_of (acc ++ [f]))) /\ pt_collector t = 0 /\ pt_name t = [] /\
     nth_error (firsts (map peer_of (acc ++ [f]))) (N.to_nat idx) = Some p /\ pe_ip p = e_peer (snd f)) \/
  (add_peer (rn_table x) (peer_of f) = (Err EEncTooLarge, rn_table x) /\ length (firsts (map peer_of acc)) = max_peers /\ Forall (fun g => e_peer (snd g) <> e_peer (snd f)) acc).
Proof.
  intros I. destruct I as [R C Nm _ _ _ _]. set (ps := firsts (map peer_of acc)) in *.
  destruct (get_peer_id_by_addr (rn_table x) (pe_ip (peer_of f))) as [id|] eqn:G.
  - left. rewrite (registered_known _ _ _ _ R G). pose proof (proj1 (rg_ids _ _ R _ _) G) as (p & Hp & Ep).
    assert (X : firsts (map peer_of (acc ++ [f])) = ps).
    { rewrite map_app. cbn [map]. rewrite firsts_snoc.
      assert (existsb (fun q => ip_eqb (pe_ip q) (pe_ip (peer_of f))) (map peer_of acc) = true) as ->; [|apply app_nil_r].
      apply existsb_exists. exists p. split; [|apply ip_eqb_eq; auto]. apply firsts_in. apply nth_error_In in Hp. exact Hp. }
    rewrite X. exists id, (rn_table x), p. split; [reflexivity|]. split; [exact R|]. split; [exact C|]. split; [exact Nm|]. split; [exact Hp|exact Ep].
  - assert (X : firsts (map peer_of (acc ++ [f])) = ps ++ [peer_of f]).
    { rewrite map_app. cbn [map]. rewrite firsts_snoc.
      destruct (existsb (fun q => ip_eqb (pe_ip q) (pe_ip (peer_of f))) (map peer_of acc)) eqn:Ex; [|reflexivity].
      apply existsb_exists in Ex as (q & Hq & Eq). apply ip_eqb_eq in Eq. destruct (firsts_covers _ _ Hq) as (q' & Hq' & Eq').
      elim (proj1 (registered_none _ _ _ R) G q' Hq'). congruence. }
    destruct (Nat.lt_ge_cases (length ps) max_peers) as [L|L].
    + left. destruct (registered_new _ _ (peer_of f) R G L) as (t & E & R' & C' & Nm'). rewrite E, X. exists (nlen ps), t, (peer_of f).
      split; [reflexivity|]. split; [exact R'|]. split; [congruence|]. split; [congruence|]. split; [|reflexivity].
      unfold nlen. rewrite Nat2N.id, nth_error_app2, Nat.sub_diag by lia. reflexivity.
    + right. pose proof (rg_max _ _ R). assert (length ps = max_peers) by lia. rewrite (registered_full _ _ _ R G) by auto. split; [reflexivity|]. split; auto.
      apply Forall_forall. intros g Hg Eg. destruct (firsts_covers (map peer_of acc) (peer_of g)) as (q & Hq & Eq); [apply in_map; exact Hg|].
      apply (proj1 (registered_none _ _ _ R) G q Hq). rewrite Eq. exact Eg.
Qed.
Lemma firsts_prefix acc f i p : nth_error (firsts (map peer_of acc)) i = Some p -> nth_error (firsts (map peer_of (acc ++ [f]))) i = Some p.
Proof.
  intros H. rewrite map_app. cbn [map]. rewrite firsts_snoc. rewrite nth_error_app1; [exact H|]. apply nth_error_Some. congruence.
Qed.
Lemma nth_firsts_back acc f i p : nth_error (firsts (map peer_of (acc ++ [f]))) i = Some p -> (exists g, In g acc /\ from_peer (pe_ip p) g) ->
  nth_error (firsts (map peer_of acc)) i = Some p.
Proof.
  intros H (g & Hg & Eg). rewrite map_app in H. cbn [map] in H. rewrite firsts_snoc in H. unfold from_peer in Eg.
  destruct (existsb _ _) eqn:X; [rewrite app_nil_r in H; exact H|]. destruct (Nat.lt_ge_cases i (length (firsts (map peer_of acc)))) as [L|L].
  - rewrite nth_error_app1 in H by lia. exact H.
  - rewrite nth_error_app2 in H by lia. destruct (i - _)%nat as [|[]]; try discriminate. cbn in H. injection H as <-. exfalso.
    assert (existsb (fun q => ip_eqb (pe_ip q) (pe_ip (peer_of f))) (map peer_of acc) = true); [|congruence].
    apply existsb_exists. exists (peer_of g). split; [apply in_map; auto|]. apply ip_eqb_eq. exact Eg.
Qed.
Lemma route_not_net i n f : ~ of_net n f -> ~ of_route i n f. Proof. intros H [_ X]. contradiction. Qed.
Lemma route_dec i n f : of_route i n f \/ ~ of_route i n f.
Proof.
  unfold of_route, from_peer, of_net. destruct (ip_eqb (e_peer (snd f)) i) eqn:A, (ipnet_eqb (p_net (e_prefix (snd f))) n) eqn:B.
  - left. split; [apply ip_eqb_eq|apply ipnet_eqb_eq]; auto.
  - right. intros [_ X]. apply ipnet_eqb_eq in X. congruence.
  - right. intros [X _]. apply ip_eqb_eq in X. congruence.
  - right. intros [X _]. apply ip_eqb_eq in X. congruence.
Qed.
Lemma process_inv x acc four e r x' : rib_inv x acc -> rib_process x four e = (r, x') ->
  (r = Ok tt /\ rib_inv x' (acc ++ [(four, e)])) \/
  (r = Err EEncTooLarge /\ rib_inv x' acc /\ rn_table x' = rn_table x /\ rn_map x' = rn_map x /\
   length (firsts (map peer_of acc)) = max_peers /\ Forall (fun g => e_peer (snd g) <> e_peer e) acc).
Proof.
  intros I H. pose proof I as [R C Nm PM MK KE GE]. unfold rib_process in H. change (elem_peer four e) with (peer_of (four, e)) in H.
  destruct (add_ok x acc (four, e) I) as [(idx & t & p & E & R' & C' & Nm' & Hp & Ep)|(E & L & F)]; rewrite E in H; injection H as <- <-.
  2:{ right. split; auto. split; [constructor; cbn [rn_table rn_map]; auto|]. cbn [rn_table rn_map]. auto. }
  left. split; auto. set (f := (four, e)) in *. set (n := p_net (e_prefix e)). set (old := match map_get ipnet_eqb n (rn_map x) with Some m => m | None => [] end).
  assert (O1 : map_ok old). { unfold old. destruct (map_get ipnet_eqb n (rn_map x)) eqn:G; [apply (GE _ _ G)|constructor]. }
  assert (O2 : forall i en, map_get N.eqb i old = Some en <-> exists p f, nth_error (firsts (map peer_of acc)) (N.to_nat i) = Some p /\ last_such (of_route (pe_ip p) n) acc f /\ en = elem_entry i (snd f)).
  { unfold old. destruct (map_get ipnet_eqb n (rn_map x)) as [m|] eqn:G; [apply (GE _ _ G)|]. intros i en. cbn [map_get]. split; [discriminate|].
    intros (p' & f' & _ & Hf & _). apply last_in in Hf as [Hf [_ Hn]]. apply (map_get_none ipnet_eqb ipnet_eqb_eq) in G. elim G. apply KE. eauto. }
  assert (FN : of_net n f) by reflexivity.
  constructor; cbn [rn_table rn_map]; auto.
  - eapply add_peer_maps; eauto.
  - apply (insert_ok ipnet_eqb ipnet_eqb_eq). exact MK.
  - intros k. assert (K : In k (map fst (map_insert ipnet_eqb n (map_insert N.eqb idx (elem_entry idx e) old) (rn_map x))) <-> k = n \/ In k (map fst (rn_map x))).
    { rewrite (insert_keys ipnet_eqb ipnet_eqb_eq). destruct (existsb (ipnet_eqb n) (map fst (rn_map x))) eqn:X.
      - apply existsb_exists in X as (y & Hy & Ey). apply ipnet_eqb_eq in Ey. subst y. intuition congruence.
      - rewrite in_app_iff. cbn [In]. intuition. }
    rewrite K, KE. split.
    + intros [->|(g & Hg & Eg)]; [exists f|exists g]; split; auto; apply in_app_iff; [right; left|left]; auto.
    + intros (g & Hg & Eg). apply in_app_iff in Hg as [Hg|[<-|[]]]; [right; eauto|left; symmetry; exact Eg].
  - intros k m Hm. rewrite (map_get_insert ipnet_eqb ipnet_eqb_eq) in Hm. destruct (ipnet_eqb k n) eqn:Ek.
    + apply ipnet_eqb_eq in Ek. subst k. injection Hm as <-. split; [apply (insert_ok N.eqb N.eqb_eq); exact O1|]. intros i en.
      rewrite (map_get_insert N.eqb N.eqb_eq). destruct (N.eqb_spec i idx) as [->|Ni].
      * split.
        -- intros X. injection X as <-. exists p, f. split; auto. split; [|reflexivity]. apply last_snoc. left. split; auto. split; auto. unfold from_peer. auto.
        -- intros (p' & f' & Hp' & Hf' & ->). pose proof (eq_trans (eq_sym Hp') Hp) as Q. injection Q as ->. apply last_snoc in Hf' as [[_ ->]|[Nf _]]; [reflexivity|].
           elim Nf. split; auto. unfold from_peer. auto.
      * rewrite O2. split; intros (p' & f' & Hp' & Hf' & ->).
        -- exists p', f'. split; [apply firsts_prefix; auto|]. split; [|reflexivity]. apply last_snoc. right. split; auto. intros [X _]. unfold from_peer in X. cbn in X.
           apply Ni. apply N2Nat.inj. eapply (nodup_nth pe_ip); [exact (rg_dup _ _ R')|apply firsts_prefix; exact Hp'|exact Hp|]. rewrite Ep. symmetry. exact X.
        -- apply last_snoc in Hf' as [[[X _] ->]|[_ Hf']].
           ++ exfalso. apply Ni. apply N2Nat.inj. eapply (nodup_nth pe_ip); [exact (rg_dup _ _ R')|exact Hp'|exact Hp|]. rewrite Ep. symmetry. exact X.
           ++ exists p', f'. split; [|auto]. apply last_in in Hf' as [Hin [X _]]. apply nth_firsts_back with (f := f); auto. exists f'. auto.
    + assert (Nk : ~ of_net k f). { unfold of_net. cbn. fold n. intros <-. assert (ipnet_eqb n n = true) by (apply ipnet_eqb_eq; auto). congruence. }
      destruct (GE k m Hm) as [G1 G2]. split; auto. intros i en. rewrite G2. split; intros (p' & f' & Hp' & Hf' & ->).
      * exists p', f'. split; [apply firsts_prefix; auto|]. split; [|reflexivity]. apply last_snoc. right. split; auto. apply route_not_net. auto.
      * apply last_snoc in Hf' as [[[_ X] _]|[_ Hf']]; [contradiction|]. exists p', f'. split; [|auto]. apply last_in in Hf' as [Hin [X _]].
        apply nth_firsts_back with (f := f); auto. exists f'. auto.
Qed.

Lemma feed_inv l : forall x acc rs x', rib_inv x acc -> feed x l = (rs, x') -> rib_inv x' (acc ++ accepted rs l) /\ length rs = length l /\ ~ In Panic rs.
Proof.
  induction l as [|[four e] l IH]; intros x acc rs x' I H; cbn [feed] in H.
  - injection H as <- <-. cbn [accepted]. rewrite app_nil_r. auto.
  - destruct (rib_process x four e) as [r x1] eqn:E. destruct (feed x1 l) as [rs1 x2] eqn:F. injection H as <- <-.
    destruct (process_inv _ _ _ _ _ _ I E) as [[-> I1]|(-> & I1 & _)]; destruct (IH _ _ _ _ I1 F) as (J & L & NP); cbn [accepted length In].
    + rewrite <- app_assoc in J. split; auto. split; [congruence|]. intros [X|X]; [discriminate|auto].
    + split; auto. split; [congruence|]. intros [X|X]; [discriminate|auto].
Qed.

(** * Elements as attributes *)
Lemma elem_values_ok hop k e : elem_ok hop e -> ac_asn k = Bits32 -> hop = match ac_afi k with Some a => a | None => AIpv4 end ->
  ac_add_path k = has_id (e_prefix e) -> Forall (value_ok k) (elem_values e).
Proof.
  intros (Hp & Hw & _ & _ & HA) K1 K2 K3. unfold elem_values.
  assert (CR : canonical_routes (ac_add_path k) (afi_of_ip (net_addr (p_net (e_prefix e)))) [e_prefix e]).
  { split; [|repeat constructor; exact Hw]. split; [repeat constructor; apply Hp|]. split; [constructor; [unfold family, afi_of_ip; reflexivity|constructor]|].
    split; [constructor; [auto|constructor]|]. intros _. constructor. }
  assert (AF : afi_of_ip (net_addr (p_net (e_prefix e))) = AIpv4 \/ afi_of_ip (net_addr (p_net (e_prefix e))) = AIpv6) by (destruct (net_addr _); auto).
  destruct (e_type e).
  2:{ constructor; [|constructor]. cbn [value_ok]. exists (afi_of_ip (net_addr (p_net (e_prefix e)))), SUnicast, [e_prefix e].
      split; auto. split; [discriminate|]. split; [exact CR|reflexivity]. }
  destruct (HA eq_refl) as ((h & Eh & Hh & Fh) & HP & H1 & H2 & H3 & H4 & H5 & HC & HU & HD). rewrite Eh.
  assert (ONE : forall (o : option N) g, small o -> (forall n, n < 2 ^ 32 -> value_ok k (g n)) -> Forall (value_ok k) (opt_one o g)).
  { intros [n|] g S G; cbn [opt_one]; constructor; auto. }
  assert (ANY : forall A (Q : A -> Prop) (l : list A) g, Forall Q l -> (Forall Q l -> value_ok k (g l)) -> Forall (value_ok k) (if_any l g)).
  { intros A Q [|a l] g S G; cbn [if_any]; constructor; auto. }
  repeat (apply Forall_app; split); cbn [opt_one].
  - constructor; [|constructor]. cbn [value_ok]. exists (afi_of_ip (net_addr (p_net (e_prefix e)))), (nh_of_ip h). split; auto. split; [destruct h; exact Hh|].
    left. exists SUnicast, [e_prefix e]. split; [discriminate|]. split; [exact CR|reflexivity].
  - constructor; [|constructor]. cbn [value_ok]. rewrite <- K2. auto.
  - destruct (e_path e) as [p|]; cbn [opt_one]; constructor; [|constructor]. cbn [value_ok]. rewrite K1. auto.
  - destruct (e_origin e); cbn [opt_one]; constructor; [exact I|constructor].
  - apply ONE; auto.
  - apply ONE; auto.
  - destruct (e_comms e) as [l|]; [|constructor]. pose proof (HC l eq_refl) as F. repeat (apply Forall_app; split).
    + apply (ANY _ community_ok); [|auto]. unfold plain_of. apply Forall_flat_map. eapply Forall_impl; [|exact F]. intros [] M; constructor; auto.
    + apply (ANY _ ext_ok); [|auto]. unfold extended_of. apply Forall_flat_map. eapply Forall_impl; [|exact F]. intros [] M; constructor; auto.
    + apply (ANY _ large_ok); [|auto]. unfold large_of. apply Forall_flat_map. eapply Forall_impl; [|exact F]. intros [] M; constructor; auto.
    + apply (ANY _ ipv6_ext_ok); [|auto]. unfold ipv6_of. apply Forall_flat_map. eapply Forall_impl; [|exact F]. intros [] M; constructor; auto.
  - apply ONE; auto. intros n Hn. cbn [value_ok]. rewrite K1. split; auto. destruct (e_aggr_ip e); [exact H5|reflexivity].
  - apply ONE; auto.
  - destruct (e_unknown e) as [l|]; [|constructor]. apply Forall_map. eapply Forall_impl; [|exact (HU l eq_refl)]. intros [c b]. cbn. tauto.
  - destruct (e_depr e) as [l|]; [|constructor]. apply Forall_map. eapply Forall_impl; [|exact (HD l eq_refl)]. intros [c b]. cbn. tauto.
Qed.
Lemma attributes_inner e : at_inner (attributes_of_elem e) = map attr_of_value (elem_values e).
Proof. unfold attributes_of_elem. rewrite extend_inner. reflexivity. Qed.
Lemma flags_small v : default_flags v < 256.
Proof. unfold default_flags. destruct (attr_category v) as [[]|]; reflexivity. Qed.
Lemma attrs_fit l vs b : Forall (fun v => attr_code v < 256) vs -> encode_attributes l (map attr_of_value vs) = Ok b ->
  Forall (fun a => forall b, encode_attr_value l (a_value a) = Ok b -> nlen b < 256 ^ N.of_nat (length_width (a_flag a))) (map attr_of_value vs).
Proof.
  intros F E. unfold encode_attributes in E. apply rbind_inv in E as (bs & E & _). apply rmap_ok in E. apply Forall_map. revert bs E.
  induction F as [|v vs C F IH]; intros bs E; [constructor|]. cbn [map] in E. inversion E as [|? x ? bs' E1 E2]; subst. constructor; [|eapply IH; eauto].
  apply encode_attr_iff in E1 as (y & Ey & Hy & _); [|apply flags_small|exact C]. cbn [attr_of_value a_value a_flag] in *. intros z Ez. rewrite Ey in Ez. injection Ez as <-. exact Hy.
Qed.
Lemma elem_attrs_ok hop k e b : elem_ok hop e -> ac_asn k = Bits32 -> hop = match ac_afi k with Some a => a | None => AIpv4 end ->
  ac_add_path k = has_id (e_prefix e) -> encode_attributes Bits32 (at_inner (attributes_of_elem e)) = Ok b ->
  Forall (attr_ok k) (at_inner (attributes_of_elem e)).
Proof.
  intros He K1 K2 K3 E. rewrite attributes_inner in *. pose proof (elem_values_ok hop k e He K1 K2 K3) as V.
  assert (C : Forall (fun v => attr_code v < 256) (elem_values e)) by (eapply Forall_impl; [|exact V]; intros; eapply code_small; eauto).
  pose proof (attrs_fit _ _ _ C E) as Fit. rewrite Forall_map in Fit. apply Forall_map. rewrite Forall_forall in *. intros v Hv.
  split; [apply flags_small|]. split; [apply V; auto|]. rewrite K1. apply Fit. auto.
Qed.

(** * Records *)
Lemma export_encodes s us ty sub m x : export_record s us ty sub m = Ok x -> nlen x < 4294967296 ->
  encode_mrt_record (MrtRecord (Hdr s us ty sub 0) m) = Ok x.
Proof.
  unfold export_record, encode_mrt_record. cbn [mr_hdr mr_msg h_sub]. intros H L. apply rbind_inv in H as (b & -> & H). cbn [rbind].
  apply rbind_inv in H as (h & E & H). apply ok_inj in H. subst x. rewrite nlen_app in L.
  assert (nlen b < 4294967296) by lia. unfold u32 in E. rewrite N.mod_small in E by (change (2 ^ 32) with 4294967296; lia).
  unfold check_max. destruct (N.ltb_spec 4294967295 (nlen b)); [lia|]. cbn [rbind]. unfold with_length. cbn [h_ts h_us h_type h_sub]. rewrite E. reflexivity.
Qed.
Lemma append_all_ok l b : append_all l = Ok b -> exists xs, Forall2 (fun r x => r = Ok x) l xs /\ b = concat xs.
Proof.
  revert b. induction l as [|r l IH]; intros b H; cbn [append_all] in H.
  - apply ok_inj in H. subst. exists []. auto.
  - apply rbind_inv in H as (x & -> & H). apply rbind_inv in H as (y & E & H). apply ok_inj in H. subst b.
    destruct (IH y E) as (xs & F & ->). exists (x :: xs). auto.
Qed.
Lemma file_reads rs xs : Forall2 (fun r x => record_ok r x /\ encode_mrt_record r = Ok x /\ nlen x <= header_size (mr_hdr r) + 16777216) rs xs ->
  forall s, no_fail s -> sbytes s = concat xs -> exists rs', reads s (map inl rs') /\ Forall2 same_record rs rs'.
Proof.
  induction 1 as [|r x rs xs (H1 & H2 & H3) F IH]; intros s NF ES; cbn [concat] in ES.
  - exists []. split; [|constructor]. pose proof (quiet_chunk _ NF) as C. rewrite ES in C.
    change (chunk_mrt_record []) with (FErr EEofExpected None None []) in C. destruct C as (s' & C & _). eapply reads_end. unfold parse_mrt_record_s. rewrite C. reflexivity.
  - destruct (record_roundtrip r x (concat xs) s H1 H2 NF ES H3) as (r' & z & s' & P & B & NF' & S & _).
    destruct (IH s' NF' B) as (rs' & R & F'). exists (r' :: rs'). split; [eapply reads_rec; eauto|constructor; auto].
Qed.

(** * The dump *)
Lemma nth_ext {A} (l l' : list A) : (forall n, nth_error l n = nth_error l' n) -> l = l'.
Proof.
  revert l'. induction l as [|a l IH]; intros [|b l'] H; auto; try (specialize (H 0%nat); discriminate).
  pose proof (H 0%nat) as H0. injection H0 as ->. f_equal. apply IH. intros n. exact (H (S n)).
Qed.
Lemma forall2_in_r {A B} (R : A -> B -> Prop) l l' b : Forall2 R l l' -> In b l' -> exists a, In a l /\ R a b.
Proof. induction 1; intros []; subst; [eexists; split; [left; reflexivity|auto]|]. destruct IHForall2 as (z & ? & ?); auto. exists z. split; auto. right. auto. Qed.
Lemma forall2_in_l {A B} (R : A -> B -> Prop) l l' a : Forall2 R l l' -> In a l -> exists b, In b l' /\ R a b.
Proof. induction 1; intros []; subst; [eexists; split; [left; reflexivity|auto]|]. destruct IHForall2 as (z & ? & ?); auto. exists z. split; auto. right. auto. Qed.

Lemma firsts_snoc_peer acc f : firsts (map peer_of (acc ++ [f])) =
  firsts (map peer_of acc) ++ (if existsb (fun q => ip_eqb (pe_ip q) (e_peer (snd f))) (map peer_of acc) then [] else [peer_of f]).
Proof. rewrite map_app. cbn [map]. apply firsts_snoc. Qed.
Lemma firsts_first acc p : In p (firsts (map peer_of acc)) -> exists f, first_such (from_peer (pe_ip p)) acc f /\ p = peer_of f.
Proof.
  induction acc as [|g acc IH] using rev_ind; [intros []|]. rewrite firsts_snoc_peer. intros H. apply in_app_iff in H as [H|H].
  - destruct (IH H) as (f & (l1 & l2 & -> & F1 & F2) & ->). exists f. split; auto. exists l1, (l2 ++ [g]). rewrite <- app_assoc. auto.
  - destruct (existsb _ _) eqn:X; [destruct H|]. destruct H as [<-|[]]. exists g. split; auto. exists acc, []. split; auto. split; [reflexivity|].
    apply Forall_forall. intros y Hy E. unfold from_peer in E. cbn in E. assert (existsb (fun q => ip_eqb (pe_ip q) (e_peer (snd g))) (map peer_of acc) = true); [|congruence].
    apply existsb_exists. exists (peer_of y). split; [apply in_map; auto|]. apply ip_eqb_eq. exact E.
Qed.
Lemma firsts_ips acc i : In i (map pe_ip (firsts (map peer_of acc))) <-> exists f, In f acc /\ from_peer i f.
Proof.
  split.
  - intros H. apply in_map_iff in H as (p & <- & Hp). apply firsts_in in Hp. apply in_map_iff in Hp as (f & <- & Hf). exists f. split; auto. reflexivity.
  - intros (f & Hf & Ef). destruct (firsts_covers (map peer_of acc) (peer_of f)) as (q & Hq & Eq); [apply in_map; auto|]. apply in_map_iff. exists q. split; auto. rewrite Eq. exact Ef.
Qed.
Lemma numbered_peers acc t x : rib_inv x acc -> numbered t (firsts (map peer_of acc)) -> peers_of acc t.
Proof.
  intros I Hn. exists (firsts (map peer_of acc)). split; auto. split; [apply (rg_dup _ _ (ri_reg _ _ I))|]. split; [apply firsts_ips|].
  intros p Hp. apply firsts_first in Hp as (f & Hf & ->). exists f. split; auto.
Qed.
Lemma numbered_fun t l l' : numbered t l -> numbered t l' -> l = l'.
Proof.
  intros A B. apply nth_ext. intros n. rewrite <- (Nat2N.id n), <- A, <- B. reflexivity.
Qed.
(** What the maps hold for a prefix. *)
Lemma iteration_net x acc o n l : rib_inv x acc -> iteration (rn_map x) o -> In (n, l) o -> exists m, map_get ipnet_eqb n (rn_map x) = Some m /\ Permutation (map snd m) l.
Proof.
  intros I (m' & P & F) Hin. apply (forall2_in_r _ _ _ _ F) in Hin as ([k m] & Hm & E1 & E2). cbn in E1, E2. subst k.
  exists m. split; auto. apply (map_get_in ipnet_eqb ipnet_eqb_eq); [apply (ri_mok _ _ I)|]. eapply Permutation_in; [symmetry; exact P|exact Hm].
Qed.

Lemma net_entries x acc n m l : rib_inv x acc -> map_get ipnet_eqb n (rn_map x) = Some m -> Permutation (map snd m) l ->
  NoDup (map re_peer l) /\
  (forall en, In en l <-> exists p f, nth_error (firsts (map peer_of acc)) (N.to_nat (re_peer en)) = Some p /\ last_such (of_route (pe_ip p) n) acc f /\ en = elem_entry (re_peer en) (snd f)).
Proof.
  intros I G P. destruct (ri_get _ _ I n m G) as [MO ME].
  assert (MI : forall idx en, In (idx, en) m -> idx = re_peer en).
  { intros idx en H. apply (map_get_in N.eqb N.eqb_eq) in H; auto. apply ME in H as (p & f & _ & _ & ->). reflexivity. }
  assert (K : map re_peer (map snd m) = map fst m).
  { rewrite map_map. apply map_ext_in. intros [i en] H. cbn. symmetry. apply MI. exact H. }
  split. { eapply Permutation_NoDup; [apply Permutation_map; exact P|]. rewrite K. exact MO. }
  intros en. split.
  - intros H. eapply Permutation_in in H; [|symmetry; exact P]. apply in_map_iff in H as ([i e] & E & H). cbn in E. subst e.
    pose proof (MI _ _ H) as ->. apply (map_get_in N.eqb N.eqb_eq) in H; auto. apply ME in H. exact H.
  - intros H. apply (Permutation_in en P). apply (proj2 (ME _ _)) in H. apply (map_get_in N.eqb N.eqb_eq) in H; auto. apply (in_map snd) in H. exact H.
Qed.
Lemma existsb_same {A} (f : A -> bool) l a : In a l -> (forall b, In b l -> f b = f a) -> existsb f l = f a.
Proof.
  intros H F. destruct (existsb f l) eqn:E.
  - apply existsb_exists in E as (b & Hb & Eb). rewrite <- (F b Hb). auto.
  - destruct (f a) eqn:X; auto. assert (existsb f l = true); [|congruence]. apply existsb_exists. eauto.
Qed.
Lemma export_rib_ok x acc n l i s y : rib_inv x acc -> (exists m, map_get ipnet_eqb n (rn_map x) = Some m /\ Permutation (map snd m) l) ->
  Forall fed_ok acc -> ids_agree acc -> s < 2 ^ 32 ->
  export_record s None 13 (rb_type (prefix_rib i n l)) (MrtV2 (V2Rib (prefix_rib i n l))) = Ok y ->
  record_ok (MrtRecord (Hdr s None 13 (rb_type (prefix_rib i n l)) 0) (MrtV2 (V2Rib (prefix_rib i n l)))) y.
Proof.
  intros I (m & G & P) FO IA Hs E. destruct (net_entries x acc n m l I G P) as [ND EN].
  set (a := afi_of_ip (net_addr n)). set (ap := existsb (fun r => match re_path r with Some _ => true | None => false end) l).
  assert (KF : exists f, In f acc /\ of_net n f).
  { apply (ri_keys _ _ I). apply (map_get_in ipnet_eqb ipnet_eqb_eq) in G; [|apply (ri_mok _ _ I)]. apply (in_map fst) in G. exact G. }
  destruct KF as (f0 & Hf0 & Ef0). rewrite Forall_forall in FO.
  assert (EA : forall en f, In en l -> In f acc -> of_net n f -> en = elem_entry (re_peer en) (snd f) -> has_id (e_prefix (snd f)) = ap).
  { intros en f He Hf Hn E0. unfold ap. rewrite (existsb_same _ l en He).
    - rewrite E0. cbn [elem_entry re_path]. unfold has_id. reflexivity.
    - intros en' He'. apply EN in He' as (p' & f' & _ & Hl' & E'). apply last_in in Hl' as [Hf' [_ Hn']]. rewrite E0, E'. cbn [elem_entry re_path].
      unfold of_net in *. pose proof (IA f' f Hf' Hf (eq_trans Hn' (eq_sym Hn))) as X. exact X. }
  split. { cbn [mr_hdr]. split; [exact Hs|]. split; [|discriminate]. cbn [h_sub prefix_rib rb_type]. unfold rib_type_for_prefix. destruct (is_v4 _), (existsb _ _); reflexivity. }
  cbn [mr_hdr mr_msg h_type h_sub body_ok]. split; [reflexivity|]. split; [reflexivity|]. exists a, SUnicast, ap.
  split. { split; [|split; [unfold a; destruct (net_addr n); auto|auto]]. cbn [prefix_rib rb_type]. unfold rib_type_for_prefix, a. fold ap. destruct (net_addr n), ap; reflexivity. }
  unfold export_record in E. apply rbind_inv in E as (b & E & _). cbn [encode_mrt_message encode_dump_v2] in E. unfold encode_rib in E. cbn [prefix_rib rb_entries rb_type] in E.
  apply rbind_inv in E as (u & _ & E). apply rbind_inv in E as (es & E & _). apply rmap_ok in E.
  destruct (FO f0 Hf0) as [(O1 & O2 & _) _]. unfold of_net in Ef0. rewrite Ef0 in O2. destruct O1 as [O1 _]. rewrite Ef0 in O1.
  split; [cbn [prefix_rib rb_seq]; unfold u32; apply N.mod_lt; discriminate|]. split; [split; [exact O1|exact Logic.I]|]. split; [reflexivity|]. split; [exact O2|]. split; [reflexivity|].
  cbn [prefix_rib rb_entries rb_prefix]. apply Forall_forall. intros en He. destruct (forall2_in_l _ _ _ _ E He) as (w & _ & W).
  pose proof (proj1 (EN en) He) as (p & f & Hp & Hl & E0). apply last_in in Hl as [Hf [_ Hn]]. destruct (FO f Hf) as [FE _].
  unfold encode_rib_entry in W. apply rbind_inv in W as (bb & W & _). unfold with_len in W. apply rbind_inv in W as (cc & W & _).
  pose proof (EA en f He Hf Hn E0) as HA. rewrite E0 in W |- *. cbn [elem_entry re_attrs] in W. unfold of_net in Hn.
  split; [|split; [|split]].
  - cbn [elem_entry re_peer]. pose proof (rg_max _ _ (ri_reg _ _ I)). pose proof max_peers_val.
    assert ((N.to_nat (re_peer en) < length (firsts (map peer_of acc)))%nat) by (apply nth_error_Some; congruence). change (2 ^ 16) with 65536. lia.
  - cbn [elem_entry re_time]. unfold f64_to_u32. lia.
  - cbn [elem_entry re_path]. unfold path_ok, has_id in *. destruct FE as [[_ Fi] _]. destruct (p_id (e_prefix (snd f))); auto.
  - cbn [elem_entry re_attrs]. eapply elem_attrs_ok; eauto. cbn [rib_cfg ac_afi]. unfold a. rewrite <- Hn. reflexivity.
Qed.
Lemma peers_ok acc : Forall fed_ok acc -> Forall peer_ok (firsts (map peer_of acc)).
Proof.
  intros F. apply Forall_forall. intros p Hp. apply firsts_in in Hp. apply in_map_iff in Hp as (f & <- & Hf). rewrite Forall_forall in F. destruct (F f Hf) as ((_ & _ & Hi & Ha & _) & Hs).
  unfold peer_of, elem_peer, peer_new. destruct f as [four e]. cbn [fst snd] in *. cbn [pe_type pe_id pe_ip pe_asn].
  split; [destruct four, (e_peer e); reflexivity|]. split; [destruct (e_peer e); [exact Hi|reflexivity]|]. split; [exact Hi|].
  split; [destruct four, (e_peer e); reflexivity|]. destruct four; [destruct (e_peer e); exact Ha|]. destruct (e_peer e); apply Hs; reflexivity.
Qed.
Lemma export_table_ok x acc s y : rib_inv x acc -> Forall fed_ok acc -> s < 2 ^ 32 -> export_record s None 13 1 (MrtV2 (V2Peers (rn_table x))) = Ok y ->
  record_ok (MrtRecord (Hdr s None 13 1 0) (MrtV2 (V2Peers (rn_table x)))) y.
Proof.
  intros I F Hs E. split; [split; [exact Hs|split; [reflexivity|discriminate]]|]. split; [reflexivity|]. split; [reflexivity|]. exists (firsts (map peer_of acc)).
  destruct I as [R C Nm PM _ _ _]. split; [exact PM|]. split; [apply (rg_num _ _ R)|]. rewrite C, Nm. split; [reflexivity|]. split; [reflexivity|].
  split; [exists []; split; [constructor|reflexivity]|]. split; [|apply peers_ok; auto]. unfold nlen. pose proof (rg_max _ _ R). pose proof max_peers_val. change (2 ^ 16) with 65536. lia.
Qed.
Lemma iteration_keys x acc o : rib_inv x acc -> iteration (rn_map x) o ->
  NoDup (map fst o) /\ forall n, In n (map fst o) <-> exists f, In f acc /\ of_net n f.
Proof.
  intros I (m' & P & F). assert (K : map fst o = map fst m') by (clear P; induction F as [|? ? ? ? [E _] F IH]; cbn [map]; [reflexivity|]; congruence).
  pose proof (Permutation_map fst P) as PK. rewrite K. split; [eapply Permutation_NoDup; [exact PK|apply (ri_mok _ _ I)]|].
  intros n. rewrite <- (ri_keys _ _ I). split; apply Permutation_in; [symmetry|]; exact PK.
Qed.
Lemma same_entry_values x y : same_entry x y -> re_peer y = re_peer x /\ forall e, entry_of e x -> entry_of e y.
Proof. intros (A & B & C & D). split; auto. intros e (E1 & E2 & E3). split; [congruence|]. split; [congruence|]. rewrite <- D. exact E3. Qed.
Lemma entry_of_elem i e : entry_of e (elem_entry i e).
Proof. split; [reflexivity|]. split; [reflexivity|]. cbn [elem_entry re_attrs]. apply attributes_values. Qed.
Lemma rib_reread x acc n m l i t r' s : rib_inv x acc -> map_get ipnet_eqb n (rn_map x) = Some m -> Permutation (map snd m) l ->
  numbered t (firsts (map peer_of acc)) ->
  same_record (MrtRecord (Hdr s None 13 (rb_type (prefix_rib i n l)) 0) (MrtV2 (V2Rib (prefix_rib i n l)))) r' -> rib_for acc t n r'.
Proof.
  intros I G P Nu [_ S]. destruct (net_entries x acc n m l I G P) as [ND EN]. destruct r' as [h' m']. cbn [mr_msg] in *. destruct m' as [| |[|b'| |]| |]; try contradiction.
  cbn [same_body] in S. destruct S as (S1 & S2 & S3 & S4). cbn [prefix_rib rb_type rb_seq rb_prefix rb_entries] in *.
  exists b'. split; [reflexivity|]. split; [auto|].
  assert (K : map re_peer (rb_entries b') = map re_peer l). { clear - S4. induction S4 as [|? ? ? ? Q S4 IH]; [reflexivity|]. cbn [map]. rewrite IH. f_equal. apply same_entry_values in Q. apply Q. }
  rewrite K. split; [exact ND|]. split.
  - intros j f Hl. pose proof (last_in _ _ _ Hl) as [Hf [Fp _]].
    assert (Hj : In j (map pe_ip (firsts (map peer_of acc)))) by (apply firsts_ips; eauto). apply in_map_iff in Hj as (p & Ep & Hp). apply In_nth_error in Hp as (k & Hk).
    assert (Hin : In (elem_entry (N.of_nat k) (snd f)) l). { apply EN. exists p, f. cbn [elem_entry re_peer]. rewrite Nat2N.id. split; auto. split; [rewrite Ep; auto|reflexivity]. }
    destruct (forall2_in_l _ _ _ _ S4 Hin) as (en & He & Se). apply same_entry_values in Se as [Pe _]. exists en, p. split; auto. split; auto.
    rewrite (Nu (re_peer en)), Pe. cbn [elem_entry re_peer]. rewrite Nat2N.id. exact Hk.
  - intros en He. destruct (forall2_in_r _ _ _ _ S4 He) as (e0 & H0 & Se). apply same_entry_values in Se as [Pe Ve]. apply EN in H0 as (p & f & Hp & Hl & E0).
    exists p, f. split; [rewrite (Nu (re_peer en)), Pe; exact Hp|]. split; auto. apply Ve. rewrite E0. apply entry_of_elem.
Qed.
Lemma forall2_map_l {A B C} (g : A -> B) (R : B -> C -> Prop) l l' : Forall2 R (map g l) l' <-> Forall2 (fun a c => R (g a) c) l l'.
Proof.
  split.
  - revert l'. induction l as [|a l IH]; intros l' H; inversion H; subst; constructor; auto.
  - induction 1; constructor; auto.
Qed.
Lemma forall2_compose {A B C} (R : A -> B -> Prop) (S : A -> C -> Prop) l l1 l2 : Forall2 R l l1 -> Forall2 S l l2 -> Forall2 (fun b c => exists a, R a b /\ S a c) l1 l2.
Proof. intros H. revert l2. induction H; intros l2 G; inversion G; subst; constructor; eauto. Qed.
Definition part_record (s : N) (p : nat * (ipnet * list rib_entry)) : mrt_record :=
  let b := prefix_rib (fst p) (fst (snd p)) (snd (snd p)) in MrtRecord (Hdr s None 13 (rb_type b) 0) (MrtV2 (V2Rib b)).
Lemma combine_nets {A B} (l : list A) (o : list B) (R : B -> Prop) p : In p (combine l o) -> (forall b, In b o -> R b) -> R (snd p).
Proof. intros H F. destruct p as [a b]. apply in_combine_r in H. apply F. exact H. Qed.
Lemma combine_snd {A} (o : list A) k : map snd (combine (seq k (length o)) o) = o.
Proof. revert k. induction o as [|a o IH]; intros k; cbn; [reflexivity|]. f_equal. apply IH. Qed.
Lemma rib_dump x acc o b st : rib_inv x acc -> iteration (rn_map x) o -> append_all (rib_parts x o) = Ok b ->
  Forall (fun r => forall y, r = Ok y -> nlen y <= 12 + 16777216) (rib_parts x o) -> Forall fed_ok acc -> ids_agree acc ->
  no_fail st -> sbytes st = b ->
  exists h t recs, reads st (map inl (MrtRecord h (MrtV2 (V2Peers t)) :: recs)) /\ h_ts h = fst (convert_timestamp (rn_time x)) /\
    Forall (fun r => h_ts (mr_hdr r) = fst (convert_timestamp (rn_time x))) recs /\
    numbered t (firsts (map peer_of acc)) /\ Forall2 (fun y r => rib_for acc t (fst y) r) o recs.
Proof.
  intros I IT A SZ FO IA NF ES. apply append_all_ok in A as (xs & F & ->). unfold rib_parts in *. set (s := fst (convert_timestamp (rn_time x))) in *.
  assert (Hs : s < 2 ^ 32) by (unfold s, convert_timestamp, f64_to_u32; cbn [fst]; lia).
  inversion F as [|? y0 ? ys E0 F']; subst. inversion SZ as [|? ? Z0 Z']; subst. rewrite Forall_map in Z'. apply (proj1 (forall2_map_l _ _ _ _)) in F'.
  set (parts := combine (seq 0 (length o)) o) in *. pose (T := MrtRecord (Hdr s None 13 1 0) (MrtV2 (V2Peers (rn_table x)))).
  assert (RF : Forall2 (fun r z => record_ok r z /\ encode_mrt_record r = Ok z /\ nlen z <= header_size (mr_hdr r) + 16777216) (T :: map (part_record s) parts) (y0 :: ys)).
  { constructor.
    - pose proof (Z0 _ E0). split; [exact (export_table_ok x acc s y0 I FO Hs E0)|]. split; [|exact H]. apply export_encodes; [exact E0|]. lia.
    - apply forall2_map_l. assert (PI : forall p, In p parts -> exists m, map_get ipnet_eqb (fst (snd p)) (rn_map x) = Some m /\ Permutation (map snd m) (snd (snd p))).
      { intros p Hp. apply (combine_nets _ _ (fun q => exists m, map_get ipnet_eqb (fst q) (rn_map x) = Some m /\ Permutation (map snd m) (snd q)) _ Hp). intros [n0 l0] Hin. eapply iteration_net; eauto. }
      clear - F' Z' PI I FO IA Hs. induction F' as [|p z ps zs E F' IH]; [constructor|]. inversion Z' as [|? ? Z1 Z2]; subst. constructor; [|apply IH; auto; intros; apply PI; right; auto].
      pose proof (Z1 _ E). destruct p as [i [n l]]. unfold part_record. cbn [fst snd] in *. split; [apply (export_rib_ok x acc n l i s z); auto; apply (PI (i, (n, l))); left; auto|].
      split; [|exact H]. apply export_encodes; [exact E|]. lia. }
  destruct (file_reads _ _ RF st NF ES) as (rs' & RD & SR). inversion SR as [|? r0 ? recs S0 SR' EQ1 EQ2]. subst rs'.
  destruct S0 as [S0h S0]. destruct r0 as [h m0]. cbn [mr_msg T] in S0. destruct m0 as [| |[t| | |]| |]; try contradiction. cbn [same_body] in S0. destruct S0 as (_ & _ & pl & N1 & N2).
  assert (EP : pl = firsts (map peer_of acc)) by (eapply numbered_fun; [exact N1|apply (rg_num _ _ (ri_reg _ _ I))]). subst pl.
  exists h, t, recs. split; [exact RD|]. split; [symmetry; apply S0h|]. split.
  { apply (proj1 (forall2_map_l _ _ _ _)) in SR'. clear - SR'. apply Forall_forall. intros r Hr. destruct (forall2_in_r _ _ _ _ SR' Hr) as (p & _ & [H _]). symmetry. apply H. }
  split; [exact N2|]. apply (proj1 (forall2_map_l _ _ _ _)) in SR'.
  assert (G : Forall2 (fun p r => rib_for acc t (fst (snd p)) r) parts recs).
  { assert (PI : forall p, In p parts -> exists m, map_get ipnet_eqb (fst (snd p)) (rn_map x) = Some m /\ Permutation (map snd m) (snd (snd p))).
    { intros p Hp. apply (combine_nets _ _ (fun q => exists m, map_get ipnet_eqb (fst q) (rn_map x) = Some m /\ Permutation (map snd m) (snd q)) _ Hp). intros [n0 l0] Hin. eapply iteration_net; eauto. }
    clear - SR' PI I N2. induction SR' as [|p r ps rs Q SR' IH]; [constructor|]. constructor; [|apply IH; intros; apply PI; right; auto].
    destruct p as [i0 [n0 l0]]. destruct (PI (i0, (n0, l0)) (or_introl eq_refl)) as (m & G & P). eapply rib_reread; eauto. }
  rewrite <- (combine_snd o 0). fold parts. clear - G. induction G; [constructor|]. cbn [map]. constructor; auto.
Qed.
(** * The elements of a dump *)
Lemma rib_elem_values p pe r r' e : re_time r = re_time r' -> map a_value (at_inner (re_attrs r)) = map a_value (at_inner (re_attrs r')) -> rib_elem p pe r' e -> rib_elem p pe r e.
Proof. unfold rib_elem. intros -> ->. auto. Qed.
Lemma elem_entry_dumped i n pe g e : p_net (e_prefix e) = n -> pe_ip pe = e_peer e -> pe_asn pe = e_asn g -> pe_id pe = (match e_peer e with V4 n => n | V6 _ => 0 end) ->
  rib_entry_to_elem (Pfx n None) pe (elem_entry i e) = Ok (dumped g e).
Proof.
  intros En Ei Ea Ed. unfold rib_entry_to_elem, dumped, reread. cbn [elem_entry re_attrs re_time]. rewrite Ei, Ea, Ed, En. destruct (e_type e) eqn:T.
  - pose proof (elem_scan e T) as S. cbn zeta in S. destruct S as (S1 & S2 & S3 & S4 & S5 & S6 & S7 & S8 & S9 & S10 & S11 & S12 & S13 & S14).
    rewrite S1, S2, S3, S5, S6, S7, S8, S9, S10, S11, S12, S13, S14.
    cbn [e_time e_peer e_asn e_id e_hop e_path e_origins e_origin e_pref e_med e_comms e_atomic e_aggr_asn e_aggr_ip e_otc e_unknown e_depr].
    assert (HH : match e_hop e with Some x => Some x | None => option_map nh_addr (nl_next (new_reachable (e_prefix e) (e_hop e))) end = e_hop e) by (destruct (e_hop e); reflexivity). rewrite HH.
    unfold merge_paths. destruct (e_path e) as [p|]; cbn [rbind]; do 2 f_equal.
    all: try (destruct (e_comms e) as [c|]; cbn [option_map nonempty_opt]; [destruct (regroup c)|]; reflexivity).
    all: try (destruct (e_aggr_asn e); reflexivity). all: try (destruct (e_unknown e) as [[]|]; reflexivity). all: try (destruct (e_depr e) as [[]|]; reflexivity).
  - unfold get_relevant_attributes, values. rewrite attributes_values. unfold elem_values. rewrite T. reflexivity.
Qed.
Lemma entry_dumped n pe g e en : entry_of e en -> p_net (e_prefix e) = n -> pe_ip pe = e_peer e -> pe_asn pe = e_asn g -> pe_id pe = (match e_peer e with V4 n => n | V6 _ => 0 end) ->
  forall x, rib_elem (Pfx n None) pe en x <-> x = dumped g e.
Proof.
  intros (E1 & E2 & E3) En Ei Ea Ed x. pose proof (elem_entry_dumped 0 n pe g e En Ei Ea Ed) as Q.
  destruct (rib_entry_elem (Pfx n None) pe (elem_entry 0 e)) as (y & Y1 & Y2). assert (y = dumped g e) by congruence. subst y.
  assert (R : rib_elem (Pfx n None) pe en (dumped g e)). { eapply rib_elem_values; [| |exact Y2]; [exact E1|]. rewrite E3. symmetry. apply attributes_values. }
  split; [intros X; eapply rib_elem_fun; eauto|intros ->; exact R].
Qed.
Lemma first_fun {A} (P : A -> Prop) l a b : first_such P l a -> first_such P l b -> a = b.
Proof.
  intros (l1 & l2 & -> & Pa & F1) (m1 & m2 & E & Pb & F2). revert m1 E F2. induction l1 as [|c l1 IH]; intros [|d m1] E F2; cbn in E; injection E; intros; subst; auto.
  - inversion F2; contradiction.
  - inversion F1; contradiction.
  - inversion F1; inversion F2; subst. eauto.
Qed.
Lemma peers_fun l t : (forall e, In e l -> exists p, get_peer_by_id t (re_peer e) = Some p) -> exists ps, Forall2 (fun e p => get_peer_by_id t (re_peer e) = Some p) l ps.
Proof. induction l as [|e l IH]; intros H; [exists []; constructor|]. destruct (H e) as (p & Hp); [left; auto|]. destruct IH as (ps & F); [intros; apply H; right; auto|]. exists (p :: ps). constructor; auto. Qed.
Lemma combine_forall2 {A B C} (R : A -> B -> C -> Prop) ps l es : length ps = length l -> Forall2 (fun x e => R (fst x) (snd x) e) (combine ps l) es ->
  length es = length ps /\ (forall p b, In (p, b) (combine ps l) -> exists e, In e es /\ R p b e) /\ (forall e, In e es -> exists p b, In (p, b) (combine ps l) /\ R p b e).
Proof.
  intros L F. split; [apply forall2_length in F; rewrite combine_length in F; lia|]. split.
  - intros p b H. apply (forall2_in_l _ _ _ _ F H).
  - intros e H. destruct (forall2_in_r _ _ _ _ F H) as ([p b] & ? & ?). eauto.
Qed.
Lemma forall2_in_combine {A B} (R : A -> B -> Prop) l ps : Forall2 R l ps -> (forall p b, In (p, b) (combine ps l) -> R b p) /\ (forall b, In b l -> exists p, In (p, b) (combine ps l)).
Proof.
  induction 1 as [|a p l ps H F [I1 I2]]; cbn; [split; intros; contradiction|]. split.
  - intros q b [E|Hin]; [injection E as <- <-; auto|auto].
  - intros b [<-|Hb]; [eauto|]. destruct (I2 b Hb) as (q & Hq). eauto.
Qed.
Lemma map_combine_fst {A B C D} (R : A * B -> D -> Prop) (f : A -> C) (g : D -> C) ps (l : list B) es : length ps = length l -> Forall2 R (combine ps l) es -> (forall x e, R x e -> g e = f (fst x)) -> map g es = map f ps.
Proof.
  intros L F H. revert l es L F. induction ps as [|p ps IH]; intros [|b l] es L F; try discriminate; inversion F; subst; cbn [map]; auto. f_equal; [apply (H _ _ H2)|]. eapply IH; eauto.
Qed.
Lemma rib_for_elems acc t ps n r : numbered t ps -> NoDup (map pe_ip ps) ->
  (forall p, In p ps -> exists f, first_such (from_peer (pe_ip p)) acc f /\ pe_asn p = e_asn (snd f) /\ pe_id p = match pe_ip p with V4 n => n | V6 _ => 0 end) ->
  rib_for acc t n r ->
  table_after (Some t) r = Some t /\ NoDup (map e_peer (elems_of (Some t, r))) /\
  (forall e, In e (elems_of (Some t, r)) <-> exists i g f, first_such (from_peer i) acc g /\ last_such (of_route i n) acc f /\ e = dumped (snd g) (snd f)).
Proof.
  intros Nu ND FS (b & Em & Ep & NDe & C1 & C2). destruct r as [h m]. cbn [mr_msg] in Em. subst m. split; [reflexivity|].
  destruct (peers_fun (rb_entries b) t) as (qs & Q). { intros e He. destruct (C2 e He) as (p & _ & H & _). eauto. }
  destruct (rib_known t h b qs Q) as (es & E & F). unfold elems_of. cbn [fst snd]. rewrite E. rewrite Ep in F.
  pose proof (forall2_length _ _ _ Q) as L. destruct (forall2_in_combine _ _ _ Q) as [Q1 Q2].
  assert (KN : forall p en, In (p, en) (combine qs (rb_entries b)) -> exists g f, first_such (from_peer (pe_ip p)) acc g /\ last_such (of_route (pe_ip p) n) acc f /\
     forall x, rib_elem (Pfx n None) p en x <-> x = dumped (snd g) (snd f)).
  { intros p en Hin. pose proof (Q1 _ _ Hin) as Hp. cbn beta in Hp. apply in_combine_r in Hin. destruct (C2 en Hin) as (p' & f & Hp' & Hl & He).
    pose proof (eq_trans (eq_sym Hp) Hp') as X. injection X as <-. assert (Hps : In p ps). { rewrite (Nu (re_peer en)) in Hp. eapply nth_error_In; eauto. }
    destruct (FS p Hps) as (g & Hg & Ag & Dg). exists g, f. split; [exact Hg|]. split; [exact Hl|]. destruct (last_in _ _ _ Hl) as [_ [Fp Fn]].
    apply entry_dumped; [exact He|exact Fn|symmetry; exact Fp|exact Ag|]. rewrite Dg. unfold from_peer in Fp. rewrite Fp. reflexivity. }
  destruct (combine_forall2 (rib_elem (Pfx n None)) _ _ _ (eq_sym L) F) as (_ & X1 & X2). split.
  - rewrite (map_combine_fst _ pe_ip e_peer _ _ _ (eq_sym L) F) by (intros x e (_ & _ & _ & H & _); exact H).
    assert (G : forall l qs, Forall2 (fun e p => get_peer_by_id t (re_peer e) = Some p) l qs -> NoDup (map re_peer l) -> NoDup (map pe_ip qs)).
    { clear - Nu ND. intros l qs Q. induction Q as [|e p l qs H Q IH]; intros D; [constructor|]. cbn [map] in *. inversion D as [|? ? D1 D2]; subst. constructor; [|auto].
      intros Hin. apply D1. apply in_map_iff in Hin as (p' & Ei & Hp'). destruct (forall2_in_r _ _ _ _ Q Hp') as (e' & He' & G). apply in_map_iff. exists e'. split; auto.
      rewrite (Nu (re_peer e')) in G. rewrite (Nu (re_peer e)) in H. apply N2Nat.inj. eapply (nodup_nth pe_ip); eauto. }
    eapply G; eauto.
  - intros e. split.
    + intros H. destruct (X2 e H) as (p & en & Hin & R). destruct (KN p en Hin) as (g & f & Hg & Hl & K). exists (pe_ip p), g, f. split; auto. split; auto. apply K. exact R.
    + intros (i & g & f & Hg & Hl & ->). destruct (C1 i f Hl) as (en & p & Hen & Hp & <-). destruct (Q2 en Hen) as (p' & Hin). pose proof (Q1 _ _ Hin) as Hp'. cbn beta in Hp'.
      pose proof (eq_trans (eq_sym Hp) Hp') as X. injection X as <-. destruct (KN p en Hin) as (g' & f' & Hg' & Hl' & K).
      pose proof (first_fun _ _ _ _ Hg Hg'). pose proof (last_fun _ _ _ _ Hl Hl'). subst g' f'. destruct (X1 p en Hin) as (y & Hy & R). apply K in R. subst y. exact Hy.
Qed.
Lemma dumped_key g f : route_of (dumped g f) = route_of f. Proof. reflexivity. Qed.
Lemma dump_elems acc t ps nets recs : numbered t ps -> NoDup (map pe_ip ps) ->
  (forall p, In p ps -> exists f, first_such (from_peer (pe_ip p)) acc f /\ pe_asn p = e_asn (snd f) /\ pe_id p = match pe_ip p with V4 n => n | V6 _ => 0 end) ->
  Forall2 (rib_for acc t) nets recs -> NoDup nets ->
  let els := flat_map elems_of (annotate (Some t) recs) in
  NoDup (map route_of els) /\
  forall e, In e els <-> exists i n g f, In n nets /\ first_such (from_peer i) acc g /\ last_such (of_route i n) acc f /\ e = dumped (snd g) (snd f).
Proof.
  intros Nu ND FS F D. cbn zeta. induction F as [|n r nets recs H F IH].
  - cbn. split; [constructor|]. intros e. split; [contradiction|]. intros (? & ? & ? & ? & [] & _).
  - inversion D as [|? ? D1 D2]; subst. destruct (IH D2) as [I1 I2]. destruct (rib_for_elems acc t ps n r Nu ND FS H) as (T & R1 & R2). cbn [annotate flat_map]. rewrite T.
    assert (KN : forall e, In e (elems_of (Some t, r)) -> p_net (e_prefix e) = n).
    { intros e He. apply R2 in He as (i & g & f & _ & Hl & ->). destruct (last_in _ _ _ Hl) as [_ [_ Fn]]. exact Fn. }
    split.
    + rewrite map_app. assert (A1 : NoDup (map route_of (elems_of (Some t, r)))). { apply (NoDup_map_inv fst). rewrite map_map. exact R1. }
      assert (A2 : forall k, In k (map route_of (elems_of (Some t, r))) -> ~ In k (map route_of (flat_map elems_of (annotate (Some t) recs)))).
      { intros k Hk Hk'. apply in_map_iff in Hk as (e & <- & He). apply in_map_iff in Hk' as (e' & Ek & He'). apply KN in He. apply I2 in He' as (i & n' & g & f & Hn & _ & Hl & ->).
        rewrite dumped_key in Ek. injection Ek as _ Ek. destruct (last_in _ _ _ Hl) as [_ [_ Fn]]. unfold of_net in Fn. apply D1. rewrite <- He, <- Ek, Fn. exact Hn. }
      clear - A1 A2 I1. induction (map route_of (elems_of (Some t, r))) as [|a l IH]; [exact I1|]. inversion A1; subst. cbn [app]. constructor; [|apply IH; auto; intros; apply A2; right; auto].
      rewrite in_app_iff. intros [X|X]; [contradiction|]. apply (A2 a); [left; auto|exact X].
    + intros e. rewrite in_app_iff, R2, I2. split.
      * intros [(i & g & f & A & B & C)|(i & n' & g & f & Hn & A & B & C)]; [exists i, n, g, f|exists i, n', g, f]; split; auto; [left; auto|right; auto].
      * intros (i & n' & g & f & [<-|Hn] & A & B & C); [left; exists i, g, f; auto|right; exists i, n', g, f; auto].
Qed.
(** * Update files *)
Definition log_record (e : elem) : mrt_record :=
  MrtRecord (Hdr (fst (convert_timestamp (e_time e))) (Some (snd (convert_timestamp (e_time e)))) 17 4 0) (elem_message e).
Lemma message_size al m b : encode_mp_message al m = Ok b -> nlen b <= 65600.
Proof.
  intros E. unfold encode_mp_message in E. apply rbind_inv in E as (bb & Em & Q). apply encode_message_iff in Em as (body & _ & Lb & ->). apply ok_inj in Q. rewrite <- Q.
  rewrite !nlen_app. unfold encode_asn, header_wire. rewrite !nlen_be, !nlen_app, nlen_be.
  assert (LO : forall i, nlen (octets i) <= 16) by (intros [?|?]; cbn [octets]; rewrite nlen_be; lia). pose proof (LO (mm_peer m)). pose proof (LO (mm_local m)).
  change (nlen (repeat 255 16)) with 16. assert ((asn_width al <= 4)%nat) by (destruct al; cbn; lia). match goal with |- context [nlen [?z]] => change (nlen [z]) with 1 end. lia.
Qed.
Lemma elem_record_inv e x : log_ok e -> elem_record e = Ok x -> record_ok (log_record e) x /\ encode_mrt_record (log_record e) = Ok x /\ nlen x <= 16 + 16777216.
Proof.
  intros [He Hi] E. assert (T : fst (convert_timestamp (e_time e)) < 2 ^ 32 /\ snd (convert_timestamp (e_time e)) < 2 ^ 32).
  { unfold convert_timestamp, f64_to_u32. cbn [fst snd]. lia. }
  unfold elem_record in E. unfold log_record. destruct (convert_timestamp (e_time e)) as [s us]. cbn [fst snd] in *.
  pose proof E as E'. unfold export_record in E'. apply rbind_inv in E' as (b & Eb & E'). apply rbind_inv in E' as (h & Eh & E'). apply ok_inj in E'. subst x.
  pose proof Eb as Em. unfold elem_message in Em. cbn [encode_mrt_message encode_bgp4mp] in Em. unfold encode_mp_message in Em. apply rbind_inv in Em as (bb & Em & Q). cbn [mm_bgp] in Em.
  apply encode_message_iff in Em as (body & Ebody & Lb & ->). apply ok_inj in Q. cbn [encode_body] in Ebody. apply encode_update_iff in Ebody as (a & Ea & _).
  assert (L : nlen (h ++ b) <= 16 + 16777216).
  { pose proof (header_size_len _ _ Eh) as Lh. cbn in Lh. rewrite nlen_app, Lh. unfold elem_message in Eb. cbn [encode_mrt_message encode_bgp4mp] in Eb. pose proof (message_size _ _ _ Eb). lia. }
  split; [|split; [apply export_encodes; [exact E|lia]|exact L]].
  split; [split; [exact (proj1 T)|split; [reflexivity|split; [reflexivity|exact (proj2 T)]]]|].
  split; [right; reflexivity|]. split; [reflexivity|]. split; [|intros X; discriminate X].
  exists Bits32, false. split; [left; reflexivity|]. destruct He as (A1 & A2 & A3 & A4 & A5). split.
  - cbn. repeat split; auto; destruct (e_peer e); cbn in *; auto; reflexivity.
  - cbn [mm_bgp message_ok]. split; [split; [repeat split; constructor|constructor]|]. split; [split; [repeat split; constructor|constructor]|].
    cbn [update_of_elem u_attrs]. eapply (elem_attrs_ok AIpv4 (update_cfg false Bits32)); [split; eauto|reflexivity|reflexivity|symmetry; exact Hi|exact Ea].
Qed.
Lemma same_log e r : same_record (log_record e) r -> logs e r /\ forall t, elems_of (t, r) = [logged e].
Proof.
  intros [(H1 & H2 & H3 & H4) S]. destruct r as [h m]. cbn [mr_hdr mr_msg log_record] in *. unfold elem_message in S. destruct m as [| | |[m|m]|]; try contradiction. cbn [same_body] in S.
  destruct S as (S1 & S2 & S3 & S4 & S5 & S6 & S7). cbn [mm_type mm_peer_as mm_local_as mm_ifindex mm_peer mm_local mm_bgp] in *. destruct (mm_bgp m) as [|u| | |] eqn:B; try discriminate; try contradiction.
  cbn [same_message update_of_elem u_withdrawn u_announced u_attrs] in S7. destruct S7 as (S7 & S8 & S9). cbn [h_ts h_us h_type h_sub] in *.
  split. { unfold logs. cbn [mr_hdr mr_msg]. rewrite <- H1, <- H2. split; auto. exists m, u. rewrite <- S5, <- S2, <- S3, <- S6, <- S7, <- S8, <- S9. repeat split; auto.
    - destruct (e_peer e); reflexivity.
    - apply attributes_values. }
  intros t. unfold elems_of, record_to_elems, record_to_elems_iter. cbn [fst snd mr_msg mr_hdr]. rewrite B. cbn [bgp_to_elems_iter].
  set (tm := record_time h). pose proof (elem_roundtrip (at_time tm e)) as R. cbn [at_time e_time e_peer e_asn] in R.
  assert (EA : forall u1 u2 a b c, u_withdrawn u1 = u_withdrawn u2 -> u_announced u1 = u_announced u2 -> at_inner (u_attrs u1) = at_inner (u_attrs u2) -> bgp_update_to_elems_iter u1 a b c = bgp_update_to_elems_iter u2 a b c).
  { intros u1 u2 a b c X1 X2 X3. unfold bgp_update_to_elems_iter, get_relevant_attributes, values. rewrite X1, X2, X3. reflexivity. }
  unfold bgp_update_to_elems in R. apply rbind_inv in R as (it & R1 & R2). rewrite (EA u (Update [] (attributes_of_elem (at_time tm e)) []) tm (mm_peer m) (mm_peer_as m)) by (cbn [u_withdrawn u_announced u_attrs]; auto).
  rewrite <- S5, <- S2. change (Elem tm (e_type e) (e_peer e) (e_asn e) (e_id e) (e_prefix e) (e_hop e) (e_path e) (e_origins e) (e_origin e) (e_pref e) (e_med e) (e_comms e) (e_atomic e) (e_aggr_asn e) (e_aggr_ip e) (e_otc e) (e_unknown e) (e_depr e)) with (at_time tm e) in R1. rewrite R1. cbn [rbind rec_size].
  apply ok_inj in R2. assert (CO : forall f u, rec_collect f (RIBgp u) = Ok (upd_collect f u)).
  { induction f as [|f IH]; intros v; cbn [rec_collect upd_collect rec_next]; auto. destruct (upd_next v) as [[x|] v']; cbn [rbind]; [rewrite IH|]; reflexivity. }
  rewrite CO, R2. unfold logged. destruct (convert_timestamp (e_time e)) as [s us]. cbn [fst snd] in *.
  replace (record_time {| h_ts := s; h_us := Some us; h_type := 17; h_sub := 4; h_len := 0 |}) with tm by (unfold tm, record_time; cbn [h_ts h_us]; rewrite <- H1, <- H2; reflexivity).
  unfold reread, at_time. cbn [e_type]. destruct (e_type e); reflexivity.
Qed.
Lemma updates_file l b x' st : Forall log_ok l -> updates_export l = (Ok b, x') -> no_fail st -> sbytes st = b ->
  x' = [] /\ exists recs, reads st (map inl recs) /\ Forall2 logs l recs /\ flat_map elems_of (annotate None recs) = map logged l.
Proof.
  intros F E NF ES. unfold updates_export in E. destruct (append_all (map elem_record l)) as [b'| |] eqn:A; try discriminate. injection E as -> <-. split; auto.
  apply append_all_ok in A as (xs & FX & ->). apply (proj1 (forall2_map_l _ _ _ _)) in FX.
  assert (RF : Forall2 (fun r x => record_ok r x /\ encode_mrt_record r = Ok x /\ nlen x <= header_size (mr_hdr r) + 16777216) (map log_record l) xs).
  { apply forall2_map_l. clear ES. induction FX as [|e x l xs H FX IH]; [constructor|]. inversion F; subst. constructor; [apply elem_record_inv; auto|auto]. }
  destruct (file_reads _ _ RF st NF ES) as (rs & RD & SR). apply (proj1 (forall2_map_l _ _ _ _)) in SR. exists rs. split; auto.
  split; [clear - SR; induction SR; constructor; auto; apply same_log; auto|].
  clear - SR. generalize (@None peer_table) as t. induction SR as [|e r l rs H SR IH]; intros t; [reflexivity|]. cbn [annotate flat_map map]. rewrite (proj2 (same_log _ _ H) t), IH. reflexivity.
Qed.
Lemma feed_app l1 l2 x : feed x (l1 ++ l2) = (fst (feed x l1) ++ fst (feed (snd (feed x l1)) l2), snd (feed (snd (feed x l1)) l2)).
Proof.
  revert x. induction l1 as [|[four e] l1 IH]; intros x; cbn [app feed fst snd]; [destruct (feed x l2); reflexivity|].
  destruct (rib_process x four e) as [r x1]. rewrite IH. destruct (feed x1 l1) as [rs x2]. cbn [fst snd]. destruct (feed x2 l2). reflexivity.
Qed.
Lemma history_feed l x : history l x -> exists rs, feed rib_new l = (rs, x).
Proof.
  induction 1 as [|l x four e H (rs & IH)|l x o b x' H _ E|l x o r x' H (rs & IH) E].
  - exists []. reflexivity.
  - rewrite feed_app, IH. cbn [fst snd feed]. destruct (rib_process x four e) as [r x']. cbn [fst snd]. eauto.
  - exists []. unfold rib_export in E. destruct (append_all _); try discriminate. injection E as _ <-. reflexivity.
  - unfold rib_export in E. destruct (append_all _); try discriminate. injection E as _ <-. eauto.
Qed.
Lemma dump_all l rs x o b x' st : feed rib_new l = (rs, x) -> iteration (rn_map x) o -> rib_export x o = (Ok b, x') ->
  Forall fed_ok (accepted rs l) -> ids_agree (accepted rs l) ->
  Forall (fun r => forall y, r = Ok y -> nlen y <= 12 + 16777216) (rib_parts x o) -> no_fail st -> sbytes st = b ->
  let acc := accepted rs l in x' = rib_new /\ exists h t nets recs,
    reads st (map inl (MrtRecord h (MrtV2 (V2Peers t)) :: recs)) /\ peers_of acc t /\ NoDup nets /\
    (forall n, In n nets <-> exists f, In f acc /\ of_net n f) /\ Forall2 (rib_for acc t) nets recs /\
    let els := flat_map elems_of (annotate None (MrtRecord h (MrtV2 (V2Peers t)) :: recs)) in
    NoDup (map route_of els) /\
    forall e, In e els <-> exists i n g f, first_such (from_peer i) acc g /\ last_such (of_route i n) acc f /\ e = dumped (snd g) (snd f).
Proof.
  intros F IT E FO IA SZ NF ES. cbv zeta. destruct (feed_inv l rib_new [] rs x inv_new F) as (I & _ & _). cbn [app] in I.
  unfold rib_export in E. destruct (append_all (rib_parts x o)) as [b'| |] eqn:A; try discriminate. injection E as -> <-. split; auto.
  destruct (rib_dump x _ o b st I IT A SZ FO IA NF ES) as (h & t & recs & RD & _ & _ & Nu & R). destruct (iteration_keys x _ o I IT) as [K1 K2].
  assert (R' : Forall2 (rib_for (accepted rs l) t) (map fst o) recs) by (apply forall2_map_l; exact R).
  pose proof (numbered_peers _ t x I Nu) as PO. exists h, t, (map fst o), recs. split; [exact RD|]. split; [exact PO|]. split; [exact K1|]. split; [exact K2|]. split; [exact R'|].
  cbn [annotate flat_map]. change (elems_of (None, MrtRecord h (MrtV2 (V2Peers t)))) with (@nil elem). cbn [app]. change (table_after None (MrtRecord h (MrtV2 (V2Peers t)))) with (Some t).
  destruct PO as (ps & N1 & N2 & N3 & N4). destruct (dump_elems _ t ps _ _ N1 N2 N4 R' K1) as [D1 D2]. cbv zeta in D1, D2. split; [exact D1|].
  intros e. rewrite D2. split.
  - intros (i & n & g & f & _ & H). eauto.
  - intros (i & n & g & f & Hg & Hl & He). exists i, n, g, f. split; [|auto]. apply K2. apply last_in in Hl as [Hf [_ Hn]]. eauto.
Qed.
Lemma clean_elems show p recs : pr_text p = None -> reads (pr_stream p) (map inl recs) ->
  record_list show (unfiltered p) = Ok recs /\
  exists n, forall fuel, (n <= fuel)%nat -> elem_list show fuel (unfiltered p) = Ok (flat_map elems_of (annotate None recs)).
Proof.
  intros T R. destruct (elems_of_records show p T) as (n & l & A & B).
  pose proof (frecord_list_ok show (unfiltered p) _ T R) as Fr. cbn [pr_filters unfiltered] in Fr. rewrite fkept_nil in Fr.
  destruct (default_records show (unfiltered p)) as (items & X & Y). rewrite Fr in X. apply ok_inj in X. subst items.
  assert (U : usable (pr_core (unfiltered p)) (map inl recs) = recs) by (clear; induction recs as [|a r IH]; [reflexivity|]; cbn [map usable]; f_equal; exact IH).
  rewrite U in Y. split; [exact Y|]. rewrite Y in A. apply ok_inj in A. subst l. eauto.
Qed.
(** * Answers *)
Lemma process_answer x acc four e r x' : rib_inv x acc -> rib_process x four e = (r, x') ->
  exists ips, NoDup ips /\ (forall i, In i ips <-> exists f, In f acc /\ from_peer i f) /\ (length ips <= max_peers)%nat /\
  ((r = Ok tt /\ (In (e_peer e) ips \/ (length ips < max_peers)%nat)) \/
   (r = Err EEncTooLarge /\ ~ In (e_peer e) ips /\ length ips = max_peers /\ rn_table x' = rn_table x /\ rn_map x' = rn_map x)).
Proof.
  intros I E. exists (map pe_ip (firsts (map peer_of acc))). split; [apply (rg_dup _ _ (ri_reg _ _ I))|]. split; [apply firsts_ips|].
  split; [rewrite map_length; apply (rg_max _ _ (ri_reg _ _ I))|]. destruct (process_inv x acc four e r x' I E) as [[-> I']|(-> & _ & A & B & C & D)].
  - left. split; auto. pose proof (rg_max _ _ (ri_reg _ _ I')) as M. rewrite firsts_snoc_peer in M.
    destruct (existsb (fun q => ip_eqb (pe_ip q) (e_peer (snd (four, e)))) (map peer_of acc)) eqn:X.
    + left. apply existsb_exists in X as (q & Hq & Eq). apply ip_eqb_eq in Eq. apply firsts_ips. apply in_map_iff in Hq as (f & <- & Hf). exists f. split; auto.
    + right. rewrite app_length in M. cbn [length] in M. rewrite map_length. lia.
  - right. split; auto. split; [|rewrite map_length; auto]. intros H. apply firsts_ips in H as (f & Hf & Ef). rewrite Forall_forall in D. apply (D f Hf). exact Ef.
Qed.
Lemma append_np l : Forall (fun r : res bytes => r <> Panic) l -> append_all l <> Panic.
Proof. induction 1 as [|r l H F IH]; cbn [append_all]; [discriminate|]. destruct r; cbn [rbind]; try congruence. destruct (append_all l); cbn [rbind]; congruence. Qed.
Lemma attr_lengths e : Forall attr_lengths_ok (at_inner (attributes_of_elem e)).
Proof.
  rewrite attributes_inner. apply Forall_map. unfold elem_values. destruct (e_type e).
  - repeat (apply Forall_app; split); try (constructor; [exact Logic.I|constructor]); try (match goal with |- Forall _ (opt_one ?o _) => destruct o; cbn [opt_one]; repeat constructor end).
    + destruct (e_comms e) as [l|]; [|constructor]. repeat (apply Forall_app; split); match goal with |- Forall _ (if_any ?l _) => destruct l; cbn [if_any]; repeat constructor end.
    + destruct (e_unknown e) as [l|]; [|constructor]. apply Forall_map. apply Forall_forall. intros; exact Logic.I.
    + destruct (e_depr e) as [l|]; [|constructor]. apply Forall_map. apply Forall_forall. intros; exact Logic.I.
  - constructor; [exact Logic.I|constructor].
Qed.
Lemma elem_record_np e : elem_record e <> Panic.
Proof.
  unfold elem_record. destruct (convert_timestamp (e_time e)) as [s us]. unfold export_record.
  destruct (encode_mrt_message 4 (elem_message e)) as [b| |] eqn:E; cbn [rbind]; try discriminate.
  - unfold elem_message in E. cbn [encode_mrt_message encode_bgp4mp] in E. pose proof (message_size _ _ _ E) as L. unfold encode_header. cbn [h_us h_len].
    unfold u32. change (2 ^ 32) with 4294967296. rewrite N.mod_small by lia. destruct (N.ltb_spec 4294967295 (nlen b + 4)); [lia|]. cbn [rbind]. discriminate.
  - intros _. apply (np_encode_body 4 (elem_message e)); [exact Logic.I|apply attr_lengths|exact E].
Qed.
Lemma rib_export_np x acc o : rib_inv x acc -> iteration (rn_map x) o -> append_all (rib_parts x o) <> Panic.
Proof.
  intros I IT. apply append_np. unfold rib_parts. constructor.
  - unfold export_record. destruct (encode_mrt_message 1 _) eqn:E; cbn [rbind]; try discriminate. intros _. eapply np_encode_body; [| |exact E]; [apply (ri_pm _ _ I)|constructor].
  - apply Forall_map. apply Forall_forall. intros p Hp.
    pose proof (combine_nets _ _ (fun q => exists m, map_get ipnet_eqb (fst q) (rn_map x) = Some m /\ Permutation (map snd m) (snd q)) _ Hp) as PI.
    destruct PI as (m & G & P). { intros [n0 l0] Hin. eapply iteration_net; eauto. }
    destruct (net_entries x acc _ m _ I G P) as [_ EN]. unfold export_record. destruct (encode_mrt_message _ _) eqn:E; cbn [rbind]; try discriminate. intros _. eapply np_encode_body; [| |exact E]; [exact Logic.I|].
    cbn [mrt_attrs prefix_rib rb_entries]. apply Forall_flat_map. apply Forall_forall. intros en He. apply EN in He as (q & f & _ & _ & ->). cbn [elem_entry re_attrs]. apply attr_lengths.
Qed.
