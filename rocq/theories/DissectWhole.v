(** Proofs that dissection leaves nothing out. *)
From Coq Require Import Lia ZifyBool ZifyNat ZifyN.
From Verif Require Import Base BaseFacts Net Dissect DissectSpec DissectFacts.

Lemma preorder_eq n : preorder n = n :: flat_map preorder (nd_kids n).
Proof. destruct n as [f v o l ks]. cbn [preorder nd_kids]. f_equal. Qed.
Lemma find_all_eq f n : find_all f n = named f n.
Proof.
  unfold named. revert n. fix IH 1. intros [g v o l ks]. cbn [find_all preorder filter nd_field nd_kids].
  assert (E : forall ks, (fix go ks := match ks with [] => [] | k :: ks' => find_all f k ++ go ks' end) ks =
     filter (fun n => field_eqb (nd_field n) f) ((fix go ks := match ks with [] => [] | k :: ks' => preorder k ++ go ks' end) ks)).
  { clear ks. induction ks as [|k ks IHk]; [reflexivity|]. rewrite filter_app, <- IHk, <- IH. reflexivity. }
  rewrite E. destruct (field_eqb g f); reflexivity.
Qed.
Lemma find_eq f n : find_node f n = hd_error (named f n).
Proof.
  unfold named. revert n. fix IH 1. intros [g v o l ks]. cbn [find_node preorder filter nd_field nd_kids]. destruct (field_eqb g f); [reflexivity|].
  induction ks as [|k ks IHk]; [reflexivity|]. rewrite filter_app, (IH k), IHk. destruct (filter _ (preorder k)); reflexivity.
Qed.
(** ** Exact nodes *)
Lemma node_exact all base data f v pos len kids : small all -> at_ all base data -> pos + len <= nlen data ->
  node_at f v base pos len kids = Ok (Node f v (base + pos) len kids).
Proof.
  intros Sm A L. pose proof (at_len _ _ _ A) as AL. unfold small in Sm. unfold node_at. rewrite !u32_small by lia. replace (base + pos <? 4294967296) with true by lia. reflexivity.
Qed.
Lemma leaf_exact all base data name v pos len : small all -> at_ all base data -> pos + len <= nlen data ->
  leaf name v base pos len = Ok [Node (F name) v (base + pos) len []].
Proof. intros Sm A L. unfold leaf, one. rewrite (node_exact all base data) by auto. reflexivity. Qed.
Lemma under_exact all base data f v pos len kids : at_ all base data -> pos + len <= nlen data -> under all (Node f v (base + pos) len kids) = sub data pos len.
Proof. intros A L. unfold under. cbn [nd_off nd_len]. apply (at_sub _ _ _ _ _ A L). Qed.
Lemma sub_mid pre x post n : n = nlen x -> sub (pre ++ x ++ post) (nlen pre) n = x.
Proof. intros ->. unfold sub. rewrite !to_nat_nlen, skipn_app_len. rewrite firstn_app, firstn_all, Nat.sub_diag. cbn [firstn]. apply app_nil_r. Qed.
Lemma get_mid pre b post : get (pre ++ b :: post) (nlen pre) = Some b.
Proof. unfold get. rewrite to_nat_nlen, nth_error_app2 by lia. rewrite Nat.sub_diag. reflexivity. Qed.
Lemma idx_mid pre b post : idx (pre ++ b :: post) (nlen pre) = Ok b.
Proof. pose proof (get_mid pre b post) as G. unfold get in G. unfold idx. rewrite G. reflexivity. Qed.
Lemma cat_ok a b : Ok a +++ Ok b = Ok (a ++ b). Proof. reflexivity. Qed.
(** A list of leaves over these octets. *)
Definition leaves (all : bytes) (name : string) (items : list bytes) (l : list node) : Prop :=
  Forall2 (fun i k => nd_field k = F name /\ under all k = i /\ nd_kids k = []) items l.
Lemma named_leaves all name name' items l : leaves all name items l -> flat_map (named (F name')) l = if String.eqb name name' then l else [].
Proof.
  induction 1 as [|i k items l (A & _ & C) _ IH]; [destruct String.eqb; reflexivity|]. cbn [flat_map]. rewrite IH. unfold named. rewrite preorder_eq, C. cbn [flat_map filter].
  rewrite A. cbn [field_eqb]. destruct String.eqb; reflexivity.
Qed.
Lemma under_leaves all name items l : leaves all name items l -> map (under all) l = items.
Proof. induction 1 as [|i k items l (_ & B & _) _ IH]; [reflexivity|]. cbn [map]. rewrite B, IH. reflexivity. Qed.
(** ** Prefixes *)
Lemma nlri_whole all base v4 ap : small all -> forall ps data pre, at_ all base data -> Forall (is_prefix ap) ps -> data = pre ++ concat ps ->
  forall fuel, (length ps < fuel)%nat -> exists l, nlri_loop fuel data base v4 ap (nlen pre) = Ok l /\ leaves all "bgp.nlri.prefix" ps l.
Proof.
  intros Sm. induction ps as [|p ps IH]; intros data pre A K E fuel Lf; (destruct fuel as [|fuel]; [inversion Lf|]); cbn [nlri_loop].
  - cbn [concat] in E. rewrite app_nil_r in E. subst data. replace (nlen pre <? nlen pre) with false by lia. exists []. split; [reflexivity|constructor].
  - pose proof (Forall_inv K) as (id & plen & o & -> & Li & Lo). pose proof (Forall_inv_tail K) as K'. clear K. cbn [concat] in E. set (post := concat ps) in *.
    assert (Ed : data = pre ++ (id ++ plen :: o) ++ post) by exact E.
    assert (Ln : nlen data = nlen pre + nlen id + 1 + nlen o + nlen post) by (rewrite Ed, !nlen_app, nlen_cons; lia).
    replace (nlen pre <? nlen data) with true by lia.
    replace (ap && (nlen data <? nlen pre + 5)) with false by (destruct ap; cbn [andb]; lia). cbv zeta.
    assert (Pp : (if ap then nlen pre + 4 else nlen pre) = nlen (pre ++ id)) by (rewrite nlen_app; destruct ap; lia). rewrite Pp.
    assert (G : get data (nlen (pre ++ id)) = Some plen) by (rewrite Ed; replace (pre ++ (id ++ plen :: o) ++ post) with ((pre ++ id) ++ plen :: (o ++ post)) by (rewrite <- !app_assoc; reflexivity); apply get_mid).
    rewrite G. rewrite <- Lo. rewrite nlen_app. replace (nlen data <? nlen pre + nlen id + 1 + nlen o) with false by lia.
    rewrite slice_ok by lia. cbn [rbind].
    rewrite (leaf_exact all base data) by (auto; lia).
    destruct (IH data (pre ++ (id ++ plen :: o)) A K' ltac:(rewrite Ed; apply app_assoc) fuel ltac:(cbn [length] in Lf; lia)) as (l & El & Fl).
    replace (nlen (pre ++ (id ++ plen :: o))) with (nlen pre + nlen id + 1 + nlen o) in El by (rewrite !nlen_app, nlen_cons; lia).
    rewrite El, cat_ok. eexists. split; [reflexivity|]. constructor; [|exact Fl]. cbn [nd_field nd_kids]. split; [auto|]. split; [|auto].
    rewrite (under_exact all base data) by (auto; lia). rewrite Ed. apply sub_mid. rewrite nlen_app, nlen_cons. lia.
Qed.
Lemma len_items {A} (P : list A -> Prop) (ps : list (list A)) : Forall P ps -> (forall p, P p -> p <> []) -> (length ps <= length (concat ps))%nat.
Proof.
  intros H Q. induction H as [|p ps Hp _ IH]; [auto|]. cbn [length concat]. rewrite app_length. apply Q in Hp. destruct p; [congruence|]. cbn [length]. lia.
Qed.
Lemma prefix_nonempty ap p : is_prefix ap p -> p <> [].
Proof. intros (id & plen & o & -> & _) E. destruct id; discriminate. Qed.
Lemma dissect_nlri_whole all base v4 ap ps : small all -> at_ all base (concat ps) -> Forall (is_prefix ap) ps ->
  exists l, dissect_nlri (concat ps) base v4 ap = Ok l /\ leaves all "bgp.nlri.prefix" ps l.
Proof.
  intros Sm A K. unfold dissect_nlri. apply (nlri_whole all base v4 ap Sm ps (concat ps) []); auto. apply le_n_S. exact (len_items _ _ K (prefix_nonempty ap)).
Qed.
(** ** Entries and segments *)
Lemma entries_whole all base w name show : small all -> 0 < w -> (forall v p, p + w <= nlen v -> exists x, show v p = Ok x) ->
  forall items data pre, at_ all base data -> Forall (fun i => nlen i = w) items -> data = pre ++ concat items ->
  forall fuel, (length items < fuel)%nat -> exists l, entries fuel w name show data base (nlen pre) = Ok l /\ leaves all name items l.
Proof.
  intros Sm W Sh. induction items as [|p ps IH]; intros data pre A K E fuel Lf; (destruct fuel as [|fuel]; [inversion Lf|]); cbn [entries].
  - cbn [concat] in E. rewrite app_nil_r in E. subst data. replace (nlen pre + w <=? nlen pre) with false by lia. exists []. split; [reflexivity|constructor].
  - inversion K as [|? ? Lp K']; subst. clear K. cbn [concat] in *. set (data := pre ++ p ++ concat ps) in *.
    assert (Ln : nlen data = nlen pre + nlen p + nlen (concat ps)) by (subst data; rewrite !nlen_app; lia).
    replace (nlen pre + nlen p <=? nlen data) with true by lia. destruct (Sh data (nlen pre) ltac:(lia)) as (x & ->). cbn [rbind].
    rewrite (leaf_exact all base data) by (auto; lia).
    destruct (IH data (pre ++ p) A K' ltac:(subst data; rewrite <- app_assoc; reflexivity) fuel ltac:(cbn [length] in Lf; lia)) as (l & El & Fl).
    rewrite nlen_app in El. rewrite El, cat_ok. eexists. split; [reflexivity|]. constructor; [|exact Fl]. cbn [nd_field nd_kids]. split; [auto|]. split; [|auto].
    rewrite (under_exact all base data) by (auto; lia). apply sub_mid. auto.
Qed.
Lemma segments_whole all base w : small all -> (w = 2 \/ w = 4) ->
  forall items data pre, at_ all base data -> Forall (is_segment w) items -> data = pre ++ concat items ->
  forall fuel, (length items < fuel)%nat -> exists l, segments fuel w data base (nlen pre) = Ok l /\ leaves all "bgp.attr.as_path.segment" items l.
Proof.
  intros Sm W. induction items as [|p ps IH]; intros data pre A K E fuel Lf; (destruct fuel as [|fuel]; [inversion Lf|]); cbn [segments].
  - cbn [concat] in E. rewrite app_nil_r in E. subst data. replace (nlen pre + 2 <=? nlen pre) with false by lia. exists []. split; [reflexivity|constructor].
  - pose proof (Forall_inv K) as (t & l & -> & Fl). pose proof (Forall_inv_tail K) as K'. clear K. cbn [concat] in *.
    assert (Lc : nlen (concat l) = nlen l * w). { clear - Fl. induction Fl as [|a l Ha _ IH]; [reflexivity|]. cbn [concat]. rewrite nlen_app, nlen_cons, IH, Ha. lia. }
    set (seg := t :: nlen l :: concat l) in *. assert (Ls : nlen seg = 2 + nlen l * w) by (subst seg; rewrite !nlen_cons, Lc; lia).
    assert (Ln : nlen data = nlen pre + nlen seg + nlen (concat ps)) by (subst data; rewrite !nlen_app; lia).
    replace (nlen pre + 2 <=? nlen data) with true by lia.
    assert (I1 : idx data (nlen pre) = Ok t) by (subst data seg; cbn [app]; apply idx_mid).
    assert (I2 : idx data (nlen pre + 1) = Ok (nlen l)).
    { subst data seg. cbn [app]. replace (nlen pre + 1) with (nlen (pre ++ [t])) by (rewrite nlen_app, nlen_cons; reflexivity).
      replace (pre ++ t :: nlen l :: concat l ++ concat ps) with ((pre ++ [t]) ++ nlen l :: concat l ++ concat ps) by (rewrite <- app_assoc; reflexivity). apply idx_mid. }
    rewrite I1, I2. cbn [rbind]. cbv zeta. rewrite <- Ls. replace (nlen data <? nlen pre + nlen seg) with false by lia.
    rewrite (leaf_exact all base data) by (auto; lia).
    destruct (IH data (pre ++ seg) A K' ltac:(subst data; rewrite <- app_assoc; reflexivity) fuel ltac:(cbn [length] in Lf; lia)) as (l' & El & Fl').
    rewrite nlen_app in El. rewrite El, cat_ok. eexists. split; [reflexivity|]. constructor; [|exact Fl']. cbn [nd_field nd_kids]. split; [auto|]. split; [|auto].
    rewrite (under_exact all base data) by (auto; lia). subst data. apply sub_mid. auto.
Qed.
(** ** Inner fields *)
Definition inner (f : field) : Prop := match f with FAttr _ => False | F s => is_in s ["bgp.update.withdrawn_routes"; "bgp.update.nlri"]%string = false end.
Definition inners (r : res (list node)) : Prop := forall l, r = Ok l -> Forall (fun n => inner (nd_field n)) (flat_map preorder l).
Lemma inners_nil : inners (Ok []).
Proof. intros l [= <-]. constructor. Qed.
Lemma inners_bind {A} (e : res A) f : (forall x, inners (f x)) -> inners (rbind e f).
Proof. intros H l E. destruct e; try discriminate. eapply H. exact E. Qed.
Lemma inners_cat a b : inners a -> inners b -> inners (a +++ b).
Proof.
  intros A B l E. unfold cat in E. destruct a as [x| |]; try discriminate. destruct b as [y| |]; try discriminate. injection E as <-.
  rewrite flat_map_app. apply Forall_app. split; [apply A|apply B]; reflexivity.
Qed.
Lemma inners_leaf name v base pos len : is_in name ["bgp.update.withdrawn_routes"; "bgp.update.nlri"]%string = false -> inners (leaf name v base pos len).
Proof.
  intros H l E. unfold leaf, one, node_at in E. destruct (base + u32 pos <? 4294967296); [|discriminate]. injection E as <-. cbn. constructor; [exact H|constructor].
Qed.
Ltac inn := repeat first [apply inners_nil | apply inners_cat | (apply inners_leaf; reflexivity) | match goal with |- inners (rbind _ _) => apply inners_bind; intros ? end |
  match goal with |- inners (match ?x with _ => _ end) => destruct x end | (intros l0 E0; discriminate E0)].
Lemma nlri_inner v4 ap fuel data base pos : inners (nlri_loop fuel data base v4 ap pos).
Proof. revert pos. induction fuel as [|f IH]; intros pos; cbn [nlri_loop]; cbv zeta; inn; apply IH. Qed.
Lemma entries_inner w name show fuel value base pos : is_in name ["bgp.update.withdrawn_routes"; "bgp.update.nlri"]%string = false -> inners (entries fuel w name show value base pos).
Proof. intros H. revert pos. induction fuel as [|f IH]; intros pos; cbn [entries]; cbv zeta; inn; [apply inners_leaf; exact H|apply IH]. Qed.
Lemma segments_inner w fuel value base pos : inners (segments fuel w value base pos).
Proof. revert pos. induction fuel as [|f IH]; intros pos; cbn [segments]; cbv zeta; inn; apply IH. Qed.
Lemma aigp_inner fuel value base pos : inners (aigp_loop fuel value base pos).
Proof. revert pos. induction fuel as [|f IH]; intros pos; cbn [aigp_loop]; cbv zeta; inn; apply IH. Qed.
Lemma value_inner code value base asz ap : inners (dissect_attr_value code value base asz ap).
Proof.
  unfold dissect_attr_value. cbv zeta.
  assert (R : inners (dissect_mp_reach value base ap)) by (unfold dissect_mp_reach; cbv zeta; inn; apply nlri_inner).
  assert (U : inners (dissect_mp_unreach value base ap)) by (unfold dissect_mp_unreach; cbv zeta; inn; apply nlri_inner).
  assert (G : inners (dissect_aggregator value base)) by (unfold dissect_aggregator; cbv zeta; inn).
  pose proof (segments_inner asz (S (length value)) value base 0) as S1. pose proof (segments_inner 4 (S (length value)) value base 0) as S2. pose proof (aigp_inner (S (length value)) value base 0) as S3.
  repeat match goal with |- inners (match ?x with _ => _ end) => is_var x; destruct x end; try assumption; try (apply entries_inner; reflexivity); inn.
Qed.
(** ** Values *)
Lemma named_app f a b : flat_map (named f) (a ++ b) = flat_map (named f) a ++ flat_map (named f) b.
Proof. apply flat_map_app. Qed.
Lemma named_leaf name name' v o l : named (F name') (Node (F name) v o l []) = if String.eqb name name' then [Node (F name) v o l []] else [].
Proof. unfold named. cbn [preorder filter nd_field field_eqb]. destruct String.eqb; reflexivity. Qed.
Lemma at_skip all base pre x : at_ all base (pre ++ x) -> at_ all (base + nlen pre) x.
Proof. intros (a & b & -> & <-). exists (a ++ pre), b. rewrite <- !app_assoc, nlen_app. auto. Qed.
Lemma sub_skip (pre x : bytes) : sub (pre ++ x) (nlen pre) (nlen (pre ++ x) - nlen pre) = x.
Proof. rewrite <- (app_nil_r x) at 1. apply sub_mid. rewrite nlen_app. lia. Qed.
Lemma ext_shown v p : p + 8 <= nlen v -> exists x, show_ext v p = Ok x.
Proof.
  intros H. unfold show_ext. rewrite slice_ok by lia. cbn [rbind]. unfold render_ext. replace (p + 8 - p) with 8 by lia. set (e := sub v p 8).
  assert (Le : nlen e = 8) by (apply sub_len; lia). destruct (idx_ok e 0 ltac:(lia)) as (t & -> & _). destruct (idx_ok e 1 ltac:(lia)) as (u & -> & _). cbn [rbind].
  rewrite slice_ok by lia. cbn [rbind]. assert (Lv : nlen (sub e 2 (8 - 2)) = 6) by (rewrite sub_len; lia). rewrite !word_ok by lia. rewrite slice_ok by lia. cbn [rbind].
  destruct (N.land t 15) as [|[q|[q|q|]|]]; eauto.
Qed.
Lemma items_len (w : N) (items : list bytes) : 0 < w -> Forall (fun i => nlen i = w) items -> (length items < S (length (concat items)))%nat.
Proof. intros W K. apply le_n_S. eapply len_items; [exact K|]. intros p E ->. cbn in E. lia. Qed.
Lemma segs_len w (items : list bytes) : Forall (is_segment w) items -> (length items < S (length (concat items)))%nat.
Proof. intros K. apply le_n_S. eapply len_items; [exact K|]. intros p (t & l & -> & _). discriminate. Qed.
Lemma value_whole all base al ap code value name items : small all -> at_ all base value -> made_of al ap code value name items ->
  exists l, dissect_attr_value code value base (match al with Bits16 => 2 | Bits32 => 4 end) ap = Ok l /\ map (under all) (flat_map (named (F name)) l) = items.
Proof.
  intros Sm A M.
  assert (Fin : forall r, (exists l, r = Ok l /\ leaves all name items l) -> exists l, r = Ok l /\ map (under all) (flat_map (named (F name)) l) = items).
  { intros r (l & -> & L). exists l. split; [reflexivity|]. rewrite (named_leaves _ _ _ _ _ L), String.eqb_refl. eapply under_leaves. exact L. }
  assert (Al : match al with Bits16 => 2 | Bits32 => 4 end = 2 \/ match al with Bits16 => 2 | Bits32 => 4 end = 4) by (destruct al; auto).
  destruct M as [items K|items K|items K|items K|items K|items K|items K|afi safi nh rs items K Ln|afi safi items K]; unfold dissect_attr_value; cbv zeta.
  - apply Fin. apply (segments_whole all base _ Sm Al items (concat items) []); auto. eapply segs_len; eauto.
  - apply Fin. apply (segments_whole all base 4 Sm (or_intror eq_refl) items (concat items) []); auto. eapply segs_len; eauto.
  - apply Fin. apply (entries_whole all base 4 _ show_community Sm) with (pre := []); auto; [lia|intros; eexists; reflexivity|eapply (items_len 4); [lia|eauto]].
  - apply Fin. apply (entries_whole all base 4 _ show_u32 Sm) with (pre := []); auto; [lia|intros; eexists; reflexivity|eapply (items_len 4); [lia|eauto]].
  - apply Fin. apply (entries_whole all base 8 _ show_ext Sm) with (pre := []); auto; [lia|apply ext_shown|eapply (items_len 8); [lia|eauto]].
  - apply Fin. apply (entries_whole all base 20 _ show_none Sm) with (pre := []); auto; [lia|intros; eexists; reflexivity|eapply (items_len 20); [lia|eauto]].
  - apply Fin. apply (entries_whole all base 12 _ show_large Sm) with (pre := []); auto; [lia|intros; eexists; reflexivity|eapply (items_len 12); [lia|eauto]].
  - set (pre := be 2 afi ++ [safi; nlen nh] ++ nh ++ [rs]).
    assert (Ev : be 2 afi ++ [safi; nlen nh] ++ nh ++ [rs] ++ concat items = pre ++ concat items) by (subst pre; rewrite <- !app_assoc; reflexivity).
    rewrite Ev in *. clear Ev. assert (Lp : nlen pre = 5 + nlen nh) by (subst pre; rewrite !nlen_app; unfold nlen; rewrite be_length; cbn [length]; lia).
    set (value := pre ++ concat items) in *. assert (Lv : nlen value = nlen pre + nlen (concat items)) by apply nlen_app.
    unfold dissect_mp_reach. cbv zeta. replace (nlen value <? 4) with false by lia.
    destruct (idx_ok value 2 ltac:(lia)) as (s & -> & _). cbn [rbind].
    assert (I3 : idx value 3 = Ok (nlen nh)).
    { subst value pre. replace ((be 2 afi ++ [safi; nlen nh] ++ nh ++ [rs]) ++ concat items) with ((be 2 afi ++ [safi]) ++ nlen nh :: (nh ++ [rs]) ++ concat items) by (rewrite <- !app_assoc; reflexivity).
      replace 3 with (nlen (be 2 afi ++ [safi])) at 2 by (unfold nlen; rewrite app_length, be_length; reflexivity). apply idx_mid. }
    rewrite I3. cbn [rbind]. replace ((0 <? nlen nh) && (nlen value <? 4 + nlen nh)) with false by (symmetry; apply andb_false_iff; right; lia).
    rewrite !(leaf_exact all base value) by (auto; lia).
    set (v4 := or0 (rd16 value 0) =? 1).
    assert (Pn : (if 0 <? nlen nh then 4 + nlen nh else 4) = 4 + nlen nh) by (destruct (0 <? nlen nh) eqn:E; lia). rewrite Pn.
    replace (4 + nlen nh <? nlen value) with true by lia. replace (4 + nlen nh + 1) with (nlen pre) by lia.
    assert (Tl : exists l, (if nlen pre <? nlen value then s0 <~ slice value (nlen pre) (nlen value);; dissect_nlri s0 (base + u32 (nlen pre)) v4 ap else Ok []) = Ok l /\ leaves all "bgp.nlri.prefix" items l).
    { destruct (nlen pre <? nlen value) eqn:Eq.
      - rewrite slice_ok by lia. cbn [rbind]. unfold value. rewrite sub_skip. pose proof (at_len _ _ _ A) as AL. unfold small in Sm. rewrite u32_small by lia.
        apply dissect_nlri_whole; auto. apply at_skip. exact A.
      - exists []. split; [reflexivity|]. destruct items as [|i items]; [constructor|]. apply Forall_inv in K. apply prefix_nonempty in K. cbn [concat] in Lv. rewrite nlen_app in Lv. destruct i; [congruence|]. rewrite nlen_cons in Lv. lia. }
    destruct Tl as (l & -> & Fl).
    assert (Hn : exists ln, (if 0 <? nlen nh then Ok [Node (F "bgp.attr.mp_reach.next_hop") [] (base + 4) (nlen nh) []] else Ok []) = Ok ln /\ flat_map (named (F "bgp.nlri.prefix")) ln = []).
    { destruct (0 <? nlen nh); eexists; (split; [reflexivity|]); reflexivity. }
    destruct Hn as (ln & -> & En). rewrite !(leaf_exact all base value) by (auto; lia). rewrite !cat_ok. eexists. split; [reflexivity|]. rewrite !named_app, En. cbn [flat_map]. rewrite !named_leaf. cbn [app String.eqb Ascii.eqb Bool.eqb].
    rewrite (named_leaves _ _ _ _ _ Fl), String.eqb_refl. eapply under_leaves. exact Fl.
  - set (pre := be 2 afi ++ [safi]). assert (Ev : be 2 afi ++ [safi] ++ concat items = pre ++ concat items) by (subst pre; rewrite <- !app_assoc; reflexivity).
    rewrite Ev in *. clear Ev. assert (Lp : nlen pre = 3) by (subst pre; unfold nlen; rewrite app_length, be_length; reflexivity).
    set (value := pre ++ concat items) in *. assert (Lv : nlen value = nlen pre + nlen (concat items)) by apply nlen_app.
    unfold dissect_mp_unreach. cbv zeta. replace (nlen value <? 3) with false by lia.
    destruct (idx_ok value 2 ltac:(lia)) as (s & -> & _). cbn [rbind]. rewrite !(leaf_exact all base value) by (auto; lia).
    rewrite slice_ok by lia. cbn [rbind]. assert (Es : sub value 3 (nlen value - 3) = concat items) by (rewrite <- Lp; apply sub_skip). rewrite Es, <- Lp.
    destruct (dissect_nlri_whole all (base + nlen pre) (or0 (rd16 value 0) =? 1) ap items Sm (at_skip _ _ _ _ A) K) as (l & -> & Fl). rewrite !cat_ok.
    eexists. split; [reflexivity|]. rewrite !named_app. cbn [flat_map]. rewrite !named_leaf. cbn [app String.eqb Ascii.eqb Bool.eqb].
    rewrite (named_leaves _ _ _ _ _ Fl), String.eqb_refl. eapply under_leaves. exact Fl.
Qed.
(** ** Attributes *)
Lemma bit4 f : negb (N.land f 16 =? 0) = N.testbit f 4.
Proof.
  change 16 with (2 ^ 4). destruct (N.testbit f 4) eqn:E.
  - destruct (N.land f (2 ^ 4) =? 0) eqn:Z; [|reflexivity]. apply N.eqb_eq in Z. apply (f_equal (fun x => N.testbit x 4)) in Z.
    rewrite N.land_spec, E, N.pow2_bits_true, N.bits_0 in Z. discriminate.
  - replace (N.land f (2 ^ 4)) with 0; [reflexivity|]. symmetry. apply N.bits_inj_0. intros n. rewrite N.land_spec, N.pow2_bits_eqb.
    destruct (4 =? n) eqn:En; [|apply andb_false_r]. apply N.eqb_eq in En. subst n. rewrite E. reflexivity.
Qed.
Definition attr_rel (all : bytes) (al : asn_len) (ap : bool) (a : part) (k : node) : Prop :=
  nd_field k = FAttr (p_code a) /\ under all k = part_octets a /\ attr_nodes k = [k] /\
  named (F "bgp.update.withdrawn_routes") k = [] /\ named (F "bgp.update.nlri") k = [] /\
  forall name items, made_of al ap (p_code a) (p_value a) name items -> map (under all) (named (F name) k) = items.
Lemma inner_attrs l : Forall (fun n => inner (nd_field n)) l -> filter (fun n => match nd_field n with FAttr _ => true | F _ => false end) l = [].
Proof. induction 1 as [|n l H _ IH]; [reflexivity|]. cbn [filter]. destruct (nd_field n); [exact IH|elim H]. Qed.
Lemma inner_named s l : is_in s ["bgp.update.withdrawn_routes"; "bgp.update.nlri"]%string = true -> Forall (fun n => inner (nd_field n)) l -> filter (fun n => field_eqb (nd_field n) (F s)) l = [].
Proof.
  intros S. induction 1 as [|n l H _ IH]; [reflexivity|]. cbn [filter]. destruct (nd_field n) as [s'|]; [|elim H]. cbn [field_eqb].
  destruct (String.eqb s' s) eqn:E; [|exact IH]. apply String.eqb_eq in E. subst s'. cbn [inner] in H. rewrite S in H. discriminate.
Qed.
Lemma named_flat f l : filter (fun n => field_eqb (nd_field n) f) (flat_map preorder l) = flat_map (named f) l.
Proof. induction l as [|k l IH]; [reflexivity|]. cbn [flat_map]. rewrite filter_app, IH. reflexivity. Qed.
Lemma attrs_whole all base al ap : small all -> forall attrs data pre, at_ all base data -> Forall is_part attrs -> data = pre ++ concat (map part_octets attrs) ->
  forall fuel, (length attrs < fuel)%nat ->
  exists l, attrs_loop fuel data base (match al with Bits16 => 2 | Bits32 => 4 end) ap (nlen pre) = Ok l /\ Forall2 (attr_rel all al ap) attrs l.
Proof.
  intros Sm. induction attrs as [|a attrs IH]; intros data pre A K E fuel Lf; (destruct fuel as [|fuel]; [inversion Lf|]); cbn [attrs_loop].
  - cbn [map concat] in E. rewrite app_nil_r in E. subst data. replace (nlen pre + 3 <=? nlen pre) with false by lia. exists []. split; [reflexivity|constructor].
  - pose proof (Forall_inv K) as Ka. pose proof (Forall_inv_tail K) as K'. clear K. cbn [map concat] in E. set (post := concat (map part_octets attrs)) in *.
    destruct a as [fl code value]. unfold is_part, long_form in Ka. cbn [p_flags p_value] in Ka.
    set (a := {| p_flags := fl; p_code := code; p_value := value |}) in *.
    set (ls := if N.testbit fl 4 then 2 else 1). assert (Ll : nlen (be (if N.testbit fl 4 then 2%nat else 1%nat) (nlen value)) = ls) by (unfold nlen at 1; rewrite be_length; subst ls; destruct N.testbit; reflexivity).
    assert (Lo : nlen (part_octets a) = 2 + ls + nlen value) by (unfold part_octets, long_form; cbn [p_flags p_code p_value a]; rewrite !nlen_app, Ll, !nlen_cons; unfold nlen at 1; cbn [length]; lia).
    assert (Ln : nlen data = nlen pre + nlen (part_octets a) + nlen post) by (rewrite E, !nlen_app; lia).
    assert (Lb : 1 <= ls <= 2) by (subst ls; destruct N.testbit; lia).
    replace (nlen pre + 3 <=? nlen data) with true by lia.
    assert (Ed : data = pre ++ [fl; code] ++ be (if N.testbit fl 4 then 2 else 1) (nlen value) ++ value ++ post).
    { rewrite E. unfold part_octets, long_form. cbn [p_flags p_code p_value a]. rewrite <- !app_assoc. reflexivity. }
    assert (I1 : idx data (nlen pre) = Ok fl) by (rewrite Ed; cbn [app]; apply idx_mid).
    assert (I2 : idx data (nlen pre + 1) = Ok code).
    { rewrite Ed. replace (nlen pre + 1) with (nlen (pre ++ [fl])) by (rewrite nlen_app, nlen_cons; reflexivity).
      match goal with |- idx (pre ++ [fl; code] ++ ?r) _ = _ => replace (pre ++ [fl; code] ++ r) with ((pre ++ [fl]) ++ code :: r) by (rewrite <- app_assoc; reflexivity) end. apply idx_mid. }
    rewrite I1, I2. cbn [rbind]. rewrite bit4. cbv zeta.
    assert (Hl : (if N.testbit fl 4 then 4 else 3) = 2 + ls) by (subst ls; destruct N.testbit; lia). rewrite Hl.
    replace (nlen data <? nlen pre + (2 + ls)) with false by lia.
    assert (VL : (if N.testbit fl 4 then Ok (rd16 data (nlen pre + 2)) else v <~ idx data (nlen pre + 2) ;; Ok (Some v)) = Ok (Some (nlen value))).
    { assert (Q : be_val (sub data (nlen pre + 2) ls) = nlen value).
      { rewrite Ed. replace (nlen pre + 2) with (nlen (pre ++ [fl; code])) by (rewrite nlen_app; reflexivity). rewrite app_assoc. rewrite sub_mid by (symmetry; exact Ll).
        destruct (N.testbit fl 4); apply be_val_be_small; exact Ka. }
      subst ls. destruct (N.testbit fl 4).
      - rewrite rd16_ok by lia. rewrite Q. reflexivity.
      - destruct (idx_ok data (nlen pre + 2) ltac:(lia)) as (v & Ev & _ & Sv). rewrite Ev. cbn [rbind]. rewrite Sv, be_val_1 in Q. rewrite Q. reflexivity. }
    rewrite VL. cbn [rbind]. replace (nlen data <? nlen pre + (2 + ls) + nlen value) with false by lia.
    rewrite !(leaf_exact all base data) by (auto; lia). rewrite slice_ok by lia. cbn [rbind].
    assert (Sv : sub data (nlen pre + (2 + ls)) (nlen pre + (2 + ls) + nlen value - (nlen pre + (2 + ls))) = value).
    { rewrite Ed. set (h := be _ _) in *. replace (nlen pre + (2 + ls)) with (nlen (pre ++ [fl; code] ++ h)) by (rewrite !nlen_app, Ll; unfold nlen at 2; cbn [length]; lia).
      replace (pre ++ [fl; code] ++ h ++ value ++ post) with ((pre ++ [fl; code] ++ h) ++ value ++ post) by (rewrite <- !app_assoc; reflexivity). apply sub_mid. lia. }
    rewrite Sv. pose proof (at_len _ _ _ A) as AL. unfold small in Sm. rewrite u32_small by lia.
    assert (Av : at_ all (base + (nlen pre + (2 + ls))) value).
    { replace (nlen pre + (2 + ls) + nlen value - (nlen pre + (2 + ls))) with (nlen value) in Sv by lia. rewrite <- Sv at 1. eapply at_start; [exact A|lia|reflexivity]. }
    set (asz := match al with Bits16 => 2 | Bits32 => 4 end) in *.
    destruct (attr_value_parts all (base + (nlen pre + (2 + ls))) value code asz ap Sm Av) as (vks & Ev & _); [subst asz; destruct al; auto|].
    rewrite Ev. cbn [rbind]. rewrite (node_exact all base data) by (auto; lia). unfold one at 2. cbn [rbind]. rewrite !cat_ok. cbn [rbind].
    rewrite (node_exact all base data) by (auto; lia). unfold one at 1. cbn [rbind].
    destruct (IH data (pre ++ part_octets a) A K' ltac:(rewrite E; apply app_assoc) fuel ltac:(cbn [length] in Lf; lia)) as (l & El & Fl).
    replace (nlen (pre ++ part_octets a)) with (nlen pre + (2 + ls) + nlen value) in El by (rewrite nlen_app, Lo; lia).
    rewrite El, cat_ok. eexists. split; [reflexivity|]. cbn [app]. constructor; [|exact Fl].
    pose proof (value_inner _ _ _ _ _ _ Ev) as Vi.
    assert (Ki : forall v1 v2 v3 o1 o2 o3 o4 l1 l2 l3 l4, Forall (fun n => inner (nd_field n)) (flat_map preorder [Node (F "bgp.attr.flags") v1 o1 l1 []; Node (F "bgp.attr.type") v2 o2 l2 []; Node (F "bgp.attr.length") v3 o3 l3 []; Node (F "bgp.attr.value") [] o4 l4 vks])).
    { intros. cbn [flat_map]. rewrite !preorder_eq. cbn [nd_kids flat_map app]. repeat (constructor; [reflexivity|]). rewrite app_nil_r. exact Vi. }
    unfold attr_rel. cbn [nd_field]. split; [reflexivity|]. split; [rewrite (under_exact all base data) by (auto; lia); rewrite E; apply sub_mid; lia|].
    split. { unfold attr_nodes. rewrite preorder_eq. cbn [filter nd_field nd_kids]. rewrite inner_attrs by apply Ki. reflexivity. }
    split. { unfold named. rewrite preorder_eq. cbn [filter nd_field field_eqb nd_kids]. apply inner_named; [reflexivity|apply Ki]. }
    split. { unfold named. rewrite preorder_eq. cbn [filter nd_field field_eqb nd_kids]. apply inner_named; [reflexivity|apply Ki]. }
    intros name items M. cbn [p_code p_value a] in M. destruct (value_whole all _ al ap _ _ _ _ Sm Av M) as (l' & El' & Mi).
    fold asz in El'. assert (vks = l') by congruence. subst l'.
    unfold named. rewrite preorder_eq. cbn [filter nd_field field_eqb nd_kids]. rewrite named_flat. cbn [flat_map]. rewrite !named_leaf.
    assert (Nn : String.eqb "bgp.attr.flags" name = false /\ String.eqb "bgp.attr.type" name = false /\ String.eqb "bgp.attr.length" name = false /\ String.eqb "bgp.attr.value" name = false).
    { inversion M; repeat split; reflexivity. }
    destruct Nn as (N1 & N2 & N3 & N4). rewrite N1, N2, N3. cbn [app]. rewrite app_nil_r. unfold named at 1. rewrite preorder_eq. cbn [filter nd_field nd_kids field_eqb]. rewrite N4, named_flat. exact Mi.
Qed.
Lemma dissect_attributes_whole all base al ap attrs : small all -> at_ all base (concat (map part_octets attrs)) -> Forall is_part attrs ->
  exists l, dissect_attributes (concat (map part_octets attrs)) base al ap = Ok l /\ Forall2 (attr_rel all al ap) attrs l.
Proof.
  intros Sm A K. unfold dissect_attributes. apply (attrs_whole all base al ap Sm attrs _ []); auto. apply le_n_S. rewrite <- (map_length part_octets).
  eapply (len_items (fun p => p <> [])); [|auto]. apply Forall_map. apply Forall_forall. intros a _ Q. discriminate.
Qed.
(** ** UPDATE *)
Lemma named_node f n : named f n = (if field_eqb (nd_field n) f then [n] else []) ++ flat_map (named f) (nd_kids n).
Proof. unfold named at 1. rewrite preorder_eq. cbn [filter]. rewrite named_flat. destruct field_eqb; reflexivity. Qed.
Lemma attr_flat l : filter (fun n => match nd_field n with FAttr _ => true | F _ => false end) (flat_map preorder l) = flat_map attr_nodes l.
Proof. induction l as [|k l IH]; [reflexivity|]. cbn [flat_map]. rewrite filter_app, IH. reflexivity. Qed.
Lemma attr_nodes_F s v o l ks : attr_nodes (Node (F s) v o l ks) = flat_map attr_nodes ks.
Proof. unfold attr_nodes at 1. rewrite preorder_eq. cbn [filter nd_field nd_kids]. apply attr_flat. Qed.
Lemma attr_leaves all name items l : leaves all name items l -> flat_map attr_nodes l = [].
Proof.
  induction 1 as [|i k items l (A & _ & C) _ IH]; [reflexivity|]. cbn [flat_map]. rewrite IH. unfold attr_nodes. rewrite preorder_eq, C. cbn [filter flat_map]. rewrite A. reflexivity.
Qed.
Lemma prefixes_node all name ps l v o len : is_in name ["bgp.update.withdrawn_routes"; "bgp.update.nlri"]%string = true -> leaves all "bgp.nlri.prefix" ps l ->
  let t := Node (F name) v o len l in
  octets_in all name "bgp.nlri.prefix" t = ps /\ (forall name', is_in name' ["bgp.update.withdrawn_routes"; "bgp.update.nlri"]%string = true -> String.eqb name name' = false -> named (F name') t = []) /\ attr_nodes t = [].
Proof.
  intros I L t. assert (Nm : name = "bgp.update.withdrawn_routes"%string \/ name = "bgp.update.nlri"%string).
  { unfold is_in in I. cbn [existsb] in I. destruct (String.eqb name "bgp.update.withdrawn_routes") eqn:E; [left; apply String.eqb_eq; auto|].
    destruct (String.eqb name "bgp.update.nlri") eqn:E'; [right; apply String.eqb_eq; auto|discriminate]. }
  assert (Pn : String.eqb "bgp.nlri.prefix" name = false) by (destruct Nm as [-> | ->]; reflexivity).
  assert (Pm : String.eqb name "bgp.nlri.prefix" = false) by (destruct Nm as [-> | ->]; reflexivity).
  subst t. split; [|split].
  - unfold octets_in. rewrite named_node. cbn [nd_field nd_kids field_eqb]. rewrite String.eqb_refl, (named_leaves _ _ _ _ _ L), Pn. cbn [app flat_map]. rewrite app_nil_r.
    rewrite named_node. cbn [nd_field nd_kids field_eqb]. rewrite Pm, (named_leaves _ _ _ _ _ L), String.eqb_refl. eapply under_leaves. exact L.
  - intros name' I' D. rewrite named_node. cbn [nd_field nd_kids field_eqb]. rewrite D, (named_leaves _ _ _ _ _ L).
    destruct (String.eqb "bgp.nlri.prefix" name') eqn:E; [|reflexivity]. apply String.eqb_eq in E. subst name'. discriminate.
  - rewrite attr_nodes_F. eapply attr_leaves. exact L.
Qed.
Definition octets_of (all : bytes) (outer inner : string) (l : list node) : list bytes := flat_map (octets_in all outer inner) l.
Lemma octets_F all s outer inner v o len ks : String.eqb s outer = false -> octets_in all outer inner (Node (F s) v o len ks) = octets_of all outer inner ks.
Proof.
  intros E. unfold octets_in at 1. rewrite named_node. cbn [nd_field nd_kids field_eqb]. rewrite E. cbn [app]. clear.
  induction ks as [|k ks IH]; [reflexivity|]. cbn [flat_map octets_of]. rewrite flat_map_app, map_app, IH. reflexivity.
Qed.
Lemma octets_app all a b x y : octets_of all a b (x ++ y) = octets_of all a b x ++ octets_of all a b y.
Proof. apply flat_map_app. Qed.
Lemma octets_none all a b l : flat_map (named (F a)) l = [] -> octets_of all a b l = [].
Proof.
  intros H. induction l as [|k l IH]; [reflexivity|]. cbn [flat_map octets_of] in *. apply app_eq_nil in H as (H1 & H2). unfold octets_in at 1. rewrite H1. cbn [flat_map map app]. apply IH. exact H2.
Qed.
Lemma concat_empty (P : bytes -> Prop) l : Forall P l -> (forall p, P p -> p <> []) -> concat l = [] -> l = [].
Proof. intros K Q E. destruct l as [|p l]; [reflexivity|]. cbn [concat] in E. apply app_eq_nil in E as (-> & _). elim (Q [] (Forall_inv K)). reflexivity. Qed.
Lemma update_whole all base al ap w attrs n : small all -> at_ all base (update_octets w attrs n) -> Forall (is_prefix ap) w -> Forall (is_prefix ap) n -> Forall is_part attrs ->
  nlen (update_octets w attrs n) < 65536 ->
  exists t, dissect_update (update_octets w attrs n) base al ap = Ok t /\
    octets_in all "bgp.update.withdrawn_routes" "bgp.nlri.prefix" t = w /\ octets_in all "bgp.update.nlri" "bgp.nlri.prefix" t = n /\
    Forall2 (attr_rel all al ap) attrs (attr_nodes t).
Proof.
  intros Sm A Kw Kn Ka Lt. set (W := concat w). set (PA := concat (map part_octets attrs)). set (NL := concat n).
  set (data := update_octets w attrs n) in *. assert (Ed : data = be 2 (nlen W) ++ W ++ be 2 (nlen PA) ++ PA ++ NL) by reflexivity.
  assert (L2 : forall x, nlen (be 2 x) = 2) by (intros x; unfold nlen; rewrite be_length; reflexivity).
  assert (Ln : nlen data = 4 + nlen W + nlen PA + nlen NL) by (rewrite Ed, !nlen_app, !L2; lia).
  pose proof (at_len _ _ _ A) as AL. assert (Sm' := Sm). unfold small in Sm'.
  unfold dissect_update. cbv zeta. replace (nlen data <? 2) with false by lia. rewrite word_ok by lia. cbn [rbind].
  assert (V1 : be_val (sub data 0 2) = nlen W).
  { rewrite Ed. change 0 with (nlen (@nil N)). rewrite <- (app_nil_l (be 2 (nlen W) ++ _)). rewrite sub_mid by (rewrite L2; reflexivity). apply be_val_be_small. cbn. lia. }
  rewrite V1. replace (nlen data <? 2 + nlen W) with false by lia. replace (nlen data <? 2 + nlen W + 2) with false by lia. rewrite word_ok by lia. cbn [rbind].
  assert (V2 : be_val (sub data (2 + nlen W) 2) = nlen PA).
  { rewrite Ed. replace (2 + nlen W) with (nlen (be 2 (nlen W) ++ W)) by (rewrite nlen_app, L2; reflexivity). rewrite app_assoc. rewrite sub_mid by (rewrite L2; reflexivity). apply be_val_be_small. cbn. lia. }
  rewrite V2. replace (N.min (2 + nlen W + 2 + nlen PA) (nlen data)) with (4 + nlen W + nlen PA) by lia. replace (2 + nlen W + 2) with (4 + nlen W) by lia.
  rewrite (leaf_exact all base data) by (auto; lia). rewrite (leaf_exact all base data) by (auto; lia).
  assert (PW : exists l, (if 0 <? nlen W then one (s <~ slice data 2 (2 + nlen W) ;; ks <~ dissect_nlri s (base + 2) true ap ;; node_at (F "bgp.update.withdrawn_routes") [] base 2 (nlen W) ks) else Ok []) = Ok l /\
     octets_of all "bgp.update.withdrawn_routes" "bgp.nlri.prefix" l = w /\ flat_map (named (F "bgp.update.nlri")) l = [] /\ flat_map attr_nodes l = []).
  { destruct (0 <? nlen W) eqn:E0.
    - rewrite slice_ok by lia. cbn [rbind]. replace (2 + nlen W - 2) with (nlen W) by lia.
      assert (Es : sub data 2 (nlen W) = W) by (rewrite Ed, <- (L2 (nlen W)) at 1; apply sub_mid; reflexivity). rewrite Es.
      assert (Aw : at_ all (base + 2) W) by (rewrite <- Es; eapply at_start; [exact A|lia|reflexivity]).
      destruct (dissect_nlri_whole all (base + 2) true ap w Sm Aw Kw) as (l & El & Fl). fold W in El. rewrite El. cbn [rbind]. rewrite (node_exact all base data) by (auto; lia). cbn [one rbind].
      eexists. split; [reflexivity|]. destruct (prefixes_node all "bgp.update.withdrawn_routes" w l [] (base + 2) (nlen W) eq_refl Fl) as (B1 & B2 & B3).
      cbn [octets_of flat_map]. rewrite B1, B3, B2 by reflexivity. rewrite app_nil_r. auto.
    - exists []. split; [reflexivity|]. assert (w = []); [|subst w; auto]. eapply concat_empty; [exact Kw|apply prefix_nonempty|]. fold W. destruct W; [reflexivity|]. rewrite nlen_cons in E0. lia. }
  destruct PW as (lw & Ew & Ow & Nw & Aw). rewrite Ew. clear Ew.
  assert (PP : exists l, (if 4 + nlen W <? 4 + nlen W + nlen PA then one (s <~ slice data (4 + nlen W) (4 + nlen W + nlen PA) ;; ks <~ dissect_attributes s (base + u32 (4 + nlen W)) al ap ;; node_at (F "bgp.update.path_attributes") [] base (4 + nlen W) (4 + nlen W + nlen PA - (4 + nlen W)) ks)
       else if 0 <? nlen PA then leaf "bgp.update.path_attributes" [] base (4 + nlen W) 0 else Ok []) = Ok l /\
     flat_map (named (F "bgp.update.withdrawn_routes")) l = [] /\ flat_map (named (F "bgp.update.nlri")) l = [] /\ Forall2 (attr_rel all al ap) attrs (flat_map attr_nodes l)).
  { destruct (4 + nlen W <? 4 + nlen W + nlen PA) eqn:E0.
    - rewrite slice_ok by lia. cbn [rbind]. replace (4 + nlen W + nlen PA - (4 + nlen W)) with (nlen PA) by lia. rewrite u32_small by lia.
      assert (Es : sub data (4 + nlen W) (nlen PA) = PA).
      { rewrite Ed. replace (4 + nlen W) with (nlen (be 2 (nlen W) ++ W ++ be 2 (nlen PA))) by (rewrite !nlen_app, !L2; lia).
        replace (be 2 (nlen W) ++ W ++ be 2 (nlen PA) ++ PA ++ NL) with ((be 2 (nlen W) ++ W ++ be 2 (nlen PA)) ++ PA ++ NL) by (rewrite <- !app_assoc; reflexivity). apply sub_mid. reflexivity. }
      rewrite Es. assert (Ap : at_ all (base + (4 + nlen W)) PA) by (rewrite <- Es; eapply at_start; [exact A|lia|reflexivity]).
      destruct (dissect_attributes_whole all _ al ap attrs Sm Ap Ka) as (l & El & Fl). fold PA in El. rewrite El. cbn [rbind]. rewrite (node_exact all base data) by (auto; lia). cbn [one rbind].
      eexists. split; [reflexivity|]. cbn [flat_map]. rewrite !named_node. cbn [nd_field nd_kids field_eqb String.eqb Ascii.eqb Bool.eqb app]. rewrite !app_nil_r, attr_nodes_F.
      assert (Q : forall f, (forall k a, attr_rel all al ap a k -> named f k = []) -> flat_map (named f) l = []).
      { intros f Hf. clear - Fl Hf. induction Fl as [|a k attrs l R _ IH]; [reflexivity|]. cbn [flat_map]. rewrite (Hf k a R), IH. reflexivity. }
      split; [apply Q; intros k a (_ & _ & _ & R & _); exact R|]. split; [apply Q; intros k a (_ & _ & _ & _ & R & _); exact R|].
      assert (Qa : flat_map attr_nodes l = l). { clear - Fl. induction Fl as [|a k attrs l (_ & _ & R & _) _ IH]; [reflexivity|]. cbn [flat_map]. rewrite R, IH. reflexivity. }
      rewrite Qa. exact Fl.
    - replace (0 <? nlen PA) with false by lia. exists []. split; [reflexivity|]. split; [reflexivity|]. split; [reflexivity|]. assert (Z : map part_octets attrs = []).
      { eapply (concat_empty (fun p => p <> [])); [apply Forall_map, Forall_forall; intros a _ Q; discriminate|auto|]. fold PA. destruct PA; [reflexivity|]. rewrite nlen_cons in E0. lia. }
      apply map_eq_nil in Z. rewrite Z. constructor. }
  destruct PP as (lp & Ep & Wp & Np & Fp). rewrite Ep. clear Ep.
  assert (PN : exists l, (if 4 + nlen W + nlen PA <? nlen data then one (s <~ slice data (4 + nlen W + nlen PA) (nlen data) ;; ks <~ dissect_nlri s (base + u32 (4 + nlen W + nlen PA)) true ap ;; node_at (F "bgp.update.nlri") [] base (4 + nlen W + nlen PA) (nlen data - (4 + nlen W + nlen PA)) ks) else Ok []) = Ok l /\
     octets_of all "bgp.update.nlri" "bgp.nlri.prefix" l = n /\ flat_map (named (F "bgp.update.withdrawn_routes")) l = [] /\ flat_map attr_nodes l = []).
  { destruct (4 + nlen W + nlen PA <? nlen data) eqn:E0.
    - rewrite slice_ok by lia. cbn [rbind]. rewrite u32_small by lia.
      assert (Es : sub data (4 + nlen W + nlen PA) (nlen data - (4 + nlen W + nlen PA)) = NL).
      { rewrite Ed at 1. replace (4 + nlen W + nlen PA) with (nlen (be 2 (nlen W) ++ W ++ be 2 (nlen PA) ++ PA)) at 1 by (rewrite !nlen_app, !L2; lia).
        replace (be 2 (nlen W) ++ W ++ be 2 (nlen PA) ++ PA ++ NL) with ((be 2 (nlen W) ++ W ++ be 2 (nlen PA) ++ PA) ++ NL ++ []) by (rewrite app_nil_r, <- !app_assoc; reflexivity). apply sub_mid. lia. }
      rewrite Es. assert (An : at_ all (base + (4 + nlen W + nlen PA)) NL) by (rewrite <- Es; eapply at_start; [exact A|lia|reflexivity]).
      destruct (dissect_nlri_whole all _ true ap n Sm An Kn) as (l & El & Fl). fold NL in El. rewrite El. cbn [rbind]. rewrite (node_exact all base data) by (auto; lia). cbn [one rbind].
      eexists. split; [reflexivity|]. edestruct (prefixes_node all "bgp.update.nlri" n l [] (base + (4 + nlen W + nlen PA)) (nlen data - (4 + nlen W + nlen PA)) eq_refl Fl) as (B1 & B2 & B3).
      cbn [octets_of flat_map]. rewrite B1, B3, B2 by reflexivity. rewrite app_nil_r. auto.
    - exists []. split; [reflexivity|]. assert (n = []); [|subst n; auto]. eapply concat_empty; [exact Kn|apply prefix_nonempty|]. fold NL. destruct NL; [reflexivity|]. rewrite nlen_cons in Ln. lia. }
  destruct PN as (ln & En & On & Wn & An). rewrite En. clear En. rewrite !cat_ok. cbn [rbind]. rewrite (node_exact all base data) by (auto; lia).
  eexists. split; [reflexivity|]. rewrite !octets_F by reflexivity. rewrite attr_nodes_F. rewrite !octets_app, !flat_map_app, Ow, On, Aw, An.
  rewrite (octets_none _ "bgp.update.nlri" _ _ Nw), (octets_none _ "bgp.update.withdrawn_routes" _ _ Wp), (octets_none _ "bgp.update.nlri" _ _ Np), (octets_none _ "bgp.update.withdrawn_routes" _ _ Wn).
  cbn [octets_of flat_map]. rewrite !attr_nodes_F, !octets_F by reflexivity. cbn [octets_of flat_map app]. rewrite !app_nil_r. auto.
Qed.
Lemma message_whole all base al ap marker w attrs n extra data : at_ all base data -> nlen marker = 16 -> Forall (is_prefix ap) w -> Forall (is_prefix ap) n -> Forall is_part attrs ->
  nlen (update_octets w attrs n) < 65517 -> data = message_octets marker 2 (update_octets w attrs n) extra -> small all ->
  exists t, dissect_bgp data base al ap = Ok t /\
    octets_in all "bgp.update.withdrawn_routes" "bgp.nlri.prefix" t = w /\ octets_in all "bgp.update.nlri" "bgp.nlri.prefix" t = n /\
    Forall2 (attr_rel all al ap) attrs (attr_nodes t).
Proof.
  intros A Lm Kw Kn Ka Lb Ed Sm. set (body := update_octets w attrs n) in *. unfold message_octets in Ed.
  assert (L2 : forall x, nlen (be 2 x) = 2) by (intros x; unfold nlen; rewrite be_length; reflexivity).
  assert (Ln : nlen data = 19 + nlen body + nlen extra) by (rewrite Ed, !nlen_app, L2, Lm; unfold nlen at 1; cbn [length]; lia).
  unfold dissect_bgp. cbv zeta. replace (nlen data <? 19) with false by lia. rewrite word_ok by lia.
  assert (V : be_val (sub data 16 2) = 19 + nlen body) by (rewrite Ed, <- Lm, sub_mid by (rewrite L2; reflexivity); apply be_val_be_small; change (256 ^ N.of_nat 2) with 65536; lia).
  assert (I : idx data 18 = Ok 2).
  { rewrite Ed. replace 18 with (nlen (marker ++ be 2 (19 + nlen body))) by (rewrite nlen_app, L2, Lm; reflexivity). rewrite app_assoc. apply idx_mid. }
  rewrite I. cbn [rbind]. rewrite V. replace (19 + nlen body - 19) with (nlen body) by lia. replace (nlen data - 19) with (nlen body + nlen extra) by lia.
  replace (N.min (nlen body) (nlen body + nlen extra)) with (nlen body) by lia. rewrite !slice_ok by lia. cbn [rbind].
  replace (nlen body + nlen extra <? nlen body) with false by lia. replace (19 + nlen body - 19) with (nlen body) by lia.
  assert (Es : sub data 19 (nlen body) = body).
  { rewrite Ed. generalize (be 2 (19 + nlen body)) (L2 (19 + nlen body)). intros h Lh. replace 19 with (nlen (marker ++ h ++ [2])) by (rewrite !nlen_app, Lh, Lm; reflexivity).
    replace (marker ++ h ++ [2] ++ body ++ extra) with ((marker ++ h ++ [2]) ++ body ++ extra) by (rewrite <- !app_assoc; reflexivity). apply sub_mid. reflexivity. }
  rewrite Es. assert (Ab : at_ all (base + 19) body) by (rewrite <- Es at 1; eapply at_start; [exact A|lia|reflexivity]).
  destruct (update_whole all (base + 19) al ap w attrs n Sm Ab Kw Kn Ka ltac:(fold body; lia)) as (t & Et & O1 & O2 & F2). fold body in Et. rewrite Et.
  assert (Tr : exists l, (if nlen body <? nlen body + nlen extra then leaf "bgp.trailing" [] base (19 + nlen body) (nlen body + nlen extra - nlen body) else Ok []) = Ok l /\
     octets_of all "bgp.update.withdrawn_routes" "bgp.nlri.prefix" l = [] /\ octets_of all "bgp.update.nlri" "bgp.nlri.prefix" l = [] /\ flat_map attr_nodes l = []).
  { destruct (nlen body <? nlen body + nlen extra) eqn:E; [|exists []; auto]. rewrite (leaf_exact all base data) by (auto; lia). eexists. split; [reflexivity|]. auto. }
  destruct Tr as (l & -> & T1 & T2 & T3).
  rewrite !(leaf_exact all base data) by (auto; lia). rewrite !cat_ok. cbn [rbind]. rewrite (node_exact all base data) by (auto; lia). cbn [one rbind].
  rewrite !cat_ok. cbn [rbind]. rewrite (node_exact all base data) by (auto; lia).
  eexists. split; [reflexivity|]. rewrite !octets_F by reflexivity. rewrite attr_nodes_F, !octets_app, !flat_map_app, T1, T2, T3. cbn [octets_of flat_map]. rewrite O1, O2.
  cbn [app]. rewrite !app_nil_r. auto.
Qed.

(** ** MRT records *)
Lemma mrt_whole ts ln us ty st pas las ifi afi pip lip marker w attrs n extra data :
  let asz := if as4_subtype st then 4 else 2 in let ipl := if afi =? 1 then 4 else 16 in
  let al := if as4_subtype st then Bits32 else Bits16 in let ap := path_subtype st in
  data = ts ++ be 2 ty ++ be 2 st ++ ln ++ us ++ pas ++ las ++ ifi ++ be 2 afi ++ pip ++ lip ++ message_octets marker 2 (update_octets w attrs n) extra ->
  nlen ts = 4 -> nlen ln = 4 -> nlen us = (if ty =? 17 then 4 else 0) -> (ty = 16 \/ ty = 17) -> st < 65536 -> st <> 0 -> st <> 5 ->
  nlen pas = asz -> nlen las = asz -> nlen ifi = 2 -> (afi = 1 \/ afi = 2) -> nlen pip = ipl -> nlen lip = ipl -> nlen marker = 16 ->
  Forall (is_prefix ap) w -> Forall (is_prefix ap) n -> Forall is_part attrs -> nlen (update_octets w attrs n) < 65517 -> small data ->
  exists t, dissect_mrt_bytes data = Ok t /\
    octets_in data "bgp.update.withdrawn_routes" "bgp.nlri.prefix" t = w /\ octets_in data "bgp.update.nlri" "bgp.nlri.prefix" t = n /\
    Forall2 (attr_rel data al ap) attrs (attr_nodes t).
Proof.
  intros asz ipl al ap Ed Lts Lln Lus Hty Hst Hst0 Hst5 Lpas Llas Lifi Hafi Lpip Llip Lm Kw Kn Ka Lb Sm.
  assert (L2 : forall x, nlen (be 2 x) = 2) by (intros x; unfold nlen; rewrite be_length; reflexivity).
  set (msg := message_octets marker 2 (update_octets w attrs n) extra) in *.
  set (mp := pas ++ las ++ ifi ++ be 2 afi ++ pip ++ lip ++ msg).
  set (hdr := ts ++ be 2 ty ++ be 2 st ++ ln ++ us). assert (Ed' : data = hdr ++ mp) by (rewrite Ed; subst hdr mp; rewrite <- !app_assoc; reflexivity).
  assert (Lh : nlen hdr = if ty =? 17 then 16 else 12) by (subst hdr; rewrite !nlen_app, !L2, Lts, Lln, Lus; destruct (ty =? 17); reflexivity).
  assert (Az : asz = 2 \/ asz = 4) by (subst asz; destruct as4_subtype; auto). assert (Ip : ipl = 4 \/ ipl = 16) by (subst ipl; destruct (afi =? 1); auto).
  assert (Lmp : nlen mp = 2 * asz + 4 + 2 * ipl + nlen msg) by (subst mp; rewrite !nlen_app, L2, Lpas, Llas, Lifi, Lpip, Llip; lia).
  assert (Ln : nlen data = nlen hdr + nlen mp) by (rewrite Ed'; apply nlen_app). assert (Lh' : nlen hdr = 12 \/ nlen hdr = 16) by (destruct (ty =? 17); auto).
  pose proof (at_self data) as A. assert (Sm' := Sm). unfold small in Sm'.
  unfold dissect_mrt_bytes. cbv zeta. replace (nlen data <? 12) with false by lia. rewrite !rd16_ok, !word_ok by lia. cbn [or0 rbind].
  assert (V1 : be_val (sub data 4 2) = ty) by (rewrite Ed, <- Lts, sub_mid by (rewrite L2; reflexivity); apply be_val_be_small; change (256 ^ N.of_nat 2) with 65536; lia).
  assert (V2 : be_val (sub data 6 2) = st).
  { rewrite Ed. replace 6 with (nlen (ts ++ be 2 ty)) by (rewrite nlen_app, L2, Lts; reflexivity). rewrite app_assoc, sub_mid by (rewrite L2; reflexivity). apply be_val_be_small; change (256 ^ N.of_nat 2) with 65536; lia. }
  rewrite V1, V2. replace ((ty =? 17) || (ty =? 33) || (ty =? 49)) with (ty =? 17) by (destruct Hty as [-> | ->]; reflexivity). rewrite <- Lh.
  replace ((ty =? 17) && (nlen data <? 16)) with false by (destruct (ty =? 17); cbn [andb]; [lia|reflexivity]). replace ((ty =? 16) || (ty =? 17)) with true by (destruct Hty as [-> | ->]; reflexivity).
  rewrite slice_ok by lia. cbn [rbind]. replace (nlen data - nlen hdr) with (nlen mp) by lia.
  assert (Es : sub data (nlen hdr) (nlen mp) = mp) by (rewrite Ed', <- (app_nil_r mp) at 1; apply sub_mid; reflexivity). rewrite Es. replace (nlen mp =? 0) with false by lia.
  assert (Am : at_ data (nlen hdr) mp) by (rewrite Ed'; exists hdr, []; rewrite app_nil_r; auto).
  assert (BP : exists b, dissect_bgp4mp mp (nlen hdr) st = Ok b /\ octets_in data "bgp.update.withdrawn_routes" "bgp.nlri.prefix" b = w /\ octets_in data "bgp.update.nlri" "bgp.nlri.prefix" b = n /\
    Forall2 (attr_rel data al ap) attrs (attr_nodes b)).
  { unfold dissect_bgp4mp. cbv zeta. fold (as4_subtype st). fold asz. fold al. fold (path_subtype st). fold ap. replace (nlen mp <? 2 * asz) with false by lia.
    rewrite !(leaf_exact data (nlen hdr) mp) by (auto; lia). rewrite slice_ok by lia. cbn [rbind].
    set (rest := sub mp (2 * asz) (nlen mp - 2 * asz)). assert (Er : rest = ifi ++ be 2 afi ++ pip ++ lip ++ msg).
    { subst rest mp. rewrite app_assoc. replace (2 * asz) with (nlen (pas ++ las)) by (rewrite nlen_app; lia). apply sub_skip. }
    assert (Lr : nlen rest = 4 + 2 * ipl + nlen msg) by (rewrite Er, !nlen_app, L2, Lifi, Lpip, Llip; lia).
    replace (16 <=? nlen rest) with true by (assert (19 <= nlen msg) by (subst msg; unfold message_octets; rewrite !nlen_app, L2, Lm; unfold nlen at 1; cbn [length]; lia); lia).
    rewrite slice_ok by (assert (19 <= nlen msg) by (subst msg; unfold message_octets; rewrite !nlen_app, L2, Lm; unfold nlen at 1; cbn [length]; lia); lia). cbn [rbind].
    assert (Fb : forallb (N.eqb 255) (sub rest 0 (16 - 0)) = false).
    { change (16 - 0) with (2 + (1 + 13)). rewrite sub_split, forallb_app. rewrite sub_split, forallb_app. replace (sub rest (0 + 2) 1) with [0]; [cbn [forallb]; rewrite andb_false_r; reflexivity|].
      assert (Eb : be 2 afi = [0; afi]) by (destruct Hafi as [-> | ->]; reflexivity). rewrite Er, Eb. change (0 + 2) with 2. rewrite <- Lifi. symmetry. change ([0; afi] ++ pip ++ lip ++ msg) with ([0] ++ afi :: pip ++ lip ++ msg). apply sub_mid. reflexivity. }
    rewrite Fb. replace (negb (negb ((st =? 0) || (st =? 5))) && (asz =? 2) && (nlen mp =? 8)) with false by (replace (st =? 0) with false by lia; replace (st =? 5) with false by lia; reflexivity).
    unfold walk_addresses. cbv zeta. replace (nlen mp <? 2 * asz + 4) with false by lia. rewrite !rd16_ok by lia. cbn [or0].
    assert (Va : be_val (sub mp (2 * asz + 2) 2) = afi).
    { subst mp. replace (2 * asz + 2) with (nlen (pas ++ las ++ ifi)) by (rewrite !nlen_app; lia).
      replace (pas ++ las ++ ifi ++ be 2 afi ++ pip ++ lip ++ msg) with ((pas ++ las ++ ifi) ++ be 2 afi ++ pip ++ lip ++ msg) by (rewrite <- !app_assoc; reflexivity).
      rewrite sub_mid by (rewrite L2; reflexivity). apply be_val_be_small; change (256 ^ N.of_nat 2) with 65536; lia. }
    rewrite Va. replace (match afi with 1 => Some 4 | 2 => Some 16 | _ => None end) with (Some ipl) by (destruct Hafi as [-> | ->]; reflexivity).
    rewrite !(leaf_exact data (nlen hdr) mp) by (auto; lia). rewrite cat_ok. cbn [rbind]. replace (nlen mp <? 2 * asz + 4 + 2 * ipl) with false by lia. rewrite !slice_ok by lia. cbn [rbind].
    rewrite !(leaf_exact data (nlen hdr) mp) by (auto; lia). rewrite cat_ok. cbn [rbind]. replace (negb ((st =? 0) || (st =? 5))) with true by (replace (st =? 0) with false by lia; replace (st =? 5) with false by lia; reflexivity).
    set (q := 2 * asz + 4 + ipl + ipl). rewrite slice_ok by lia. cbn [rbind].
    assert (Eq : sub mp q (nlen mp - q) = msg).
    { subst mp q. replace (2 * asz + 4 + ipl + ipl) with (nlen (pas ++ las ++ ifi ++ be 2 afi ++ pip ++ lip)) by (rewrite !nlen_app, L2; lia).
      replace (pas ++ las ++ ifi ++ be 2 afi ++ pip ++ lip ++ msg) with ((pas ++ las ++ ifi ++ be 2 afi ++ pip ++ lip) ++ msg) by (rewrite <- !app_assoc; reflexivity). apply sub_skip. }
    rewrite Eq, u32_small by lia. assert (Ag : at_ data (nlen hdr + q) msg) by (rewrite <- Eq; eapply at_start; [exact Am|lia|reflexivity]).
    destruct (message_whole data (nlen hdr + q) al ap marker w attrs n extra msg Ag Lm Kw Kn Ka Lb eq_refl Sm) as (t & Et & O1 & O2 & F2). rewrite Et. cbn [one rbind]. rewrite !cat_ok. cbn [rbind].
    rewrite (node_exact data (nlen hdr) mp) by (auto; lia). eexists. split; [reflexivity|]. rewrite !octets_F by reflexivity. rewrite attr_nodes_F.
    rewrite !octets_app, !flat_map_app. cbn [octets_of flat_map app]. rewrite O1, O2, !app_nil_r. rewrite !octets_F, !attr_nodes_F by reflexivity. cbn [octets_of flat_map app]. auto. }
  destruct BP as (b & -> & O1 & O2 & F2). cbn [one rbind].
  assert (HS : exists hs, (leaf "mrt.header.timestamp" [be_val (sub data 0 4)] 0 0 4 +++ leaf "mrt.header.type" [ty] 0 4 2 +++ leaf "mrt.header.subtype" [st] 0 6 2 +++ leaf "mrt.header.length" [be_val (sub data 8 4)] 0 8 4 +++
                  (if ty =? 17 then if 16 <=? nlen data then leaf "mrt.header.microsecond" [be_val (sub data 12 4)] 0 12 4 else leaf "mrt.header.microsecond" [] 0 12 (nlen data - 12) else Ok [])) = Ok hs /\
      octets_of data "bgp.update.withdrawn_routes" "bgp.nlri.prefix" hs = [] /\ octets_of data "bgp.update.nlri" "bgp.nlri.prefix" hs = [] /\ flat_map attr_nodes hs = []).
  { rewrite !(leaf_exact data 0 data) by (auto; lia). destruct (ty =? 17) eqn:E17.
    - replace (16 <=? nlen data) with true by lia. rewrite ?(leaf_exact data 0 data) by (auto; lia). rewrite !cat_ok. eexists. split; [reflexivity|]. auto.
    - rewrite !cat_ok. eexists. split; [reflexivity|]. auto. }
  destruct HS as (hs & -> & H1 & H2 & H3). cbn [rbind]. rewrite (node_exact data 0 data) by (auto; lia). cbn [one rbind]. rewrite cat_ok. cbn [rbind]. rewrite (node_exact data 0 data) by (auto; lia).
  eexists. split; [reflexivity|]. rewrite !octets_F by reflexivity. rewrite attr_nodes_F. cbn [octets_of flat_map app]. rewrite O1, O2, !app_nil_r, !octets_F, attr_nodes_F by reflexivity. rewrite H1, H2, H3. auto.
Qed.
