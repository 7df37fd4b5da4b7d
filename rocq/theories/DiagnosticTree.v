(** The tree of a record with an UPDATE, as far as findings refer to it. *)
From Coq Require Import Lia ZifyBool ZifyNat ZifyN.
From Verif Require Import Base BaseFacts Net AsPath Dissect DissectSpec DissectFacts DissectWhole.
From Verif Require AttrSpec MsgSpec Bgp4mpSpec.
From Verif Require Import Framing FramingFacts.

Definition sections : list string := ["bgp.update.withdrawn_routes"; "bgp.update.nlri"; "bgp.update.path_attributes"]%string.
Definition dull (f : field) : Prop := match f with FAttr _ => False | F s => is_in s sections = false end.
Definition dulls (r : res (list node)) : Prop := forall l, r = Ok l -> Forall (fun n => dull (nd_field n)) (flat_map preorder l).
Lemma dulls_nil : dulls (Ok []).
Proof. intros l [= <-]. constructor. Qed.
Lemma dulls_bind {A} (e : res A) f : (forall x, dulls (f x)) -> dulls (rbind e f).
Proof. intros H l E. destruct e; try discriminate. eapply H. exact E. Qed.
Lemma dulls_cat a b : dulls a -> dulls b -> dulls (a +++ b).
Proof.
  intros A B l E. unfold cat in E. destruct a as [x| |]; try discriminate. destruct b as [y| |]; try discriminate. injection E as <-.
  rewrite flat_map_app. apply Forall_app. split; [apply A|apply B]; reflexivity.
Qed.
Lemma dulls_leaf name v base pos len : is_in name sections = false -> dulls (leaf name v base pos len).
Proof.
  intros H l E. unfold leaf, one, node_at in E. destruct (base + u32 pos <? 4294967296); [|discriminate]. injection E as <-. cbn. constructor; [exact H|constructor].
Qed.
Ltac dul := repeat first [apply dulls_nil | apply dulls_cat | (apply dulls_leaf; reflexivity) | match goal with |- dulls (rbind _ _) => apply dulls_bind; intros ? end |
  match goal with |- dulls (match ?x with _ => _ end) => destruct x end | (intros l0 E0; discriminate E0)].
Lemma nlri_dull v4 ap fuel data base pos : dulls (nlri_loop fuel data base v4 ap pos).
Proof. revert pos. induction fuel as [|f IH]; intros pos; cbn [nlri_loop]; cbv zeta; dul; apply IH. Qed.
Lemma entries_dull w name show fuel value base pos : is_in name sections = false -> dulls (entries fuel w name show value base pos).
Proof. intros H. revert pos. induction fuel as [|f IH]; intros pos; cbn [entries]; cbv zeta; dul; [apply dulls_leaf; exact H|apply IH]. Qed.
Lemma segments_dull w fuel value base pos : dulls (segments fuel w value base pos).
Proof. revert pos. induction fuel as [|f IH]; intros pos; cbn [segments]; cbv zeta; dul; apply IH. Qed.
Lemma aigp_dull fuel value base pos : dulls (aigp_loop fuel value base pos).
Proof. revert pos. induction fuel as [|f IH]; intros pos; cbn [aigp_loop]; cbv zeta; dul; apply IH. Qed.
Lemma value_dull code value base asz ap : dulls (dissect_attr_value code value base asz ap).
Proof.
  unfold dissect_attr_value. cbv zeta.
  assert (R : dulls (dissect_mp_reach value base ap)) by (unfold dissect_mp_reach; cbv zeta; dul; apply nlri_dull).
  assert (U : dulls (dissect_mp_unreach value base ap)) by (unfold dissect_mp_unreach; cbv zeta; dul; apply nlri_dull).
  assert (G : dulls (dissect_aggregator value base)) by (unfold dissect_aggregator; cbv zeta; dul).
  pose proof (segments_dull asz (S (length value)) value base 0) as S1. pose proof (segments_dull 4 (S (length value)) value base 0) as S2. pose proof (aigp_dull (S (length value)) value base 0) as S3.
  repeat match goal with |- dulls (match ?x with _ => _ end) => is_var x; destruct x end; try assumption; try (apply entries_dull; reflexivity); dul.
Qed.

(** ** What a list of nodes shows: the octets of the attributes, and of the three sections *)
Definition at_attr (all o : bytes) (k : node) : Prop := under all k = o /\ exists fl c rest, o = fl :: c :: rest /\ nd_field k = FAttr c.
Definition shape (all : bytes) (os pa nl wd : list bytes) (l : list node) : Prop :=
  Forall2 (at_attr all) os (flat_map attr_nodes l) /\ map (under all) (flat_map (named (F "bgp.update.path_attributes")) l) = pa /\
  map (under all) (flat_map (named (F "bgp.update.nlri")) l) = nl /\ map (under all) (flat_map (named (F "bgp.update.withdrawn_routes")) l) = wd.
Lemma shape_nil all : shape all [] [] [] [] [].
Proof. repeat split; constructor. Qed.
Lemma shape_app all o1 p1 n1 w1 o2 p2 n2 w2 a b : shape all o1 p1 n1 w1 a -> shape all o2 p2 n2 w2 b -> shape all (o1 ++ o2) (p1 ++ p2) (n1 ++ n2) (w1 ++ w2) (a ++ b).
Proof.
  intros (A1 & A2 & A3 & A4) (B1 & B2 & B3 & B4). unfold shape. rewrite !flat_map_app, !map_app, A2, A3, A4, B2, B3, B4. split; [apply Forall2_app; auto|auto].
Qed.
Lemma shape_cat all o1 p1 n1 w1 o2 p2 n2 w2 a b os pa nl wd : shape all o1 p1 n1 w1 a -> shape all o2 p2 n2 w2 b ->
  o1 ++ o2 = os -> p1 ++ p2 = pa -> n1 ++ n2 = nl -> w1 ++ w2 = wd -> shape all os pa nl wd (a ++ b).
Proof. intros A B <- <- <- <-. apply shape_app; assumption. Qed.
Lemma dull_attrs l : Forall (fun n => dull (nd_field n)) l -> filter (fun n => match nd_field n with FAttr _ => true | F _ => false end) l = [].
Proof. induction 1 as [|n l H _ IH]; [reflexivity|]. cbn [filter]. destruct (nd_field n); [exact IH|elim H]. Qed.
Lemma dull_named s l : is_in s sections = true -> Forall (fun n => dull (nd_field n)) l -> filter (fun n => field_eqb (nd_field n) (F s)) l = [].
Proof.
  intros S. induction 1 as [|n l H _ IH]; [reflexivity|]. cbn [filter]. destruct (nd_field n) as [s'|]; [|elim H]. cbn [field_eqb].
  destruct (String.eqb s' s) eqn:E; [|exact IH]. apply String.eqb_eq in E. subst s'. cbn [dull] in H. rewrite S in H. discriminate.
Qed.
Lemma shape_dull all l : Forall (fun n => dull (nd_field n)) (flat_map preorder l) -> shape all [] [] [] [] l.
Proof.
  intros H. unfold shape. rewrite <- attr_flat, <- !named_flat. rewrite dull_attrs by exact H. rewrite !dull_named by (exact H || reflexivity). repeat split; constructor.
Qed.
Lemma shape_leaf all name v o l : is_in name sections = false -> shape all [] [] [] [] [Node (F name) v o l []].
Proof. intros H. apply shape_dull. cbn. constructor; [exact H|constructor]. Qed.
Lemma shape_skip all name v o l ks os pa nl wd : is_in name sections = false -> shape all os pa nl wd ks -> shape all os pa nl wd (Node (F name) v o l [] :: ks).
Proof. intros H K. apply (shape_app all [] [] [] [] os pa nl wd [_] ks); [apply shape_leaf; exact H|exact K]. Qed.
Lemma shape_wrap all name v o l ks os pa nl wd : is_in name sections = false -> shape all os pa nl wd ks -> shape all os pa nl wd [Node (F name) v o l ks].
Proof.
  intros H (A1 & A2 & A3 & A4). unfold shape. cbn [flat_map]. rewrite !app_nil_r, attr_nodes_F, !named_node. cbn [nd_field nd_kids field_eqb].
  assert (Q : forall s, is_in s sections = true -> String.eqb name s = false).
  { intros s Is. destruct (String.eqb name s) eqn:E; [|reflexivity]. apply String.eqb_eq in E. congruence. }
  rewrite !Q by reflexivity. auto.
Qed.
(** A section around nodes of no interest, and the attribute section around attributes. *)
Lemma shape_nlri all v o l ks x : under all (Node (F "bgp.update.nlri") v o l ks) = x -> Forall (fun n => dull (nd_field n)) (flat_map preorder ks) ->
  shape all [] [] [x] [] [Node (F "bgp.update.nlri") v o l ks].
Proof.
  intros E H. destruct (shape_dull all ks H) as (A1 & A2 & A3 & A4). unfold shape. cbn [flat_map]. rewrite !app_nil_r, attr_nodes_F, !named_node. cbn [nd_field nd_kids field_eqb String.eqb Ascii.eqb Bool.eqb].
  rewrite !map_app, A2, A3, A4. cbn [map app]. rewrite E. auto.
Qed.
Lemma shape_withdrawn all v o l ks x : under all (Node (F "bgp.update.withdrawn_routes") v o l ks) = x -> Forall (fun n => dull (nd_field n)) (flat_map preorder ks) ->
  shape all [] [] [] [x] [Node (F "bgp.update.withdrawn_routes") v o l ks].
Proof.
  intros E H. destruct (shape_dull all ks H) as (A1 & A2 & A3 & A4). unfold shape. cbn [flat_map]. rewrite !app_nil_r, attr_nodes_F, !named_node. cbn [nd_field nd_kids field_eqb String.eqb Ascii.eqb Bool.eqb].
  rewrite !map_app, A2, A3, A4. cbn [map app]. rewrite E. auto.
Qed.
Lemma shape_attributes all v o l ks x os : under all (Node (F "bgp.update.path_attributes") v o l ks) = x -> shape all os [] [] [] ks ->
  shape all os [x] [] [] [Node (F "bgp.update.path_attributes") v o l ks].
Proof.
  intros E (A1 & A2 & A3 & A4). unfold shape. cbn [flat_map]. rewrite !app_nil_r, attr_nodes_F, !named_node. cbn [nd_field nd_kids field_eqb String.eqb Ascii.eqb Bool.eqb].
  rewrite !map_app, A2, A3, A4. cbn [map app]. rewrite E. auto.
Qed.
Lemma shape_attr all c v o l ks x : under all (Node (FAttr c) v o l ks) = x -> (exists fl rest, x = fl :: c :: rest) -> Forall (fun n => dull (nd_field n)) (flat_map preorder ks) ->
  shape all [x] [] [] [] [Node (FAttr c) v o l ks].
Proof.
  intros E (fl & rest & Ex) H. destruct (shape_dull all ks H) as (A1 & A2 & A3 & A4). unfold shape. cbn [flat_map]. rewrite !app_nil_r, !named_node. cbn [nd_field nd_kids field_eqb app].
  rewrite A2, A3, A4. split; [|auto]. unfold attr_nodes. rewrite preorder_eq. cbn [filter nd_field nd_kids]. rewrite attr_flat. inversion A1; subst.
  constructor; [|constructor]. split; [reflexivity|]. rewrite Ex. exists fl, c, rest. auto.
Qed.

(** ** Path attributes *)
Definition cut_wire (e : AttrSpec.block_end) : list bytes := match e with AttrSpec.EndCut _ _ _ _ => [AttrSpec.end_wire e] | _ => [] end.
Definition asn_size (al : asn_len) : N := match al with Bits16 => 2 | Bits32 => 4 end.
Lemma header_at fl code len rest pre data : data = pre ++ AttrSpec.header_wire fl code len ++ rest -> len < 256 ^ N.of_nat (AttrSpec.length_width fl) ->
  let hl := if N.testbit fl 4 then 4 else 3 in
  nlen data = nlen pre + hl + nlen rest /\ idx data (nlen pre) = Ok fl /\ idx data (nlen pre + 1) = Ok code /\
  (if N.testbit fl 4 then Ok (rd16 data (nlen pre + 2)) else v <~ idx data (nlen pre + 2) ;; Ok (Some v)) = Ok (Some len).
Proof.
  intros E B hl. unfold AttrSpec.header_wire, AttrSpec.length_width, AttrSpec.extended in *. set (ls := if N.testbit fl 4 then 2 else 1).
  assert (Ll : nlen (be (if N.testbit fl 4 then 2%nat else 1%nat) len) = ls) by (unfold nlen; rewrite be_length; subst ls; destruct N.testbit; reflexivity).
  assert (Hl : hl = 2 + ls) by (subst hl ls; destruct N.testbit; lia).
  assert (Ln : nlen data = nlen pre + hl + nlen rest) by (rewrite E, !nlen_app, Ll, !nlen_cons; unfold nlen at 2; cbn [length]; lia).
  split; [exact Ln|]. split; [rewrite E; cbn [app]; apply idx_mid|].
  split.
  { rewrite E. replace (nlen pre + 1) with (nlen (pre ++ [fl])) by (rewrite nlen_app, nlen_cons; reflexivity).
    match goal with |- idx (pre ++ ([fl; code] ++ ?b) ++ ?r) _ = _ => replace (pre ++ ([fl; code] ++ b) ++ r) with ((pre ++ [fl]) ++ code :: (b ++ r)) by (rewrite <- !app_assoc; reflexivity) end. apply idx_mid. }
  assert (Q : be_val (sub data (nlen pre + 2) ls) = len).
  { rewrite E. replace (nlen pre + 2) with (nlen (pre ++ [fl; code])) by (rewrite nlen_app; reflexivity). rewrite <- app_assoc, app_assoc. rewrite sub_mid by (symmetry; exact Ll).
    destruct (N.testbit fl 4); apply be_val_be_small; exact B. }
  assert (Hl2 : 2 + ls <= nlen data - nlen pre) by lia. subst ls. destruct (N.testbit fl 4).
  - rewrite rd16_ok by lia. rewrite Q. reflexivity.
  - destruct (idx_ok data (nlen pre + 2) ltac:(lia)) as (v & Ev & _ & Sv). rewrite Ev. cbn [rbind]. rewrite Sv, be_val_1 in Q. rewrite Q. reflexivity.
Qed.
Lemma attrs_shape all base al ap e : small all -> AttrSpec.end_ok e -> forall l data pre, at_ all base data -> Forall AttrSpec.raw_ok l ->
  data = pre ++ flat_map AttrSpec.attr_wire l ++ AttrSpec.end_wire e ->
  forall fuel, (length l < fuel)%nat ->
  exists ks, attrs_loop fuel data base (asn_size al) ap (nlen pre) = Ok ks /\ shape all (map AttrSpec.attr_wire l ++ cut_wire e) [] [] [] ks.
Proof.
  intros Sm Ke. induction l as [|a l IH]; intros data pre A K E fuel Lf; (destruct fuel as [|fuel]; [inversion Lf|]); cbn [attrs_loop].
  - cbn [flat_map app map] in *. destruct e as [t|fl code len rest|fl code x]; cbn [AttrSpec.end_wire cut_wire] in *.
    + destruct Ke as (Lt & _). replace (nlen pre + 3 <=? nlen data) with false by (rewrite E, nlen_app; unfold nlen; lia). exists []. split; [reflexivity|apply shape_nil].
    + destruct Ke as (_ & _ & B & Lr & _). destruct (header_at fl code len rest pre data E B) as (Ln & I1 & I2 & VL).
      set (hl := if N.testbit fl 4 then 4 else 3) in *. assert (Hl : 3 <= hl <= 4) by (subst hl; destruct N.testbit; lia).
      replace (nlen pre + 3 <=? nlen data) with true by lia. rewrite I1, I2. cbn [rbind]. rewrite bit4. cbv zeta. fold hl.
      replace (nlen data <? nlen pre + hl) with false by lia. rewrite VL. cbn [rbind]. replace (nlen data <? nlen pre + hl + len) with true by lia.
      rewrite (leaf_exact all base data) by (auto; lia). cbn [rbind]. rewrite (node_exact all base data) by (auto; lia). cbn [one rbind]. eexists. split; [reflexivity|].
      apply shape_attr; [|exists fl; eexists; reflexivity|cbn; constructor; [reflexivity|constructor]].
      rewrite (under_exact all base data) by (auto; lia). rewrite E. replace (nlen (pre ++ AttrSpec.header_wire fl code len ++ rest) - nlen pre) with (nlen (AttrSpec.header_wire fl code len ++ rest)) by (rewrite !nlen_app; lia).
      rewrite <- (app_nil_r (AttrSpec.header_wire fl code len ++ rest)) at 1. rewrite sub_mid by reflexivity. reflexivity.
    + destruct Ke as (_ & _ & _ & Ex). unfold AttrSpec.extended in Ex.
      assert (Ln : nlen data = nlen pre + 3) by (rewrite E, nlen_app; reflexivity). replace (nlen pre + 3 <=? nlen data) with true by lia.
      assert (I1 : idx data (nlen pre) = Ok fl) by (rewrite E; apply idx_mid).
      assert (I2 : idx data (nlen pre + 1) = Ok code).
      { rewrite E. replace (nlen pre + 1) with (nlen (pre ++ [fl])) by (rewrite nlen_app, nlen_cons; reflexivity). replace (pre ++ [fl; code; x]) with ((pre ++ [fl]) ++ code :: [x]) by (rewrite <- app_assoc; reflexivity). apply idx_mid. }
      rewrite I1, I2. cbn [rbind]. rewrite bit4, Ex. cbv zeta. replace (nlen data <? nlen pre + 4) with true by lia. exists []. split; [reflexivity|apply shape_nil].
  - pose proof (Forall_inv K) as Ka. pose proof (Forall_inv_tail K) as K'. clear K. cbn [flat_map] in E. set (post := flat_map AttrSpec.attr_wire l ++ AttrSpec.end_wire e) in *.
    destruct a as [fl code value]. destruct Ka as (_ & _ & _ & B). cbn [AttrSpec.r_flag AttrSpec.r_value] in B.
    assert (E' : data = pre ++ AttrSpec.header_wire fl code (nlen value) ++ value ++ post).
    { rewrite E. unfold AttrSpec.attr_wire. cbn [AttrSpec.r_flag AttrSpec.r_code AttrSpec.r_value]. subst post. rewrite <- !app_assoc. reflexivity. }
    destruct (header_at fl code (nlen value) (value ++ post) pre data E' B) as (Ln & I1 & I2 & VL). rewrite nlen_app in Ln.
    set (hl := if N.testbit fl 4 then 4 else 3) in *. assert (Hl : 3 <= hl <= 4) by (subst hl; destruct N.testbit; lia).
    replace (nlen pre + 3 <=? nlen data) with true by lia. rewrite I1, I2. cbn [rbind]. rewrite bit4. cbv zeta. fold hl.
    replace (nlen data <? nlen pre + hl) with false by lia. rewrite VL. cbn [rbind]. replace (nlen data <? nlen pre + hl + nlen value) with false by lia.
    rewrite !(leaf_exact all base data) by (auto; lia). rewrite slice_ok by lia. cbn [rbind].
    assert (Lw : nlen (AttrSpec.header_wire fl code (nlen value)) = hl).
    { pose proof (f_equal nlen E') as Q. rewrite !nlen_app in Q. lia. }
    assert (Sv : sub data (nlen pre + hl) (nlen pre + hl + nlen value - (nlen pre + hl)) = value).
    { rewrite E'. replace (nlen pre + hl) with (nlen (pre ++ AttrSpec.header_wire fl code (nlen value))) by (rewrite nlen_app; lia). rewrite app_assoc. apply sub_mid. lia. }
    rewrite Sv. pose proof (at_len _ _ _ A) as AL. assert (Sm' := Sm). unfold small in Sm'. rewrite u32_small by lia.
    assert (Av : at_ all (base + (nlen pre + hl)) value).
    { replace (nlen pre + hl + nlen value - (nlen pre + hl)) with (nlen value) in Sv by lia. rewrite <- Sv at 1. eapply at_start; [exact A|lia|reflexivity]. }
    destruct (attr_value_parts all (base + (nlen pre + hl)) value code (asn_size al) ap Sm Av) as (vks & Ev & _); [destruct al; cbn; auto|].
    rewrite Ev. cbn [rbind]. rewrite (node_exact all base data) by (auto; lia). unfold one at 2. cbn [rbind]. rewrite !cat_ok. cbn [rbind].
    rewrite (node_exact all base data) by (auto; lia). unfold one at 1. cbn [rbind].
    set (w := AttrSpec.attr_wire {| AttrSpec.r_flag := fl; AttrSpec.r_code := code; AttrSpec.r_value := value |}) in *.
    assert (Lwire : nlen w = hl + nlen value) by (subst w; unfold AttrSpec.attr_wire; cbn [AttrSpec.r_flag AttrSpec.r_code AttrSpec.r_value]; rewrite nlen_app, Lw; reflexivity).
    destruct (IH data (pre ++ w) A K' ltac:(rewrite E; subst post; rewrite <- !app_assoc; reflexivity) fuel ltac:(cbn [length] in Lf; lia)) as (ks & El & Fl).
    replace (nlen (pre ++ w)) with (nlen pre + hl + nlen value) in El by (rewrite nlen_app, Lwire; lia).
    rewrite El, cat_ok. eexists. split; [reflexivity|].
    change (map AttrSpec.attr_wire ({| AttrSpec.r_flag := fl; AttrSpec.r_code := code; AttrSpec.r_value := value |} :: l) ++ cut_wire e) with ([w] ++ (map AttrSpec.attr_wire l ++ cut_wire e)).
    apply (shape_app all [w] [] [] []); [|exact Fl]. apply shape_attr; [|exists fl; eexists; reflexivity|].
    + rewrite (under_exact all base data) by (auto; lia). rewrite E, <- app_assoc, <- Lwire. apply sub_mid. reflexivity.
    + pose proof (value_dull _ _ _ _ _ _ Ev) as Vi. cbn [flat_map app]. rewrite !preorder_eq. cbn [nd_kids flat_map app]. repeat (constructor; [reflexivity|]). rewrite app_nil_r. exact Vi.
Qed.
Lemma attributes_shape all base al ap l e : small all -> AttrSpec.end_ok e -> Forall AttrSpec.raw_ok l -> at_ all base (flat_map AttrSpec.attr_wire l ++ AttrSpec.end_wire e) ->
  exists ks, dissect_attributes (flat_map AttrSpec.attr_wire l ++ AttrSpec.end_wire e) base al ap = Ok ks /\ shape all (map AttrSpec.attr_wire l ++ cut_wire e) [] [] [] ks.
Proof.
  intros Sm Ke K A. unfold dissect_attributes. apply (attrs_shape all base al ap e Sm Ke l _ []); auto. rewrite app_length.
  assert (Q : (length l <= length (flat_map AttrSpec.attr_wire l))%nat); [|lia]. clear. induction l as [|a l IH]; cbn [flat_map length]; [lia|]. rewrite app_length. unfold AttrSpec.attr_wire at 1, AttrSpec.header_wire. cbn [app length]. lia.
Qed.

(** ** UPDATE messages *)
Definition sect (x : bytes) : list bytes := match x with [] => [] | _ => [x] end.
Lemma sect_pos x : 0 < nlen x -> sect x = [x].
Proof. destruct x; [discriminate|reflexivity]. Qed.
Lemma sect_zero (x : bytes) : nlen x = 0 -> x = [].
Proof. destruct x; [reflexivity|]. rewrite nlen_cons. lia. Qed.
Lemma update_shape all base al ap w l e n data : small all -> at_ all base data -> AttrSpec.end_ok e -> Forall AttrSpec.raw_ok l ->
  let a := flat_map AttrSpec.attr_wire l ++ AttrSpec.end_wire e in
  data = MsgSpec.update_sections w a n -> nlen w < 65536 -> nlen a < 65536 ->
  exists t, dissect_update data base al ap = Ok t /\ shape all (map AttrSpec.attr_wire l ++ cut_wire e) (sect a) (sect n) (sect w) [t].
Proof.
  intros Sm A Ke Kl PA Ed Lw La. unfold MsgSpec.update_sections in Ed. rename w into W. rename n into NL.
  assert (L2 : forall x, nlen (be 2 x) = 2) by (intros x; unfold nlen; rewrite be_length; reflexivity).
  assert (Ln : nlen data = 4 + nlen W + nlen PA + nlen NL) by (rewrite Ed, !nlen_app, !L2; lia).
  pose proof (at_len _ _ _ A) as AL. assert (Sm' := Sm). unfold small in Sm'.
  unfold dissect_update. cbv zeta. replace (nlen data <? 2) with false by lia. rewrite word_ok by lia. cbn [rbind].
  assert (V1 : be_val (sub data 0 2) = nlen W).
  { rewrite Ed. change 0 with (nlen (@nil N)). rewrite <- (app_nil_l (be 2 (nlen W) ++ _)). rewrite sub_mid by (rewrite L2; reflexivity). apply be_val_be_small. exact Lw. }
  rewrite V1. replace (nlen data <? 2 + nlen W) with false by lia. replace (nlen data <? 2 + nlen W + 2) with false by lia. rewrite word_ok by lia. cbn [rbind].
  assert (V2 : be_val (sub data (2 + nlen W) 2) = nlen PA).
  { rewrite Ed. replace (2 + nlen W) with (nlen (be 2 (nlen W) ++ W)) by (rewrite nlen_app, L2; reflexivity). rewrite app_assoc. rewrite sub_mid by (rewrite L2; reflexivity). apply be_val_be_small. exact La. }
  rewrite V2. replace (N.min (2 + nlen W + 2 + nlen PA) (nlen data)) with (4 + nlen W + nlen PA) by lia. replace (2 + nlen W + 2) with (4 + nlen W) by lia.
  rewrite (leaf_exact all base data) by (auto; lia). rewrite (leaf_exact all base data) by (auto; lia).
  assert (PW : exists l, (if 0 <? nlen W then one (s <~ slice data 2 (2 + nlen W) ;; ks <~ dissect_nlri s (base + 2) true ap ;; node_at (F "bgp.update.withdrawn_routes") [] base 2 (nlen W) ks) else Ok []) = Ok l /\
     shape all [] [] [] (sect W) l).
  { destruct (0 <? nlen W) eqn:E0.
    - rewrite slice_ok by lia. cbn [rbind]. replace (2 + nlen W - 2) with (nlen W) by lia.
      assert (Es : sub data 2 (nlen W) = W) by (rewrite Ed, <- (L2 (nlen W)) at 1; apply sub_mid; reflexivity). rewrite Es.
      assert (Aw : at_ all (base + 2) W) by (rewrite <- Es; eapply at_start; [exact A|lia|reflexivity]).
      destruct (dissect_nlri_ok all (base + 2) W true ap Sm Aw) as (ks & Ek & _). rewrite Ek. cbn [rbind]. rewrite (node_exact all base data) by (auto; lia). cbn [one rbind].
      eexists. split; [reflexivity|]. rewrite sect_pos by lia. apply shape_withdrawn; [rewrite (under_exact all base data) by (auto; lia); exact Es|]. eapply nlri_dull. exact Ek.
    - exists []. split; [reflexivity|]. rewrite (sect_zero W) by lia. apply shape_nil. }
  destruct PW as (lw & Ew & Sw). rewrite Ew. clear Ew.
  assert (PP : exists k, (if 4 + nlen W <? 4 + nlen W + nlen PA then one (s <~ slice data (4 + nlen W) (4 + nlen W + nlen PA) ;; ks <~ dissect_attributes s (base + u32 (4 + nlen W)) al ap ;; node_at (F "bgp.update.path_attributes") [] base (4 + nlen W) (4 + nlen W + nlen PA - (4 + nlen W)) ks)
       else if 0 <? nlen PA then leaf "bgp.update.path_attributes" [] base (4 + nlen W) 0 else Ok []) = Ok k /\
     shape all (map AttrSpec.attr_wire l ++ cut_wire e) (sect PA) [] [] k).
  { destruct (4 + nlen W <? 4 + nlen W + nlen PA) eqn:E0.
    - rewrite slice_ok by lia. cbn [rbind]. replace (4 + nlen W + nlen PA - (4 + nlen W)) with (nlen PA) by lia. rewrite u32_small by lia.
      assert (Es : sub data (4 + nlen W) (nlen PA) = PA).
      { rewrite Ed. replace (4 + nlen W) with (nlen (be 2 (nlen W) ++ W ++ be 2 (nlen PA))) by (rewrite !nlen_app, !L2; lia).
        replace (be 2 (nlen W) ++ W ++ be 2 (nlen PA) ++ PA ++ NL) with ((be 2 (nlen W) ++ W ++ be 2 (nlen PA)) ++ PA ++ NL) by (rewrite <- !app_assoc; reflexivity). apply sub_mid. reflexivity. }
      rewrite Es. assert (Ap : at_ all (base + (4 + nlen W)) PA) by (rewrite <- Es at 1; eapply at_start; [exact A|lia|reflexivity]).
      destruct (attributes_shape all _ al ap l e Sm Ke Kl Ap) as (ks & El & Fl). fold PA in El. rewrite El. cbn [rbind]. rewrite (node_exact all base data) by (auto; lia). cbn [one rbind].
      eexists. split; [reflexivity|]. rewrite sect_pos by lia. apply shape_attributes; [|exact Fl]. rewrite (under_exact all base data) by (auto; lia). exact Es.
    - replace (0 <? nlen PA) with false by lia. exists []. split; [reflexivity|]. assert (Z : PA = []) by (apply sect_zero; lia). rewrite Z. subst PA. apply app_eq_nil in Z as [Z1 Z2].
      destruct l; [|discriminate]. destruct e; try discriminate. apply shape_nil. }
  destruct PP as (lp & Ep & Sp). rewrite Ep. clear Ep.
  assert (PN : exists l, (if 4 + nlen W + nlen PA <? nlen data then one (s <~ slice data (4 + nlen W + nlen PA) (nlen data) ;; ks <~ dissect_nlri s (base + u32 (4 + nlen W + nlen PA)) true ap ;; node_at (F "bgp.update.nlri") [] base (4 + nlen W + nlen PA) (nlen data - (4 + nlen W + nlen PA)) ks) else Ok []) = Ok l /\
     shape all [] [] (sect NL) [] l).
  { destruct (4 + nlen W + nlen PA <? nlen data) eqn:E0.
    - rewrite slice_ok by lia. cbn [rbind]. rewrite u32_small by lia.
      assert (Es : sub data (4 + nlen W + nlen PA) (nlen data - (4 + nlen W + nlen PA)) = NL).
      { rewrite Ed at 1. replace (4 + nlen W + nlen PA) with (nlen (be 2 (nlen W) ++ W ++ be 2 (nlen PA) ++ PA)) at 1 by (rewrite !nlen_app, !L2; lia).
        replace (be 2 (nlen W) ++ W ++ be 2 (nlen PA) ++ PA ++ NL) with ((be 2 (nlen W) ++ W ++ be 2 (nlen PA) ++ PA) ++ NL ++ []) by (rewrite app_nil_r, <- !app_assoc; reflexivity). apply sub_mid. lia. }
      rewrite Es. assert (An : at_ all (base + (4 + nlen W + nlen PA)) NL) by (rewrite <- Es; eapply at_start; [exact A|lia|reflexivity]).
      destruct (dissect_nlri_ok all _ NL true ap Sm An) as (ks & El & _). rewrite El. cbn [rbind]. rewrite (node_exact all base data) by (auto; lia). cbn [one rbind].
      eexists. split; [reflexivity|]. rewrite sect_pos by lia. apply shape_nlri; [rewrite (under_exact all base data) by (auto; lia); exact Es|]. eapply nlri_dull. exact El.
    - exists []. split; [reflexivity|]. rewrite (sect_zero NL) by lia. apply shape_nil. }
  destruct PN as (ln & En & Sn). rewrite En. clear En. rewrite !cat_ok. cbn [rbind]. rewrite (node_exact all base data) by (auto; lia).
  eexists. split; [reflexivity|]. apply shape_wrap; [reflexivity|].
  apply shape_skip; [reflexivity|]. eapply shape_cat; [exact Sw| |..]; [apply shape_skip; [reflexivity|]; eapply shape_cat; [exact Sp|exact Sn|reflexivity..]|..]; rewrite ?app_nil_r; reflexivity.
Qed.

(** ** BGP messages and BGP4MP records *)
Lemma message_shape all base al ap mk len w l e n r data : small all -> at_ all base data -> AttrSpec.end_ok e -> Forall AttrSpec.raw_ok l ->
  let a := flat_map AttrSpec.attr_wire l ++ AttrSpec.end_wire e in let body := MsgSpec.update_sections w a n in
  data = MsgSpec.header_wire mk len 2 ++ body ++ r -> nlen mk = 16 -> 19 <= len < 65536 -> MsgSpec.takes len body r -> nlen w < 65536 -> nlen a < 65536 ->
  exists t, dissect_bgp data base al ap = Ok t /\ shape all (map AttrSpec.attr_wire l ++ cut_wire e) (sect a) (sect n) (sect w) [t].
Proof.
  intros Sm A Ke Kl a body Ed Lm Hlen Tk Lw La. unfold MsgSpec.header_wire in Ed.
  assert (L2 : forall x, nlen (be 2 x) = 2) by (intros x; unfold nlen; rewrite be_length; reflexivity).
  assert (Ln : nlen data = 19 + nlen body + nlen r) by (rewrite Ed, !nlen_app, L2, Lm; unfold nlen at 1; cbn [length]; lia).
  unfold dissect_bgp. cbv zeta. replace (nlen data <? 19) with false by lia. rewrite word_ok by lia.
  assert (V : be_val (sub data 16 2) = len) by (rewrite Ed, <- Lm, <- !app_assoc, sub_mid by (rewrite L2; reflexivity); apply be_val_be_small; change (256 ^ N.of_nat 2) with 65536; lia).
  assert (I : idx data 18 = Ok 2).
  { rewrite Ed. replace 18 with (nlen (mk ++ be 2 len)) by (rewrite nlen_app, L2, Lm; reflexivity). rewrite <- !app_assoc, app_assoc. apply idx_mid. }
  rewrite I. cbn [rbind]. rewrite V. replace (nlen data - 19) with (nlen body + nlen r) by lia.
  assert (Bl : N.min (len - 19) (nlen body + nlen r) = nlen body).
  { destruct Tk as [Tk|[Tk ->]]; [lia|]. change (nlen (@nil N)) with 0. lia. }
  rewrite Bl. rewrite !slice_ok by lia. cbn [rbind]. replace (19 + nlen body - 19) with (nlen body) by lia.
  assert (Es : sub data 19 (nlen body) = body).
  { rewrite Ed. generalize (be 2 len) (L2 len). intros h Lh. replace 19 with (nlen (mk ++ h ++ [2])) by (rewrite !nlen_app, Lh, Lm; reflexivity). apply sub_mid. reflexivity. }
  rewrite Es. assert (Ab : at_ all (base + 19) body) by (rewrite <- Es at 1; eapply at_start; [exact A|lia|reflexivity]).
  destruct (update_shape all (base + 19) al ap w l e n body Sm Ab Ke Kl eq_refl Lw La) as (t & Et & St). rewrite Et. fold a in St.
  assert (T1 : exists k, (if nlen body + nlen r <? len - 19 then leaf "bgp.truncated" [len] base (19 + nlen body) 0 else Ok []) = Ok k /\ shape all [] [] [] [] k).
  { destruct (nlen body + nlen r <? len - 19); [|exists []; split; [reflexivity|apply shape_nil]]. rewrite (leaf_exact all base data) by (auto; lia). eexists. split; [reflexivity|]. apply shape_leaf. reflexivity. }
  assert (T2 : exists k, (if nlen body <? nlen body + nlen r then leaf "bgp.trailing" [] base (19 + nlen body) (nlen body + nlen r - nlen body) else Ok []) = Ok k /\ shape all [] [] [] [] k).
  { destruct (nlen body <? nlen body + nlen r) eqn:E; [|exists []; split; [reflexivity|apply shape_nil]]. rewrite (leaf_exact all base data) by (auto; lia). eexists. split; [reflexivity|]. apply shape_leaf. reflexivity. }
  destruct T1 as (k1 & -> & S1). destruct T2 as (k2 & -> & S2).
  rewrite !(leaf_exact all base data) by (auto; lia). rewrite !cat_ok. cbn [rbind]. rewrite (node_exact all base data) by (auto; lia). cbn [one rbind].
  rewrite !cat_ok. cbn [rbind]. rewrite (node_exact all base data) by (auto; lia).
  eexists. split; [reflexivity|]. apply shape_wrap; [reflexivity|].
  apply (shape_app all [] [] [] [] _ _ _ _ [_]); [apply shape_dull; cbn; repeat constructor|].
  apply (shape_app all [] [] [] []); [exact S1|]. eapply shape_cat; [exact St|exact S2|..]; apply app_nil_r.
Qed.
Lemma message_subtype_cfg sub al ap : Bgp4mpSpec.message_subtype sub al ap ->
  (if as4_subtype sub then Bits32 else Bits16) = al /\ path_subtype sub = ap /\ negb ((sub =? 0) || (sub =? 5)) = true.
Proof. destruct al, ap; cbn [Bgp4mpSpec.message_subtype]; intros [-> | ->]; repeat split; reflexivity. Qed.
Lemma bgp4mp_shape all base st al ap pa la i p q mk len w l e n r data : small all -> at_ all base data -> AttrSpec.end_ok e -> Forall AttrSpec.raw_ok l ->
  let a := flat_map AttrSpec.attr_wire l ++ AttrSpec.end_wire e in let body := MsgSpec.update_sections w a n in
  Bgp4mpSpec.message_subtype st al ap -> Bgp4mpSpec.envelope_ok al pa la i p q ->
  data = Bgp4mpSpec.envelope al pa la i p q ++ MsgSpec.header_wire mk len 2 ++ body ++ r -> nlen mk = 16 -> 19 <= len < 65536 -> MsgSpec.takes len body r -> nlen w < 65536 -> nlen a < 65536 ->
  exists t, dissect_bgp4mp data base st = Ok t /\ shape all (map AttrSpec.attr_wire l ++ cut_wire e) (sect a) (sect n) (sect w) [t].
Proof.
  intros Sm A Ke Kl a body Ms Ek Ed Lm Hlen Tk Lw La. destruct (message_subtype_cfg st al ap Ms) as (C1 & C2 & C3).
  set (msg := MsgSpec.header_wire mk len 2 ++ body ++ r) in *.
  assert (L2 : forall x, nlen (be 2 x) = 2) by (intros x; unfold nlen; rewrite be_length; reflexivity).
  assert (Lg : 19 <= nlen msg) by (subst msg; unfold MsgSpec.header_wire; rewrite !nlen_app, L2, Lm; unfold nlen at 1; cbn [length]; lia).
  set (asz := asn_size al). assert (Ez : (if as4_subtype st then 4 else 2) = asz) by (subst asz; rewrite <- C1; destruct as4_subtype; reflexivity).
  set (afi := Bgp4mpSpec.family_code p) in *. set (ipl := if afi =? 1 then 4 else 16).
  unfold Bgp4mpSpec.envelope in Ed. fold afi in Ed. remember (be (asn_width al) pa) as pas eqn:Epas. remember (be (asn_width al) la) as las eqn:Elas. remember (be 2 i) as ifi eqn:Eifi.
  remember (octets p) as pip eqn:Epip. remember (octets q) as lip eqn:Elip.
  assert (Lpas : nlen pas = asz) by (subst pas; unfold nlen; rewrite be_length; destruct al; reflexivity).
  assert (Llas : nlen las = asz) by (subst las; unfold nlen; rewrite be_length; destruct al; reflexivity).
  assert (Lifi : nlen ifi = 2) by (subst ifi; apply L2).
  destruct Ek as (_ & _ & _ & _ & _ & Ef).
  assert (Lpip : nlen pip = ipl) by (subst pip ipl afi; destruct p; cbn [octets Bgp4mpSpec.family_code]; unfold nlen; rewrite be_length; reflexivity).
  assert (Llip : nlen lip = ipl) by (subst lip ipl afi; destruct p, q; cbn [octets Bgp4mpSpec.family_code]; try discriminate Ef; unfold nlen; rewrite be_length; reflexivity).
  assert (Hafi : afi = 1 \/ afi = 2) by (subst afi; destruct p; cbn; auto).
  clear Epas Elas Eifi Epip Elip Ef.
  assert (Az : asz = 2 \/ asz = 4) by (subst asz; destruct al; cbn; auto). assert (Ip : ipl = 4 \/ ipl = 16) by (subst ipl; destruct (afi =? 1); auto).
  assert (Hip : (match afi with 1 => Some 4 | 2 => Some 16 | _ => None end) = Some ipl) by (subst ipl; destruct Hafi as [-> | ->]; reflexivity).
  clearbody afi ipl asz.
  assert (Ed' : data = pas ++ las ++ ifi ++ be 2 afi ++ pip ++ lip ++ msg) by (rewrite Ed, <- !app_assoc; reflexivity). clear Ed. rename Ed' into Ed.
  assert (Ln : nlen data = 2 * asz + 4 + 2 * ipl + nlen msg) by (rewrite Ed, !nlen_app, L2, Lpas, Llas, Lifi, Lpip, Llip; lia).
  pose proof (at_len _ _ _ A) as AL. assert (Sm' := Sm). unfold small in Sm'.
  unfold dissect_bgp4mp. cbv zeta. fold (as4_subtype st). fold (path_subtype st). rewrite C1, C2, C3, Ez. replace (nlen data <? 2 * asz) with false by lia.
  rewrite !(leaf_exact all base data) by (auto; lia). rewrite slice_ok by lia. cbn [rbind].
  set (rest := sub data (2 * asz) (nlen data - 2 * asz)). assert (Er : rest = ifi ++ be 2 afi ++ pip ++ lip ++ msg).
  { subst rest. rewrite Ed. rewrite app_assoc. replace (2 * asz) with (nlen (pas ++ las)) by (rewrite nlen_app; lia). apply sub_skip. }
  assert (Lr : nlen rest = 4 + 2 * ipl + nlen msg) by (rewrite Er, !nlen_app, L2, Lifi, Lpip, Llip; lia).
  replace (16 <=? nlen rest) with true by lia. rewrite slice_ok by lia. cbn [rbind].
  assert (Fb : forallb (N.eqb 255) (sub rest 0 (16 - 0)) = false).
  { change (16 - 0) with (2 + (1 + 13)). rewrite sub_split, forallb_app. rewrite sub_split, forallb_app. replace (sub rest (0 + 2) 1) with [0]; [cbn [forallb]; rewrite andb_false_r; reflexivity|].
    assert (Eb : be 2 afi = [0; afi]) by (destruct Hafi as [-> | ->]; reflexivity). rewrite Er, Eb. change (0 + 2) with 2. rewrite <- Lifi. symmetry. change ([0; afi] ++ pip ++ lip ++ msg) with ([0] ++ afi :: pip ++ lip ++ msg). apply sub_mid. reflexivity. }
  rewrite Fb. cbn [negb andb].
  unfold walk_addresses. cbv zeta. replace (nlen data <? 2 * asz + 4) with false by lia. rewrite !rd16_ok by lia. cbn [or0].
  assert (Va : be_val (sub data (2 * asz + 2) 2) = afi).
  { rewrite Ed. replace (2 * asz + 2) with (nlen (pas ++ las ++ ifi)) by (rewrite !nlen_app; lia).
    replace (pas ++ las ++ ifi ++ be 2 afi ++ pip ++ lip ++ msg) with ((pas ++ las ++ ifi) ++ be 2 afi ++ pip ++ lip ++ msg) by (rewrite <- !app_assoc; reflexivity).
    rewrite sub_mid by (rewrite L2; reflexivity). apply be_val_be_small; change (256 ^ N.of_nat 2) with 65536; lia. }
  rewrite Va, Hip.
  rewrite !(leaf_exact all base data) by (auto; lia). rewrite cat_ok. cbn [rbind]. replace (nlen data <? 2 * asz + 4 + 2 * ipl) with false by lia. rewrite !slice_ok by lia. cbn [rbind].
  rewrite !(leaf_exact all base data) by (auto; lia). rewrite cat_ok. cbn [rbind].
  set (x := 2 * asz + 4 + ipl + ipl). rewrite slice_ok by lia. cbn [rbind].
  assert (Eq : sub data x (nlen data - x) = msg).
  { subst x. rewrite Ed. replace (2 * asz + 4 + ipl + ipl) with (nlen (pas ++ las ++ ifi ++ be 2 afi ++ pip ++ lip)) by (rewrite !nlen_app, L2; lia).
    replace (pas ++ las ++ ifi ++ be 2 afi ++ pip ++ lip ++ msg) with ((pas ++ las ++ ifi ++ be 2 afi ++ pip ++ lip) ++ msg) by (rewrite <- !app_assoc; reflexivity). apply sub_skip. }
  rewrite Eq, u32_small by lia. assert (Ag : at_ all (base + x) msg) by (rewrite <- Eq; eapply at_start; [exact A|lia|reflexivity]).
  destruct (message_shape all (base + x) al ap mk len w l e n r msg Sm Ag Ke Kl eq_refl Lm Hlen Tk Lw La) as (t & Et & St). rewrite Et. cbn [one rbind]. rewrite !cat_ok. cbn [rbind].
  rewrite (node_exact all base data) by (auto; lia). eexists. split; [reflexivity|]. apply shape_wrap; [reflexivity|]. cbn [app]. repeat (apply shape_skip; [reflexivity|]). exact St.
Qed.

(** ** MRT records *)
Lemma mrt_shape h hb body t os pa nl wd : encode_header h = Ok hb -> header_ok h -> h_type h = 16 \/ h_type h = 17 -> 4 <= nlen body ->
  let data := hb ++ body in small data ->
  dissect_bgp4mp body (nlen hb) (h_sub h) = Ok t -> shape data os pa nl wd [t] ->
  exists t', dissect_mrt_bytes data = Ok t' /\ shape data os pa nl wd [t'].
Proof.
  intros Eh (_ & _ & Hs & Hu) Hty Lb data Sm Et St.
  set (ty := h_type h) in *. set (st := h_sub h) in *.
  assert (L2 : forall k x, nlen (be k x) = N.of_nat k) by (intros k x; unfold nlen; rewrite be_length; reflexivity).
  assert (Q : exists ln us, hb = be 4 (h_ts h) ++ be 2 ty ++ be 2 st ++ be 4 ln ++ us /\ nlen us = (if ty =? 17 then 4 else 0)).
  { unfold encode_header in Eh. fold ty st in Eh. destruct (h_us h) as [u|].
    - destruct Hu as (Hu & _). unfold ET_BGP4MP_ET in Hu. fold ty in Hu. destruct (4294967295 <? h_len h + 4); [discriminate|]. injection Eh as <-. exists (h_len h + 4), (be 4 u). split; [reflexivity|]. rewrite L2, Hu. reflexivity.
    - destruct Hu as (Hu & _). unfold ET_BGP4MP_ET in Hu. fold ty in Hu. injection Eh as <-. exists (h_len h), []. rewrite app_nil_r. split; [reflexivity|]. replace (ty =? 17) with false by lia. reflexivity. }
  destruct Q as (ln & us & Ehb & Lus). clear Eh Hu.
  assert (Lh : nlen hb = if ty =? 17 then 16 else 12) by (rewrite Ehb, !nlen_app, !L2, Lus; destruct (ty =? 17); reflexivity).
  assert (Ln : nlen data = nlen hb + nlen body) by apply nlen_app. assert (Lh' : nlen hb = 12 \/ nlen hb = 16) by (destruct (ty =? 17); auto).
  pose proof (at_self data) as A. assert (Sm' := Sm). unfold small in Sm'.
  unfold dissect_mrt_bytes. cbv zeta. replace (nlen data <? 12) with false by lia. rewrite !rd16_ok, !word_ok by lia. cbn [or0 rbind].
  assert (Ed : data = be 4 (h_ts h) ++ be 2 ty ++ be 2 st ++ be 4 ln ++ us ++ body) by (subst data; rewrite Ehb, <- !app_assoc; reflexivity).
  assert (V1 : be_val (sub data 4 2) = ty).
  { rewrite Ed. replace 4 with (nlen (be 4 (h_ts h))) at 1 by apply L2. rewrite sub_mid by (rewrite L2; reflexivity). apply be_val_be_small; change (256 ^ N.of_nat 2) with 65536; lia. }
  assert (V2 : be_val (sub data 6 2) = st).
  { rewrite Ed. replace 6 with (nlen (be 4 (h_ts h) ++ be 2 ty)) by (rewrite nlen_app, !L2; reflexivity). rewrite app_assoc, sub_mid by (rewrite L2; reflexivity). apply be_val_be_small; change (256 ^ N.of_nat 2) with (2 ^ 16); lia. }
  rewrite V1, V2. replace ((ty =? 17) || (ty =? 33) || (ty =? 49)) with (ty =? 17) by (destruct Hty as [-> | ->]; reflexivity). rewrite <- Lh.
  replace ((ty =? 17) && (nlen data <? 16)) with false by (destruct (ty =? 17); cbn [andb]; [lia|reflexivity]). replace ((ty =? 16) || (ty =? 17)) with true by (destruct Hty as [-> | ->]; reflexivity).
  rewrite slice_ok by lia. cbn [rbind]. replace (nlen data - nlen hb) with (nlen body) by lia.
  assert (Es : sub data (nlen hb) (nlen body) = body) by (subst data; rewrite <- (app_nil_r body) at 1; apply sub_mid; reflexivity). rewrite Es. replace (nlen body =? 0) with false by lia.
  rewrite Et. cbn [one rbind].
  assert (HS : exists hs, (leaf "mrt.header.timestamp" [be_val (sub data 0 4)] 0 0 4 +++ leaf "mrt.header.type" [ty] 0 4 2 +++ leaf "mrt.header.subtype" [st] 0 6 2 +++ leaf "mrt.header.length" [be_val (sub data 8 4)] 0 8 4 +++
                  (if ty =? 17 then if 16 <=? nlen data then leaf "mrt.header.microsecond" [be_val (sub data 12 4)] 0 12 4 else leaf "mrt.header.microsecond" [] 0 12 (nlen data - 12) else Ok [])) = Ok hs /\ shape data [] [] [] [] hs).
  { rewrite !(leaf_exact data 0 data) by (auto; lia). destruct (ty =? 17) eqn:E17.
    - replace (16 <=? nlen data) with true by lia. rewrite ?(leaf_exact data 0 data) by (auto; lia). rewrite !cat_ok. eexists. split; [reflexivity|]. cbn [app]. repeat (apply shape_skip; [reflexivity|]). apply shape_nil.
    - rewrite !cat_ok. eexists. split; [reflexivity|]. cbn [app]. repeat (apply shape_skip; [reflexivity|]). apply shape_nil. }
  destruct HS as (hs & -> & Sh). cbn [rbind]. rewrite (node_exact data 0 data) by (auto; lia). cbn [one rbind]. rewrite cat_ok. cbn [rbind]. rewrite (node_exact data 0 data) by (auto; lia).
  eexists. split; [reflexivity|]. apply shape_wrap; [reflexivity|]. apply (shape_app data [] [] [] [] os pa nl wd [_] [t]); [apply shape_wrap; [reflexivity|exact Sh]|exact St].
Qed.
