(** Proofs about dissection. *)
From Coq Require Import Lia ZifyBool ZifyNat ZifyN.
From Verif Require Import Base BaseFacts Net AsPath Framing Dissect DissectSpec.

Ltac sh := lazy beta iota zeta delta [shows is_in existsb number_fields octet_fields typed_fields String.eqb Ascii.eqb Bool.eqb orb andb negb].
(** ** Octets at a place *)
Definition at_ (all : bytes) (base : N) (data : bytes) : Prop := exists pre post, all = pre ++ data ++ post /\ nlen pre = base.
Lemma at_self all : at_ all 0 all. Proof. exists [], []. rewrite app_nil_r. auto. Qed.
Lemma at_len all base data : at_ all base data -> base + nlen data <= nlen all.
Proof. intros (pre & post & -> & <-). rewrite !nlen_app. lia. Qed.
Lemma sub_len (l : bytes) a n : a + n <= nlen l -> nlen (sub l a n) = n.
Proof. unfold sub, nlen. intros H. rewrite firstn_length, skipn_length. lia. Qed.
Lemma sub_nil l a : sub l a 0 = []. Proof. reflexivity. Qed.
Lemma sub_full l : sub l 0 (nlen l) = l.
Proof. unfold sub. cbn [N.to_nat skipn]. rewrite to_nat_nlen. apply firstn_all. Qed.
Lemma skipn_skipn_ {A} (a b : nat) (l : list A) : skipn a (skipn b l) = skipn (b + a) l.
Proof. revert l. induction b as [|b IH]; intros l; cbn [Nat.add skipn]; [reflexivity|]. destruct l; [destruct a; reflexivity|apply IH]. Qed.
Lemma firstn_skipn_ {A} (n m a : nat) (l : list A) : (a + n <= m)%nat -> firstn n (skipn a (firstn m l)) = firstn n (skipn a l).
Proof. intros H. rewrite skipn_firstn_comm, firstn_firstn. f_equal. lia. Qed.
Lemma sub_sub (l : bytes) a n b m : b + m <= n -> sub (sub l a n) b m = sub l (a + b) m.
Proof. intros H. unfold sub. rewrite firstn_skipn_ by lia. rewrite skipn_skipn_. repeat f_equal. lia. Qed.
Lemma sub_split (l : bytes) a n m : sub l a (n + m) = sub l a n ++ sub l (a + n) m.
Proof.
  unfold sub. rewrite !N2Nat.inj_add. rewrite <- skipn_skipn_. generalize (skipn (N.to_nat a) l) as x. intros x.
  generalize (N.to_nat n) (N.to_nat m). clear. intros n m. revert x. induction n as [|n IH]; intros x; [reflexivity|].
  destruct x as [|b x]; [cbn; rewrite firstn_nil; reflexivity|]. cbn [Nat.add firstn skipn app]. f_equal. apply IH.
Qed.
Lemma at_sub all base data a n : at_ all base data -> a + n <= nlen data -> at_ all (base + a) (sub data a n) /\ sub all (base + a) n = sub data a n.
Proof.
  intros (pre & post & -> & <-) H. split.
  - exists (pre ++ firstn (N.to_nat a) data), (skipn (N.to_nat (a + n)) data ++ post). split.
    + rewrite <- !app_assoc. f_equal. rewrite !app_assoc. f_equal. unfold sub. rewrite <- app_assoc.
      rewrite <- (firstn_skipn (N.to_nat a) data) at 1. f_equal.
      rewrite <- (firstn_skipn (N.to_nat n) (skipn (N.to_nat a) data)) at 1. f_equal. rewrite skipn_skipn_. f_equal. lia.
    + rewrite nlen_app. f_equal. unfold nlen in *. rewrite firstn_length. lia.
  - unfold sub, nlen in *. rewrite skipn_app. rewrite (skipn_all2 pre) by lia. cbn [app].
    replace (N.to_nat (N.of_nat (length pre) + a) - length pre)%nat with (N.to_nat a) by lia.
    rewrite skipn_app. replace (N.to_nat a - length data)%nat with 0%nat by lia. cbn [skipn].
    rewrite firstn_app. rewrite skipn_length. replace (N.to_nat n - (length data - N.to_nat a))%nat with 0%nat by lia. cbn [firstn]. rewrite app_nil_r. reflexivity.
Qed.
Lemma slice_ok data a b : a <= b -> b <= nlen data -> slice data a b = Ok (sub data a (b - a)).
Proof. intros A B. unfold slice. replace ((a <=? b) && (b <=? nlen data)) with true by lia. reflexivity. Qed.
Lemma idx_ok data i : i < nlen data -> exists b, idx data i = Ok b /\ get data i = Some b /\ sub data i 1 = [b].
Proof.
  intros H. unfold idx, get, sub. destruct (nth_error data (N.to_nat i)) as [b|] eqn:E.
  - exists b. split; [auto|]. split; [auto|]. apply nth_error_split in E as (l1 & l2 & -> & L). rewrite <- L, skipn_app_len. reflexivity.
  - apply nth_error_None in E. unfold nlen in H. lia.
Qed.
Lemma sub_two data p : p + 2 <= nlen data -> exists a b, sub data p 2 = [a; b] /\ get data p = Some a /\ get data (p + 1) = Some b.
Proof.
  intros H. destruct (idx_ok data p ltac:(lia)) as (a & _ & A & A'). destruct (idx_ok data (p + 1) ltac:(lia)) as (b & _ & B & B').
  exists a, b. change 2 with (1 + 1). rewrite sub_split, A', B'. auto.
Qed.
Lemma rd16_ok data p : p + 2 <= nlen data -> rd16 data p = Some (be_val (sub data p 2)).
Proof. intros H. destruct (sub_two data p H) as (a & b & -> & A & B). unfold rd16. rewrite A, B, be_val_2. reflexivity. Qed.
Lemma rd32_ok data p : p + 4 <= nlen data -> rd32 data p = Some (be_val (sub data p 4)).
Proof. intros H. unfold rd32. replace (p + 4 <=? nlen data) with true by lia. reflexivity. Qed.
Lemma rd32_none data p : nlen data < p + 4 -> rd32 data p = None.
Proof. intros H. unfold rd32. replace (p + 4 <=? nlen data) with false by lia. reflexivity. Qed.
Lemma word_ok k data p : p + k <= nlen data -> word k data p = Ok (be_val (sub data p k)).
Proof. intros H. unfold word. rewrite slice_ok by lia. cbn [rbind]. repeat f_equal. lia. Qed.

(** ** Order *)
Definition small (all : bytes) : Prop := nlen all < 4294967296.
Definition all_ok (all : bytes) (n : node) : Prop := all_nodes (node_ok all) n.
Lemma in_order_le lo hi l : in_order lo hi l -> lo <= hi.
Proof. revert lo. induction l as [|n l IH]; intros lo H; cbn [in_order] in H; [exact H|]. destruct H as (A & B). apply IH in B. unfold nd_end in B. lia. Qed.
Lemma in_order_weak lo lo' hi hi' l : in_order lo hi l -> lo' <= lo -> hi <= hi' -> in_order lo' hi' l.
Proof. revert lo lo'. induction l as [|n l IH]; intros lo lo' H A B; cbn [in_order] in *; [lia|]. destruct H as (C & D). split; [lia|]. eapply IH; eauto. lia. Qed.
Lemma in_order_app lo mid hi a b : in_order lo mid a -> in_order mid hi b -> in_order lo hi (a ++ b).
Proof.
  revert lo. induction a as [|n a IH]; intros lo H K; cbn [in_order app] in *.
  - eapply in_order_weak; eauto. lia.
  - destruct H as (A & B). auto.
Qed.
Lemma tiles_order lo hi l : tiles lo hi l -> in_order lo hi l.
Proof. revert lo. induction l as [|n l IH]; intros lo H; cbn [tiles in_order] in *; [lia|]. destruct H as (A & B). split; [lia|auto]. Qed.
Lemma tiles_app lo mid hi a b : tiles lo mid a -> tiles mid hi b -> tiles lo hi (a ++ b).
Proof. revert lo. induction a as [|n a IH]; intros lo H K; cbn [tiles app] in *; [subst; auto|]. destruct H as (A & B). auto. Qed.
Lemma all_kids all n : all_ok all n <-> node_ok all n /\ Forall (all_ok all) (nd_kids n).
Proof.
  destruct n as [f v o l ks]. unfold all_ok. cbn [all_nodes nd_kids]. apply and_iff_compat_l.
  induction ks as [|k ks IH]; [split; auto|]. rewrite IH. split; [intros (A & B); auto|intros H; inversion H; auto].
Qed.
(** The nodes of [r] lie between [lo] and [hi]. *)
Definition parts (all : bytes) (lo hi : N) (r : res (list node)) : Prop :=
  exists l, r = Ok l /\ in_order lo hi l /\ Forall (all_ok all) l /\ Forall (fun k => is_aside k = false) l.
Definition tparts (all : bytes) (lo hi : N) (r : res (list node)) : Prop :=
  exists l, r = Ok l /\ tiles lo hi l /\ Forall (all_ok all) l /\ Forall (fun k => is_aside k = false) l.
Lemma tparts_parts all lo hi r : tparts all lo hi r -> parts all lo hi r.
Proof. intros (l & A & B & C & D). exists l. split; [auto|]. split; [apply tiles_order; auto|auto]. Qed.
Lemma parts_nil all lo hi : lo <= hi -> parts all lo hi (Ok []).
Proof. intros H. exists []. repeat split; auto. Qed.
Lemma tparts_nil all lo hi : lo = hi -> tparts all lo hi (Ok []).
Proof. intros H. exists []. repeat split; auto. Qed.
Lemma parts_weak all lo lo' hi hi' r : parts all lo hi r -> lo' <= lo -> hi <= hi' -> parts all lo' hi' r.
Proof. intros (l & A & B & C & D) E G. exists l. split; [auto|]. split; [eapply in_order_weak; eauto|auto]. Qed.
Lemma parts_cat all lo mid hi a b : parts all lo mid a -> parts all mid hi b -> parts all lo hi (a +++ b).
Proof.
  intros (l & -> & B & C & D) (l' & -> & B' & C' & D'). exists (l ++ l'). split; [reflexivity|]. split; [eapply in_order_app; eauto|]. split; apply Forall_app; auto.
Qed.
Lemma tparts_cat all lo mid hi a b : tparts all lo mid a -> tparts all mid hi b -> tparts all lo hi (a +++ b).
Proof.
  intros (l & -> & B & C & D) (l' & -> & B' & C' & D'). exists (l ++ l'). split; [reflexivity|]. split; [eapply tiles_app; eauto|]. split; apply Forall_app; auto.
Qed.
Definition nodep (all : bytes) (f : field) (lo hi : N) (r : res node) : Prop :=
  exists n, r = Ok n /\ nd_field n = f /\ nd_off n = lo /\ nd_end n = hi /\ all_ok all n.
Lemma one_tparts all f lo hi r : nodep all f lo hi r -> aside_field f = false -> tparts all lo hi (one r).
Proof.
  intros (n & -> & A & B & C & D) E. exists [n]. split; [reflexivity|]. split; [split; auto|]. split; constructor; auto. unfold is_aside. rewrite A. exact E.
Qed.
Lemma u32_small n : n < 4294967296 -> u32 n = n. Proof. intros H. apply N.mod_small. exact H. Qed.
Lemma proper_all l : Forall (fun k => is_aside k = false) l -> proper l = l.
Proof. unfold proper. induction 1 as [|k l H _ IH]; [reflexivity|]. cbn [filter]. rewrite H. cbn [negb]. rewrite IH. reflexivity. Qed.
Lemma proper_app a b : proper (a ++ b) = proper a ++ proper b.
Proof. apply filter_app. Qed.
Lemma node_at_gen all base data f v pos len kids : small all -> at_ all base data -> pos + len <= nlen data ->
  shows f (sub data pos len) v -> in_order (base + pos) (base + pos + len) (proper kids) -> Forall (all_ok all) kids ->
  Forall (fun k => is_aside k = true -> f = F "bgp" /\ nd_off k = base + pos + len /\ nd_kids k = [] /\ (nd_field k = F "bgp.truncated" -> nd_len k = 0)) kids ->
  (is_full (Node f v (base + pos) len kids) = true -> tiles (base + pos) (base + pos + len) kids) ->
  nodep all f (base + pos) (base + pos + len) (node_at f v base pos len kids).
Proof.
  intros Sm A L Sh O K T Fu. pose proof (at_len _ _ _ A) as AL. unfold small in Sm. unfold node_at. rewrite !u32_small by lia.
  replace (base + pos <? 4294967296) with true by lia. eexists. split; [reflexivity|]. cbn [nd_field nd_off]. unfold nd_end. cbn [nd_off nd_len].
  split; [auto|]. split; [auto|]. split; [auto|]. apply all_kids. cbn [nd_kids]. split; [|exact K].
  unfold node_ok, nd_end, under. cbn [nd_off nd_len nd_field nd_shown nd_kids]. split; [lia|]. split.
  - rewrite (proj2 (at_sub _ _ _ _ _ A L)). exact Sh.
  - auto.
Qed.
Lemma node_at_ok all base data f v pos len kids : small all -> at_ all base data -> pos + len <= nlen data ->
  shows f (sub data pos len) v -> in_order (base + pos) (base + pos + len) kids -> Forall (all_ok all) kids -> Forall (fun k => is_aside k = false) kids ->
  (is_full (Node f v (base + pos) len kids) = true -> tiles (base + pos) (base + pos + len) kids) ->
  nodep all f (base + pos) (base + pos + len) (node_at f v base pos len kids).
Proof.
  intros Sm A L Sh O K T Fu. eapply node_at_gen; eauto; [rewrite proper_all; auto|]. eapply Forall_impl; [|exact T]. cbn beta. intros k E E'. rewrite E in E'. discriminate.
Qed.
(** A node whose parts need not fill it, and one whose parts do. *)
Lemma node_parts all base data name v pos len r : small all -> at_ all base data -> pos + len <= nlen data ->
  shows (F name) (sub data pos len) v -> parts all (base + pos) (base + pos + len) r -> is_in name full_fields = false ->
  nodep all (F name) (base + pos) (base + pos + len) (ks <~ r ;; node_at (F name) v base pos len ks).
Proof.
  intros Sm A L Sh (l & -> & B & C & D) Fu. cbn [rbind]. eapply node_at_ok; eauto. unfold is_full. cbn [nd_field]. rewrite Fu. discriminate.
Qed.
Lemma node_tparts all base data f v pos len r : small all -> at_ all base data -> pos + len <= nlen data ->
  shows f (sub data pos len) v -> tparts all (base + pos) (base + pos + len) r ->
  nodep all f (base + pos) (base + pos + len) (ks <~ r ;; node_at f v base pos len ks).
Proof.
  intros Sm A L Sh (l & -> & B & C & D). cbn [rbind]. eapply node_at_ok; eauto. apply tiles_order. exact B.
Qed.
Lemma leaf_ok all base data name v pos len : small all -> at_ all base data -> pos + len <= nlen data ->
  shows (F name) (sub data pos len) v -> aside_field (F name) = false -> tparts all (base + pos) (base + pos + len) (leaf name v base pos len).
Proof.
  intros Sm A L Sh E. unfold leaf. apply (one_tparts all (F name)); [|exact E]. eapply node_at_ok; eauto; [cbn [in_order]; lia|].
  unfold is_full. cbn [nd_field nd_kids]. change (0 <? nlen (@nil node)) with false. rewrite andb_false_r. discriminate.
Qed.
Lemma leaf_num all base data name pos len : small all -> at_ all base data -> pos + len <= nlen data ->
  is_in name number_fields = true -> aside_field (F name) = false -> tparts all (base + pos) (base + pos + len) (leaf name [be_val (sub data pos len)] base pos len).
Proof. intros Sm A L Sh E. eapply leaf_ok; eauto. unfold shows. rewrite Sh. reflexivity. Qed.
Lemma leaf_oct all base data name pos len : small all -> at_ all base data -> pos + len <= nlen data ->
  is_in name number_fields = false -> is_in name octet_fields = true -> aside_field (F name) = false ->
  tparts all (base + pos) (base + pos + len) (leaf name (sub data pos len) base pos len).
Proof. intros Sm A L Sh Sh' E. eapply leaf_ok; eauto. unfold shows. rewrite Sh, Sh'. reflexivity. Qed.
Ltac num := eapply leaf_num; [eassumption|eassumption|try lia|reflexivity|reflexivity].
Ltac oct := eapply leaf_oct; [eassumption|eassumption|try lia|reflexivity|reflexivity|reflexivity].
(** A node at [lo .. hi] up to arithmetic. *)
Lemma tparts_eq all lo hi lo' hi' r : tparts all lo hi r -> lo' = lo -> hi' = hi -> tparts all lo' hi' r.
Proof. intros H -> ->. exact H. Qed.
Lemma parts_cons all base pos len hi a b : tparts all (base + pos) (base + pos + len) a -> parts all (base + (pos + len)) hi b -> parts all (base + pos) hi (a +++ b).
Proof. intros A B. eapply parts_cat; [apply tparts_parts; exact A|]. rewrite <- N.add_assoc. exact B. Qed.
Lemma at_start all base data a n base' : at_ all base data -> a + n <= nlen data -> base' = base + a -> at_ all base' (sub data a n).
Proof. intros A L ->. apply at_sub; auto. Qed.
(** ** Prefixes *)
Lemma firstn_zeros (j k : nat) : (j <= k)%nat -> firstn j (repeat 0 k) = repeat 0 j.
Proof. revert k. induction j as [|j IH]; intros k H; [reflexivity|]. destruct k as [|k]; [lia|]. cbn [repeat firstn]. f_equal. apply IH. lia. Qed.
Lemma resize_sub (n : nat) o : (n <= 16)%nat -> resize n o = sub (o ++ repeat 0 16) 0 (N.of_nat n).
Proof.
  intros H. unfold resize, sub. cbn [N.to_nat skipn]. rewrite Nat2N.id, !firstn_app. f_equal. rewrite !firstn_zeros by lia. reflexivity.
Qed.
Lemma nlri_parts all base data v4 ap : small all -> at_ all base data -> forall fuel pos, pos <= nlen data -> (N.to_nat (nlen data - pos) < fuel)%nat ->
  parts all (base + pos) (base + nlen data) (nlri_loop fuel data base v4 ap pos).
Proof.
  intros Sm A. induction fuel as [|f IH]; intros pos P L; [lia|]. cbn [nlri_loop].
  destruct (pos <? nlen data) eqn:E1; [|apply parts_nil; lia].
  destruct (ap && (nlen data <? pos + 5)) eqn:E2; [apply parts_nil; lia|]. cbv zeta.
  set (p := if ap then pos + 4 else pos) in *.
  assert (Pp : p < nlen data) by (subst p; destruct ap; lia).
  destruct (idx_ok data p Pp) as (plen & _ & -> & Sp).
  set (oc := (plen + 7) / 8) in *. destruct (nlen data <? p + 1 + oc) eqn:E3; [apply parts_nil; lia|].
  rewrite slice_ok by lia. cbn [rbind]. replace (p + 1 + oc - (p + 1)) with oc by lia.
  eapply parts_cons.
  - eapply leaf_ok; [eassumption|eassumption|subst p; destruct ap; lia| |reflexivity].
    sh. exists (sub data pos (p - pos)), plen, (sub data (p + 1) oc), v4. split.
    + assert (Q : p + 1 + oc - pos = (p - pos) + (1 + oc)) by (subst p; destruct ap; lia). rewrite Q, sub_split. f_equal.
      replace (pos + (p - pos)) with p by (subst p; destruct ap; lia). rewrite sub_split, Sp. reflexivity.
    + split; [subst p; destruct ap; [right; rewrite sub_len; lia|left; rewrite N.sub_diag; reflexivity]|]. split; [rewrite sub_len by lia; reflexivity|].
      unfold render_prefix. f_equal. rewrite resize_sub by (destruct v4; lia). destruct v4; reflexivity.
  - replace (pos + (p + 1 + oc - pos)) with (p + 1 + oc) by (subst p; destruct ap; lia). apply IH; subst p; destruct ap; lia.
Qed.
Lemma dissect_nlri_ok all base data v4 ap : small all -> at_ all base data -> parts all base (base + nlen data) (dissect_nlri data base v4 ap).
Proof. intros Sm A. rewrite <- (N.add_0_r base) at 1. apply nlri_parts; auto; unfold nlen; lia. Qed.
(** ** Attribute values *)
Lemma entries_parts all base value name w show : small all -> at_ all base value -> 0 < w -> aside_field (F name) = false ->
  (forall pos, pos + w <= nlen value -> exists v, show value pos = Ok v /\ shows (F name) (sub value pos w) v) ->
  forall fuel pos, pos <= nlen value -> (N.to_nat (nlen value - pos) < fuel)%nat -> parts all (base + pos) (base + nlen value) (entries fuel w name show value base pos).
Proof.
  intros Sm A W Nm H. induction fuel as [|f IH]; intros pos P L; [lia|]. cbn [entries].
  destruct (pos + w <=? nlen value) eqn:E; [|apply parts_nil; lia].
  destruct (H pos ltac:(lia)) as (v & -> & Sh). cbn [rbind]. eapply parts_cons; [eapply leaf_ok; eauto; lia|]. apply IH; lia.
Qed.
Lemma sub_cons data p n : p + (1 + n) <= nlen data -> exists b, idx data p = Ok b /\ get data p = Some b /\ sub data p (1 + n) = b :: sub data (p + 1) n.
Proof. intros H. destruct (idx_ok data p ltac:(lia)) as (b & A & B & C). exists b. rewrite sub_split, C. auto. Qed.
Lemma land15 t : N.land t 15 = t mod 16.
Proof. change 15 with (N.ones 4). rewrite N.land_ones. reflexivity. Qed.
Lemma ext_entry value pos : pos + 8 <= nlen value -> exists v, show_ext value pos = Ok v /\ shows (F "bgp.attr.ext_communities.entry") (sub value pos 8) v.
Proof.
  intros H. unfold show_ext. rewrite slice_ok by lia. cbn [rbind]. replace (pos + 8 - pos) with 8 by lia.
  pose proof (sub_len value pos 8 H) as L. remember (sub value pos 8) as e. clear Heqe H value pos.
  destruct e as [|t e]; [discriminate|]. destruct e as [|u x]; [discriminate|]. assert (Lx : nlen x = 6) by (rewrite !nlen_cons in L; lia).
  unfold render_ext. change (idx (t :: u :: x) 0) with (Ok t). change (idx (t :: u :: x) 1) with (Ok u). cbn [rbind].
  rewrite slice_ok by (rewrite ?nlen_cons; lia). cbn [rbind]. replace (sub (t :: u :: x) 2 (8 - 2)) with x.
  2:{ change (sub (t :: u :: x) 2 (8 - 2)) with (sub x 0 6). rewrite <- Lx, sub_full. reflexivity. }
  rewrite land15. exists (t :: u :: ext_value t x). split; [|sh; exists t, u, x; auto].
  unfold ext_value. rewrite !word_ok by lia. rewrite slice_ok by lia. cbn [rbind]. change (4 - 0) with 4.
  destruct (t mod 16) as [|[q|q|]]; [reflexivity| | |reflexivity]; (destruct q; reflexivity).
Qed.
Lemma segments_asns value asz : (asz = 2 \/ asz = 4) -> forall count pos, pos + count * asz <= nlen value ->
  exists l, sub value pos (count * asz) = concat l /\ nlen l = count /\ Forall (fun a => nlen a = asz) l /\
    map (fun i => let p := pos + N.of_nat i * asz in if asz =? 2 then or0 (rd16 value p) else or0 (rd32 value p)) (seq 0 (N.to_nat count)) = map be_val l.
Proof.
  intros W count. induction count as [|count IH] using N.peano_ind; intros pos L.
  - exists []. repeat split; auto.
  - destruct (IH pos ltac:(lia)) as (l & A & B & C & D). exists (l ++ [sub value (pos + count * asz) asz]).
    assert (Q : N.succ count * asz = count * asz + asz) by lia. split; [|split; [|split]].
    + rewrite Q, sub_split, A, concat_app. cbn [concat]. rewrite app_nil_r. reflexivity.
    + rewrite nlen_app, B. unfold nlen. cbn [length]. lia.
    + apply Forall_app. split; [exact C|]. constructor; [apply sub_len; lia|constructor].
    + rewrite N2Nat.inj_succ, seq_S, !map_app, D. f_equal. cbn [map Nat.add]. cbv zeta. rewrite N2Nat.id. f_equal.
      destruct W as [-> | ->]; cbn [N.eqb Pos.eqb]; [rewrite rd16_ok by lia|rewrite rd32_ok by lia]; reflexivity.
Qed.
Lemma segments_parts all base value asz : small all -> at_ all base value -> (asz = 2 \/ asz = 4) -> forall fuel pos, pos <= nlen value -> (N.to_nat (nlen value - pos) < fuel)%nat ->
  parts all (base + pos) (base + nlen value) (segments fuel asz value base pos).
Proof.
  intros Sm A W. induction fuel as [|f IH]; intros pos P L; [lia|]. cbn [segments].
  destruct (pos + 2 <=? nlen value) eqn:E; [|apply parts_nil; lia].
  destruct (idx_ok value pos ltac:(lia)) as (t & -> & _ & St). destruct (idx_ok value (pos + 1) ltac:(lia)) as (count & -> & _ & Sc). cbn [rbind]. cbv zeta.
  destruct (nlen value <? pos + (2 + count * asz)) eqn:E2; [apply parts_nil; lia|].
  destruct (segments_asns value asz W count (pos + 2) ltac:(lia)) as (l & X1 & X2 & X3 & X4). cbv zeta in X4. rewrite X4.
  eapply parts_cons; [|apply IH; lia]. eapply leaf_ok; [eassumption|eassumption|lia| |reflexivity].
  sh. exists asz, t, count, l. split; [auto|]. split; [|auto]. replace (2 + count * asz) with (1 + (1 + count * asz)) by lia.
  rewrite !sub_split, St, Sc, <- X1. replace (pos + 1 + 1) with (pos + 2) by lia. reflexivity.
Qed.
Lemma aigp_parts all base value : small all -> at_ all base value -> forall fuel pos, pos <= nlen value -> (N.to_nat (nlen value - pos) < fuel)%nat ->
  parts all (base + pos) (base + nlen value) (aigp_loop fuel value base pos).
Proof.
  intros Sm A. induction fuel as [|f IH]; intros pos P L; [lia|]. cbn [aigp_loop].
  destruct (pos + 3 <=? nlen value) eqn:E; [|apply parts_nil; lia].
  destruct (idx_ok value pos ltac:(lia)) as (t & -> & _ & St). cbn [rbind]. rewrite rd16_ok by lia. cbn [or0]. cbv zeta.
  set (tl := be_val (sub value (pos + 1) 2)) in *.
  destruct ((tl <? 3) || (nlen value <? pos + tl)) eqn:E2; [apply parts_nil; lia|].
  eapply parts_cons; [|apply IH; lia]. eapply leaf_ok; [eassumption|eassumption|lia| |reflexivity].
  sh. exists t, (sub value (pos + 1) (tl - 1)). split; [|reflexivity]. replace tl with (1 + (tl - 1)) at 1 by lia. rewrite sub_split, St. reflexivity.
Qed.
Lemma parts_start all base hi r : parts all (base + 0) hi r -> parts all base hi r.
Proof. rewrite N.add_0_r. auto. Qed.
Lemma tparts_start all base hi r : tparts all (base + 0) hi r -> tparts all base hi r.
Proof. rewrite N.add_0_r. auto. Qed.
Lemma tparts_cons all base pos len hi a b : tparts all (base + pos) (base + pos + len) a -> tparts all (base + (pos + len)) hi b -> tparts all (base + pos) hi (a +++ b).
Proof. intros A B. eapply tparts_cat; [exact A|]. rewrite <- N.add_assoc. exact B. Qed.
Lemma num1 all base data name pos b : small all -> at_ all base data -> pos + 1 <= nlen data -> sub data pos 1 = [b] ->
  is_in name number_fields = true -> aside_field (F name) = false -> tparts all (base + pos) (base + pos + 1) (leaf name [b] base pos 1).
Proof. intros Sm A L E I T. rewrite <- (be_val_1 b), <- E. eapply leaf_num; eauto. Qed.
Ltac num1 := eapply num1; [eassumption|eassumption|try lia|eassumption|reflexivity|reflexivity].
Ltac lf := eapply leaf_ok; [eassumption|eassumption|try lia|sh; auto|reflexivity].
Lemma mp_reach_parts all base value ap : small all -> at_ all base value -> parts all base (base + nlen value) (dissect_mp_reach value base ap).
Proof.
  intros Sm A. pose proof (at_len _ _ _ A) as AL. unfold small in Sm. unfold dissect_mp_reach. destruct (nlen value <? 4) eqn:E; [apply parts_nil; lia|].
  rewrite rd16_ok by lia. cbn [or0]. cbv zeta. apply parts_start. eapply parts_cons; [num|].
  destruct (idx_ok value 2 ltac:(lia)) as (s & -> & _ & Ss). destruct (idx_ok value 3 ltac:(lia)) as (nh & -> & _ & Sn). cbn [rbind].
  change (base + (0 + 2)) with (base + 2). eapply parts_cons; [num1|]. eapply parts_cons; [num1|]. change (2 + 1 + 1) with 4.
  destruct ((0 <? nh) && (nlen value <? 4 + nh)) eqn:E2.
  - eapply parts_weak; [apply tparts_parts; lf|lia|lia].
  - set (p := if 0 <? nh then 4 + nh else 4). eapply (parts_cat _ _ (base + p)).
    { subst p. destruct (0 <? nh) eqn:E3; [|apply parts_nil; lia]. eapply parts_weak; [apply tparts_parts; lf|lia|lia]. }
    assert (Pp : p <= nlen value) by (subst p; destruct (0 <? nh) eqn:E3; lia).
    set (q := if p <? nlen value then p + 1 else p). eapply (parts_cat _ _ (base + q)).
    { subst q. destruct (p <? nlen value) eqn:E3; [|apply parts_nil; lia]. eapply parts_weak; [apply tparts_parts; lf|lia|lia]. }
    assert (Qq : q <= nlen value) by (subst q; destruct (p <? nlen value) eqn:E3; lia).
    destruct (q <? nlen value) eqn:E3; [|apply parts_nil; lia]. rewrite slice_ok by lia. cbn [rbind]. rewrite u32_small by lia.
    pose proof (at_start _ _ _ q (nlen value - q) (base + q) A ltac:(lia) eq_refl) as A2.
    eapply parts_weak; [apply (dissect_nlri_ok _ _ _ _ _ Sm A2)|lia|]. rewrite sub_len by lia. lia.
Qed.
Lemma mp_unreach_parts all base value ap : small all -> at_ all base value -> parts all base (base + nlen value) (dissect_mp_unreach value base ap).
Proof.
  intros Sm A. pose proof (at_len _ _ _ A) as AL. unfold small in Sm. unfold dissect_mp_unreach. destruct (nlen value <? 3) eqn:E; [apply parts_nil; lia|].
  rewrite rd16_ok by lia. cbn [or0]. cbv zeta. apply parts_start. eapply parts_cons; [num|].
  destruct (idx_ok value 2 ltac:(lia)) as (s & -> & _ & Ss). cbn [rbind].
  change (base + (0 + 2)) with (base + 2). eapply parts_cons; [num1|]. change (2 + 1) with 3.
  rewrite slice_ok by lia. cbn [rbind]. pose proof (at_start _ _ _ 3 (nlen value - 3) (base + 3) A ltac:(lia) eq_refl) as A2.
  eapply parts_weak; [apply (dissect_nlri_ok _ _ _ _ _ Sm A2)|lia|]. rewrite sub_len by lia. lia.
Qed.
Lemma aggregator_parts all base value : small all -> at_ all base value -> parts all base (base + nlen value) (dissect_aggregator value base).
Proof.
  intros Sm A. unfold dissect_aggregator. destruct (nlen value <=? 4) eqn:E; [apply parts_nil; lia|]. cbv zeta. set (n := nlen value - 4).
  apply parts_start. eapply parts_cons.
  - eapply leaf_ok; [eassumption|eassumption|subst n; lia| |reflexivity]. sh. rewrite sub_len by (subst n; lia). intros [Hn|Hn]; rewrite Hn; cbn [N.eqb Pos.eqb].
    + rewrite rd16_ok by lia. reflexivity.
    + rewrite rd32_ok by lia. reflexivity.
  - rewrite slice_ok by (subst n; lia). cbn [rbind]. replace (n + 4 - n) with 4 by lia. rewrite N.add_0_l.
    eapply parts_weak; [apply tparts_parts; oct|lia|]; subst n; lia.
Qed.
Lemma attr_value_parts all base value code asz ap : small all -> at_ all base value -> (asz = 2 \/ asz = 4) -> parts all base (base + nlen value) (dissect_attr_value code value base asz ap).
Proof.
  intros Sm A W. assert (Fu : (N.to_nat (nlen value - 0) < S (length value))%nat) by (unfold nlen; lia).
  assert (X : forall P, parts all (base + 0) (base + nlen value) P -> parts all base (base + nlen value) P) by (intros P; apply parts_start).
  assert (NN : parts all base (base + nlen value) (Ok [])) by (apply parts_nil; lia).
  assert (C1 : parts all base (base + nlen value) (match get value 0 with Some v => leaf "bgp.attr.origin" [v] base 0 1 | None => Ok [] end)).
  { destruct (get value 0) as [v|] eqn:E; [|exact NN]. destruct value as [|b value']; [discriminate|]. injection E as ->.
    apply X. eapply parts_weak; [apply tparts_parts; eapply num1; [eassumption|eassumption| |reflexivity|reflexivity|reflexivity]|lia|]; rewrite nlen_cons; lia. }
  assert (Cs : forall w, (w = 2 \/ w = 4) -> parts all base (base + nlen value) (segments (S (length value)) w value base 0)).
  { intros w Hw. apply X, segments_parts; auto. lia. }
  assert (C3 : forall nm, nm = "bgp.attr.next_hop"%string \/ nm = "bgp.attr.originator_id"%string ->
     parts all base (base + nlen value) (if 4 <=? nlen value then leaf nm (sub value 0 4) base 0 (nlen value) else Ok [])).
  { intros nm Hn. destruct (4 <=? nlen value) eqn:E; [|exact NN].
    destruct Hn as [-> | ->]; apply X; (eapply parts_weak; [apply tparts_parts; eapply leaf_ok; [eassumption|eassumption|apply N.le_refl| |reflexivity]|lia|lia]);
      sh; rewrite sub_len, sub_full by lia; (split; [lia|reflexivity]). }
  assert (C4 : parts all base (base + nlen value) (match rd32 value 0 with Some v => leaf "bgp.attr.u32" [v] base 0 (nlen value) | None => Ok [] end)).
  { destruct (4 <=? nlen value) eqn:E; [|rewrite rd32_none by lia; exact NN]. rewrite rd32_ok by lia.
    apply X. eapply parts_weak; [apply tparts_parts; eapply leaf_ok; [eassumption|eassumption|apply N.le_refl| |reflexivity]|lia|lia].
    sh. rewrite sub_len, sub_full by lia. split; [lia|reflexivity]. }
  assert (E8 : parts all base (base + nlen value) (entries (S (length value)) 4 "bgp.attr.communities.entry" show_community value base 0)).
  { apply X. apply entries_parts; auto; try lia. intros pos H. unfold show_community. rewrite !rd16_ok by lia. eexists. split; [reflexivity|]. sh.
    rewrite sub_len by lia. rewrite !sub_sub by lia. rewrite N.add_0_r. auto. }
  assert (E10 : parts all base (base + nlen value) (entries (S (length value)) 4 "bgp.attr.cluster_list.entry" show_u32 value base 0)).
  { apply X. apply entries_parts; auto; try lia. intros pos H. unfold show_u32. rewrite !rd32_ok by lia. eexists. split; [reflexivity|]. reflexivity. }
  assert (E16 : parts all base (base + nlen value) (entries (S (length value)) 8 "bgp.attr.ext_communities.entry" show_ext value base 0)).
  { apply X. apply entries_parts; auto; try lia. intros pos H. apply ext_entry. exact H. }
  assert (E25 : parts all base (base + nlen value) (entries (S (length value)) 20 "bgp.attr.ipv6_ext_communities.entry" show_none value base 0)).
  { apply X. apply entries_parts; auto; try lia. intros pos H. exists []. split; [reflexivity|]. sh. rewrite sub_len by lia. auto. }
  assert (E32 : parts all base (base + nlen value) (entries (S (length value)) 12 "bgp.attr.large_communities.entry" show_large value base 0)).
  { apply X. apply entries_parts; auto; try lia. intros pos H. unfold show_large. rewrite !rd32_ok by lia. eexists. split; [reflexivity|]. sh.
    rewrite sub_len by lia. rewrite !sub_sub by lia. rewrite N.add_0_r. auto. }
  assert (E26 : parts all base (base + nlen value) (aigp_loop (S (length value)) value base 0)) by (apply X, aigp_parts; auto; lia).
  pose proof (aggregator_parts all base value Sm A) as E7.
  pose proof (mp_reach_parts all base value ap Sm A) as E14. pose proof (mp_unreach_parts all base value ap Sm A) as E15.
  pose proof (Cs 4 (or_intror eq_refl)) as E17. specialize (Cs asz W).
  pose proof (C3 _ (or_introl eq_refl)) as E3. pose proof (C3 _ (or_intror eq_refl)) as E9.
  unfold dissect_attr_value. cbv zeta.
  repeat match goal with |- parts _ _ _ (match ?x with _ => _ end) => (is_var x; destruct x); try assumption end.
Qed.
(** ** Path attributes *)
Lemma nlen1 {A} (l : list A) : length l = 1%nat -> (1 <? nlen l) = false.
Proof. unfold nlen. intros ->. reflexivity. Qed.
Lemma leaf_single name v base pos len : (exists n, leaf name v base pos len = Ok [n]) \/ leaf name v base pos len = Panic.
Proof. unfold leaf, one, node_at. destruct (base + u32 pos <? 4294967296); cbn [rbind]; eauto. Qed.
Lemma attrs_parts all base data asz ap : small all -> at_ all base data -> (asz = 2 \/ asz = 4) -> forall fuel pos, pos <= nlen data -> (N.to_nat (nlen data - pos) < fuel)%nat ->
  parts all (base + pos) (base + nlen data) (attrs_loop fuel data base asz ap pos).
Proof.
  intros Sm A W. pose proof (at_len _ _ _ A) as AL. induction fuel as [|f IH]; intros pos P L; [lia|]. cbn [attrs_loop].
  destruct (pos + 3 <=? nlen data) eqn:E; [|apply parts_nil; lia].
  destruct (idx_ok data pos ltac:(lia)) as (flags & -> & _ & Sf). destruct (idx_ok data (pos + 1) ltac:(lia)) as (code & -> & _ & Sc). cbn [rbind]. cbv zeta.
  set (ext := negb (N.land flags 16 =? 0)). set (hl := if ext then 4 else 3).
  destruct (nlen data <? pos + hl) eqn:E2; [apply parts_nil; lia|].
  assert (HL : hl - 2 = (if ext then 2 else 1) /\ 3 <= hl) by (subst hl; destruct ext; split; reflexivity || lia).
  assert (VL : (if ext then Ok (rd16 data (pos + 2)) else v <~ idx data (pos + 2);; Ok (Some v)) = Ok (Some (be_val (sub data (pos + 2) (hl - 2))))).
  { rewrite (proj1 HL). subst hl. destruct ext; [rewrite rd16_ok by lia; reflexivity|]. destruct (idx_ok data (pos + 2) ltac:(lia)) as (v & -> & _ & ->). cbn [rbind]. rewrite be_val_1. reflexivity. }
  rewrite VL. cbn [rbind]. set (vl := be_val (sub data (pos + 2) (hl - 2))).
  assert (Hd : forall n, 2 <= n -> exists fl rest, sub data pos n = fl :: code :: rest).
  { intros n Hn. exists flags, (sub data (pos + 1 + 1) (n - 2)). replace n with (1 + (1 + (n - 2))) at 1 by lia. rewrite !sub_split, Sf, Sc. reflexivity. }
  destruct (nlen data <? pos + hl + vl) eqn:E3.
  - eapply parts_weak; [apply tparts_parts; apply (one_tparts all (FAttr code))|apply N.le_refl|]; [|reflexivity|].
    + destruct (num1 all base data "bgp.attr.flags" pos flags Sm A ltac:(lia) Sf eq_refl eq_refl) as (l & El & T1 & T2 & T3). rewrite El. cbn [rbind].
      destruct (leaf_single "bgp.attr.flags" [flags] base pos 1) as [(x & Ex)|Ex]; rewrite Ex in El; [|discriminate]. injection El as <-.
      eapply node_at_ok; [eassumption|eassumption| |split; [reflexivity|apply Hd]| |exact T2|exact T3|discriminate]; [lia|lia|].
      eapply in_order_weak; [apply tiles_order; exact T1|lia|lia].
    + lia.
  - eapply (parts_cons _ _ _ (hl + vl)); [|replace (pos + (hl + vl)) with (pos + hl + vl) by lia; apply IH; lia].
    apply (one_tparts all (FAttr code)); [|reflexivity]. eapply node_tparts; [eassumption|eassumption|lia|split; [reflexivity|apply Hd; lia]|].
    eapply tparts_cons; [num1|]. eapply tparts_cons; [num1|]. replace (pos + 1 + 1) with (pos + 2) by lia.
    eapply tparts_cons; [num|]. replace (pos + 2 + (hl - 2)) with (pos + hl) by lia.
    replace (base + pos + (hl + vl)) with (base + (pos + hl) + vl) by lia.
    apply (one_tparts all (F "bgp.attr.value")); [|reflexivity]. unfold small in Sm. rewrite slice_ok by lia. cbn [rbind]. rewrite u32_small by lia.
    replace (pos + hl + vl - (pos + hl)) with vl by lia.
    eapply node_parts; [eassumption|eassumption|lia|exact I| |reflexivity].
    pose proof (at_start _ _ _ (pos + hl) vl (base + (pos + hl)) A ltac:(lia) eq_refl) as A2.
    pose proof (attr_value_parts all (base + (pos + hl)) (sub data (pos + hl) vl) code asz ap Sm A2 W) as Q. rewrite sub_len in Q by lia. exact Q.
Qed.
Lemma attributes_parts all base data al ap : small all -> at_ all base data -> parts all base (base + nlen data) (dissect_attributes data base al ap).
Proof. intros Sm A. apply parts_start. apply attrs_parts; auto; [destruct al; auto|lia|unfold nlen; lia]. Qed.
(** ** UPDATE *)
Lemma update_node all base data al ap : small all -> at_ all base data -> nodep all (F "bgp.update") base (base + nlen data) (dissect_update data base al ap).
Proof.
  intros Sm A. pose proof (at_len _ _ _ A) as AL. unfold dissect_update. cbv zeta. rewrite <- (N.add_0_r base) at 1. rewrite <- (N.add_0_r base) at 2.
  eapply node_tparts; [eassumption|eassumption|lia|exact I|].
  rewrite (N.add_0_r base) at 2. unfold small in Sm. destruct (nlen data <? 2) eqn:E.
  { destruct (nlen data =? 0) eqn:E0; [apply tparts_nil; lia|]. rewrite <- (N.add_0_r base) at 2. eapply leaf_ok; [eassumption|eassumption|lia| |reflexivity]. sh. right. rewrite sub_len by lia. split; [reflexivity|lia]. }
  rewrite word_ok by lia. cbn [rbind]. set (wl := be_val (sub data 0 2)).
  eapply tparts_cons. { eapply leaf_ok; [eassumption|eassumption|lia| |reflexivity]. sh. left. rewrite sub_len by lia. auto. }
  rewrite N.add_0_l. destruct (nlen data <? 2 + wl) eqn:E1.
  { eapply tparts_eq; [lf|lia|lia]. }
  eapply (tparts_cat _ _ (base + (2 + wl))).
  { destruct (0 <? wl) eqn:E2; [|apply tparts_nil; lia]. eapply tparts_eq; [|reflexivity|apply N.add_assoc].
    apply (one_tparts all (F "bgp.update.withdrawn_routes")); [|reflexivity]. rewrite slice_ok by lia. cbn [rbind]. replace (2 + wl - 2) with wl by lia.
    eapply node_parts; [eassumption|eassumption|lia|exact I| |reflexivity].
    pose proof (at_start _ _ _ 2 wl (base + 2) A ltac:(lia) eq_refl) as A2.
    pose proof (dissect_nlri_ok all (base + 2) _ true ap Sm A2) as Q. rewrite sub_len in Q by lia. exact Q. }
  set (p := 2 + wl) in *. destruct (nlen data <? p + 2) eqn:E2.
  { destruct (p <? nlen data) eqn:E3; [|apply tparts_nil; lia]. eapply tparts_eq; [eapply leaf_ok; [eassumption|eassumption| | |reflexivity]|lia|]; [lia| |lia].
    sh. right. rewrite sub_len by lia. split; [reflexivity|lia]. }
  rewrite word_ok by lia. cbn [rbind]. set (tl := be_val (sub data p 2)).
  eapply tparts_cons. { eapply leaf_ok; [eassumption|eassumption|lia| |reflexivity]. sh. left. rewrite sub_len by lia. auto. }
  set (q := p + 2) in *. set (e := N.min (q + tl) (nlen data)).
  eapply (tparts_cat _ _ (base + e)).
  { destruct (q <? e) eqn:E3.
    - eapply tparts_eq; [apply (one_tparts all (F "bgp.update.path_attributes")); [|reflexivity]|reflexivity|].
      + rewrite slice_ok by lia. cbn [rbind]. rewrite u32_small by lia.
        eapply node_parts; [eassumption|eassumption|lia|exact I| |reflexivity].
        pose proof (at_start _ _ _ q (e - q) (base + q) A ltac:(lia) eq_refl) as A2.
        pose proof (attributes_parts all (base + q) _ al ap Sm A2) as Q. rewrite sub_len in Q by lia. exact Q.
      + lia.
    - destruct (0 <? tl) eqn:E4; [|apply tparts_nil; lia]. eapply tparts_eq; [lf|lia|lia]. }
  destruct (e <? nlen data) eqn:E3; [|apply tparts_nil; lia].
  eapply tparts_eq; [apply (one_tparts all (F "bgp.update.nlri")); [|reflexivity]|reflexivity|].
  - rewrite slice_ok by lia. cbn [rbind]. rewrite u32_small by lia.
    eapply node_parts; [eassumption|eassumption|lia|exact I| |reflexivity].
    pose proof (at_start _ _ _ e (nlen data - e) (base + e) A ltac:(lia) eq_refl) as A2.
    pose proof (dissect_nlri_ok all (base + e) _ true ap Sm A2) as Q. rewrite sub_len in Q by lia. exact Q.
  - lia.
Qed.
(** ** OPEN *)
Lemma typed_shows name data pos n t : sub data pos 1 = [t] -> 1 <= n -> is_in name number_fields = false -> is_in name octet_fields = false -> is_in name typed_fields = true ->
  shows (F name) (sub data pos n) [t].
Proof.
  intros St L A B C. unfold shows. rewrite A, B, C. exists t, (sub data (pos + 1) (n - 1)). split; [|reflexivity]. replace n with (1 + (n - 1)) at 1 by lia. rewrite sub_split, St. reflexivity.
Qed.
Lemma caps_parts all base value : small all -> at_ all base value -> forall fuel pos, pos <= nlen value -> (N.to_nat (nlen value - pos) < fuel)%nat ->
  parts all (base + pos) (base + nlen value) (caps_loop fuel value base pos).
Proof.
  intros Sm A. induction fuel as [|f IH]; intros pos P L; [lia|]. cbn [caps_loop].
  destruct (pos + 2 <=? nlen value) eqn:E; [|apply parts_nil; lia].
  destruct (idx_ok value pos ltac:(lia)) as (c & -> & _ & Sc). destruct (idx_ok value (pos + 1) ltac:(lia)) as (cl & -> & _ & Sl). cbn [rbind].
  destruct (nlen value <? pos + 2 + cl) eqn:E2; [apply parts_nil; lia|].
  eapply (parts_cons _ _ _ (2 + cl)); [|replace (pos + (2 + cl)) with (pos + 2 + cl) by lia; apply IH; lia].
  apply (one_tparts all (F "bgp.open.capability")); [|reflexivity].
  eapply node_parts; [eassumption|eassumption|lia|eapply typed_shows; [eassumption|lia|reflexivity|reflexivity|reflexivity]| |reflexivity].
  eapply parts_cons; [num1|]. eapply parts_weak; [apply tparts_parts; num1|lia|lia].
Qed.
Lemma params_parts all base data ol : small all -> at_ all base data -> forall fuel ext first pos, pos <= nlen data -> (N.to_nat (nlen data - pos) < fuel)%nat ->
  parts all (base + pos) (base + nlen data) (params_loop fuel data base ol ext first pos).
Proof.
  intros Sm A. pose proof (at_len _ _ _ A) as AL. induction fuel as [|f IH]; intros ext first pos P L; [lia|]. cbn [params_loop].
  destruct (pos + 2 <=? nlen data) eqn:E; [|apply parts_nil; lia].
  destruct (idx_ok data pos ltac:(lia)) as (t & -> & _ & St). cbn [rbind].
  destruct (first && (t =? 255) && negb (ol =? 0)) eqn:E1.
  - destruct (nlen data <? pos + 3) eqn:E2; [apply parts_nil; lia|]. rewrite rd16_ok by lia. cbn [or0]. cbv zeta.
    eapply parts_cons.
    + eapply leaf_ok; [eassumption|eassumption|lia| |reflexivity]. sh. exists (sub data (pos + 1) 2). change 3 with (1 + 2). rewrite sub_split, St.
      assert (t = 255) by lia. subst t. rewrite sub_len by lia. auto.
    + destruct (be_val (sub data (pos + 1) 2) =? 0); [apply parts_nil; lia|]. apply IH; lia.
  - cbv zeta. set (ls := if ext then 2 else 1). assert (Ls : 1 <= ls <= 2) by (subst ls; destruct ext; lia).
    destruct (nlen data <? pos + 1 + ls) eqn:E2.
    { destruct ext; [|lia]. cbn [ls] in E2. subst ls. unfold rd16. destruct (get data (pos + 1)) as [h|]; [|apply parts_nil; lia].
      unfold get. replace (nth_error data (N.to_nat (pos + 1 + 1))) with (@None N); [apply parts_nil; lia|]. symmetry. apply nth_error_None. unfold nlen in E2. lia. }
    assert (VL : (if ext then rd16 data (pos + 1) else Some (or0 (get data (pos + 1)))) = Some (be_val (sub data (pos + 1) ls))).
    { subst ls. destruct ext; [apply rd16_ok; lia|]. destruct (idx_ok data (pos + 1) ltac:(lia)) as (b & _ & -> & ->). rewrite be_val_1. reflexivity. }
    rewrite VL. set (vl := be_val (sub data (pos + 1) ls)). destruct (nlen data <? pos + (1 + ls) + vl) eqn:E3; [apply parts_nil; lia|].
    eapply (parts_cons _ _ _ (1 + ls + vl)); [|replace (pos + (1 + ls + vl)) with (pos + (1 + ls) + vl) by lia; apply IH; lia].
    apply (one_tparts all (F "bgp.open.param")); [|reflexivity]. rewrite slice_ok by lia. cbn [rbind].
    replace (pos + (1 + ls) + vl - (pos + (1 + ls))) with vl by lia.
    eapply node_parts; [eassumption|eassumption|lia|eapply typed_shows; [eassumption|lia|reflexivity|reflexivity|reflexivity]| |reflexivity].
    eapply parts_cons; [num1|]. eapply parts_cons; [num|]. replace (pos + 1 + ls) with (pos + (1 + ls)) by lia.
    replace (base + pos + (1 + ls + vl)) with (base + (pos + (1 + ls)) + vl) by lia.
    destruct (t =? 2); [|apply tparts_parts; lf].
    pose proof (at_start _ _ _ (pos + (1 + ls)) vl (base + (pos + (1 + ls))) A ltac:(lia) eq_refl) as A2. unfold small in Sm. rewrite u32_small by lia.
    apply parts_start. pose proof (caps_parts all _ _ Sm A2 (S (length (sub data (pos + (1 + ls)) vl))) 0 ltac:(lia) ltac:(unfold nlen; lia)) as Q. rewrite sub_len in Q by lia. exact Q.
Qed.
Lemma open_node all base data : small all -> at_ all base data -> nodep all (F "bgp.open") base (base + nlen data) (dissect_open data base).
Proof.
  intros Sm A. unfold dissect_open. cbv zeta. rewrite <- (N.add_0_r base) at 1. rewrite <- (N.add_0_r base) at 2.
  eapply node_parts; [eassumption|eassumption|lia|exact I| |reflexivity]. rewrite (N.add_0_r base) at 2.
  destruct (nlen data <? 10) eqn:E. { destruct (nlen data =? 0) eqn:E0; [apply parts_nil; lia|]. eapply parts_weak; [apply tparts_parts; lf|lia|lia]. }
  destruct (idx_ok data 0 ltac:(lia)) as (v & -> & _ & Sv). destruct (idx_ok data 9 ltac:(lia)) as (ol & -> & _ & So). rewrite !word_ok by lia. rewrite slice_ok by lia. cbn [rbind].
  eapply parts_cons; [num1|]. eapply parts_cons; [num|]. eapply parts_cons; [num|]. eapply parts_cons; [oct|]. eapply parts_cons; [num1|].
  apply params_parts; auto; [lia|unfold nlen; lia].
Qed.
Lemma notification_node all base data : small all -> at_ all base data -> nodep all (F "bgp.notification") base (base + nlen data) (dissect_notification data base).
Proof.
  intros Sm A. unfold dissect_notification. cbv zeta. rewrite <- (N.add_0_r base) at 1. rewrite <- (N.add_0_r base) at 2.
  eapply node_tparts; [eassumption|eassumption|lia|exact I|]. rewrite (N.add_0_r base) at 2.
  destruct (nlen data =? 0) eqn:E0.
  { replace data with (@nil N) in * by (destruct data; [reflexivity|rewrite nlen_cons in E0; lia]). cbn. apply tparts_nil. lia. }
  destruct (idx_ok data 0 ltac:(lia)) as (c & _ & -> & Sc). eapply tparts_cons; [num1|]. rewrite N.add_0_l.
  destruct (2 <=? nlen data) eqn:E1.
  - destruct (idx_ok data 1 ltac:(lia)) as (s & -> & _ & Ss). cbn [rbind]. eapply tparts_cons; [num1|].
    destruct (2 <? nlen data) eqn:E2; [|apply tparts_nil; lia]. eapply tparts_eq; [lf|lia|lia].
  - replace (2 <? nlen data) with false by lia. apply tparts_nil. lia.
Qed.
Lemma refresh_node all base data : small all -> at_ all base data -> nodep all (F "bgp.route_refresh") base (base + nlen data) (dissect_route_refresh data base).
Proof.
  intros Sm A. unfold dissect_route_refresh. cbv zeta. rewrite <- (N.add_0_r base) at 1. rewrite <- (N.add_0_r base) at 2.
  destruct (4 <=? nlen data) eqn:E.
  - eapply node_tparts; [eassumption|eassumption|lia|exact I|]. rewrite (N.add_0_r base) at 2.
    rewrite rd16_ok by lia. destruct (idx_ok data 2 ltac:(lia)) as (s & -> & _ & Ss). destruct (idx_ok data 3 ltac:(lia)) as (t & -> & _ & St). cbn [rbind or0].
    eapply (tparts_cat _ _ (base + 4)). { eapply tparts_cons; [num|]. eapply tparts_cons; [num1|]. eapply tparts_eq; [num1|lia|lia]. }
    destruct (4 <? nlen data) eqn:E2; [|apply tparts_nil; lia]. eapply tparts_eq; [lf|lia|lia].
  - replace (4 <? nlen data) with false by lia. unfold cat. cbn [rbind app]. eapply node_at_ok; [eassumption|eassumption|lia|exact I|cbn [in_order]; lia|constructor|constructor|discriminate].
Qed.
(** ** Messages *)
Definition bgp_end (data : bytes) : N := if nlen data <? 19 then nlen data else 19 + N.min (be_val (sub data 16 2) - 19) (nlen data - 19).
Lemma bgp_end_le data : bgp_end data <= nlen data.
Proof. unfold bgp_end. destruct (nlen data <? 19) eqn:E; lia. Qed.
Lemma bgp_node all base data al ap : small all -> at_ all base data -> nodep all (F "bgp") base (base + bgp_end data) (dissect_bgp data base al ap).
Proof.
  intros Sm A. pose proof (at_len _ _ _ A) as AL. unfold dissect_bgp, bgp_end. cbv zeta. destruct (nlen data <? 19) eqn:E.
  { rewrite <- (N.add_0_r base) at 1. rewrite <- (N.add_0_r base) at 2. eapply node_parts; [eassumption|eassumption|lia|exact I| |reflexivity].
    destruct (nlen data =? 0) eqn:E0; [apply parts_nil; lia|]. apply tparts_parts. lf. }
  rewrite word_ok by lia. destruct (idx_ok data 18 ltac:(lia)) as (ty & -> & _ & Sy). cbn [rbind]. set (ln := be_val (sub data 16 2)).
  set (bl := N.min (ln - 19) (nlen data - 19)). rewrite !slice_ok by lia. cbn [rbind].
  replace (19 + bl - 19) with bl by lia.
  pose proof (at_start _ _ _ 19 bl (base + 19) A ltac:(lia) eq_refl) as A2.
  assert (HP : tparts all (base + 0) (base + 0 + 19) (one (ks <~ (leaf "bgp.header.marker" [if forallb (N.eqb 255) (sub data 0 (16 - 0)) then 1 else 0] base 0 16 +++
                       leaf "bgp.header.length" [ln] base 16 2 +++ leaf "bgp.header.type" [ty] base 18 1) ;;
                node_at (F "bgp.header") [] base 0 19 ks))).
  { apply (one_tparts all (F "bgp.header")); [|reflexivity]. eapply node_tparts; [eassumption|eassumption|lia|exact I|].
    eapply tparts_cons. { eapply leaf_ok; [eassumption|eassumption|lia| |reflexivity]. sh. rewrite sub_len by lia. auto. }
    eapply tparts_cons; [num|]. eapply tparts_eq; [num1|lia|lia]. }
  assert (BP : parts all (base + 19) (base + 19 + bl) (match ty with
            | 1 => one (dissect_open (sub data 19 bl) (base + 19))
            | 2 => one (dissect_update (sub data 19 bl) (base + 19) al ap)
            | 3 => one (dissect_notification (sub data 19 bl) (base + 19))
            | 4 => Ok []
            | 5 => one (dissect_route_refresh (sub data 19 bl) (base + 19))
            | _ => leaf "bgp.body" [] (base + 19) 0 (nlen (sub data 19 bl))
            end)).
  { assert (Lb : nlen (sub data 19 bl) = bl) by (apply sub_len; lia).
    assert (Q0 : parts all (base + 19) (base + 19 + bl) (leaf "bgp.body" [] (base + 19) 0 (nlen (sub data 19 bl)))).
    { rewrite Lb. eapply parts_weak; [apply tparts_parts; eapply leaf_ok; [eassumption|exact A2| |exact I|reflexivity]|lia|]; rewrite ?Lb; lia. }
    assert (Q1 : parts all (base + 19) (base + 19 + bl) (one (dissect_open (sub data 19 bl) (base + 19)))).
    { apply tparts_parts. rewrite <- Lb at 1. apply (one_tparts all (F "bgp.open")); [apply open_node; auto|reflexivity]. }
    assert (Q2 : parts all (base + 19) (base + 19 + bl) (one (dissect_update (sub data 19 bl) (base + 19) al ap))).
    { apply tparts_parts. rewrite <- Lb at 1. apply (one_tparts all (F "bgp.update")); [apply update_node; auto|reflexivity]. }
    assert (Q3 : parts all (base + 19) (base + 19 + bl) (one (dissect_notification (sub data 19 bl) (base + 19)))).
    { apply tparts_parts. rewrite <- Lb at 1. apply (one_tparts all (F "bgp.notification")); [apply notification_node; auto|reflexivity]. }
    assert (Q5 : parts all (base + 19) (base + 19 + bl) (one (dissect_route_refresh (sub data 19 bl) (base + 19)))).
    { apply tparts_parts. rewrite <- Lb at 1. apply (one_tparts all (F "bgp.route_refresh")); [apply refresh_node; auto|reflexivity]. }
    assert (Q4 : parts all (base + 19) (base + 19 + bl) (Ok [])) by (apply parts_nil; lia).
    repeat match goal with |- parts _ _ _ (match ?x with _ => _ end) => (is_var x; destruct x); try assumption end. }
  destruct HP as (lh & -> & Hh & Kh & Th). destruct BP as (lb & -> & Hb & Kb & Tb).
  assert (AS : forall name len v, aside_field (F name) = true -> shows (F name) (sub data (19 + bl) len) v -> 19 + bl + len <= nlen data -> (name = "bgp.truncated"%string -> len = 0) ->
     exists n, leaf name v base (19 + bl) len = Ok [n] /\ is_aside n = true /\ nd_off n = base + (19 + bl) /\ nd_kids n = [] /\ (nd_field n = F "bgp.truncated" -> nd_len n = 0) /\ all_ok all n).
  { intros name len v As Sv Ls Z. destruct (node_at_ok all base data (F name) v (19 + bl) len []) as (n & E1 & E2 & E3 & E4 & E5); auto.
    - cbn [in_order]. lia.
    - unfold is_full. cbn [nd_field nd_kids]. change (0 <? nlen (@nil node)) with false. rewrite andb_false_r. discriminate.
    - exists n. unfold leaf, one. rewrite E1. split; [reflexivity|]. unfold is_aside. rewrite E2. split; [auto|]. split; [auto|].
      unfold node_at in E1. destruct (base + u32 (19 + bl) <? 4294967296); [|discriminate]. injection E1 as <-. cbn [nd_kids nd_len]. split; [auto|]. split; [|auto].
      intros [= En]. rewrite (Z En). reflexivity. }
  assert (TR : exists lt, (if nlen data - 19 <? ln - 19 then leaf "bgp.truncated" [ln] base (19 + bl) 0 else Ok []) = Ok lt /\
     Forall (fun k => is_aside k = true /\ nd_off k = base + (19 + bl) /\ nd_kids k = [] /\ (nd_field k = F "bgp.truncated" -> nd_len k = 0) /\ all_ok all k) lt).
  { destruct (nlen data - 19 <? ln - 19); [|exists []; auto]. destruct (AS "bgp.truncated"%string 0 [ln]) as (n & -> & R); auto; [exact I|lia|]. exists [n]. split; [reflexivity|]. constructor; [exact R|constructor]. }
  assert (TL : exists lt, (if bl <? nlen data - 19 then leaf "bgp.trailing" [] base (19 + bl) (nlen data - 19 - bl) else Ok []) = Ok lt /\
     Forall (fun k => is_aside k = true /\ nd_off k = base + (19 + bl) /\ nd_kids k = [] /\ (nd_field k = F "bgp.truncated" -> nd_len k = 0) /\ all_ok all k) lt).
  { destruct (bl <? nlen data - 19) eqn:Eb; [|exists []; auto]. destruct (AS "bgp.trailing"%string (nlen data - 19 - bl) []) as (n & -> & R); auto; [exact I|lia|discriminate|]. exists [n]. split; [reflexivity|]. constructor; [exact R|constructor]. }
  destruct TR as (l1 & -> & F1). destruct TL as (l2 & -> & F2). unfold cat. cbn [rbind].
  rewrite <- (N.add_0_r base) at 1. replace (base + (19 + bl)) with (base + 0 + (19 + bl)) by lia.
  assert (FA : forall l, Forall (fun k => is_aside k = true /\ nd_off k = base + (19 + bl) /\ nd_kids k = [] /\ (nd_field k = F "bgp.truncated" -> nd_len k = 0) /\ all_ok all k) l -> proper l = []).
  { unfold proper. induction 1 as [|k l (H & _) _ IH]; [reflexivity|]. cbn [filter]. rewrite H. exact IH. }
  assert (FF : forall l, Forall (fun k => is_aside k = true /\ nd_off k = base + (19 + bl) /\ nd_kids k = [] /\ (nd_field k = F "bgp.truncated" -> nd_len k = 0) /\ all_ok all k) l -> Forall (all_ok all) l).
  { intros l Q. eapply Forall_impl; [|exact Q]. cbn beta. tauto. }
  assert (FG : forall l, Forall (fun k => is_aside k = false) l -> Forall (fun k => is_aside k = true -> F "bgp" = F "bgp" /\ nd_off k = base + 0 + (19 + bl) /\ nd_kids k = [] /\ (nd_field k = F "bgp.truncated" -> nd_len k = 0)) l).
  { intros l Q. eapply Forall_impl; [|exact Q]. cbn beta. intros k E1 E2. rewrite E1 in E2. discriminate. }
  assert (FH : forall l, Forall (fun k => is_aside k = true /\ nd_off k = base + (19 + bl) /\ nd_kids k = [] /\ (nd_field k = F "bgp.truncated" -> nd_len k = 0) /\ all_ok all k) l ->
     Forall (fun k => is_aside k = true -> F "bgp" = F "bgp" /\ nd_off k = base + 0 + (19 + bl) /\ nd_kids k = [] /\ (nd_field k = F "bgp.truncated" -> nd_len k = 0)) l).
  { intros l Q. eapply Forall_impl; [|exact Q]. cbn beta. intros k (E1 & E2 & E3 & E4 & _) _. rewrite N.add_0_r. auto. }
  eapply node_at_gen; [eassumption|eassumption|lia|exact I| | | |].
  - rewrite !proper_app, (FA l1 F1), (FA l2 F2), app_nil_r, !proper_all by auto. cbn [app].
    eapply in_order_app; [apply tiles_order; exact Hh|]. eapply in_order_weak; [exact Hb|lia|lia].
  - repeat (apply Forall_app; split); auto.
  - repeat (apply Forall_app; split); auto.
  - discriminate.
Qed.
(** ** BGP4MP *)
Lemma read_asn_ok data pos asz : (asz = 2 \/ asz = 4) -> pos + asz <= nlen data -> read_asn data pos asz = be_val (sub data pos asz).
Proof.
  intros [-> | ->] L; unfold read_asn; cbn [N.eqb Pos.eqb]; [rewrite rd16_ok by lia; reflexivity|].
  destruct (idx_ok data pos ltac:(lia)) as (a & _ & -> & Sa). destruct (idx_ok data (pos + 1) ltac:(lia)) as (b & _ & -> & Sb).
  destruct (idx_ok data (pos + 2) ltac:(lia)) as (c & _ & -> & Sc). destruct (idx_ok data (pos + 3) ltac:(lia)) as (d & _ & -> & Sd).
  cbn [or0]. change 4 with (1 + (1 + (1 + 1))). rewrite !sub_split. replace (pos + 1 + 1) with (pos + 2) by lia. replace (pos + 2 + 1) with (pos + 3) by lia.
  rewrite Sa, Sb, Sc, Sd. reflexivity.
Qed.
Lemma walk_parts all base data pos : small all -> at_ all base data -> pos <= nlen data ->
  exists l o, walk_addresses data base pos = Ok (l, o) /\ Forall (all_ok all) l /\ Forall (fun k => is_aside k = false) l /\
    match o with None => in_order (base + pos) (base + nlen data) l | Some q => q <= nlen data /\ pos <= q /\ in_order (base + pos) (base + q) l end.
Proof.
  intros Sm A L. unfold walk_addresses. cbv zeta. destruct (nlen data <? pos + 4) eqn:E.
  { assert (Q : tparts all (base + pos) (base + pos + (nlen data - pos)) (leaf "mrt.bgp4mp.truncated" [] base pos (nlen data - pos))) by lf.
    destruct Q as (l & -> & T & K & S). exists l, None. cbn [rbind]. split; [reflexivity|]. split; [auto|]. split; [auto|].
    replace (base + nlen data) with (base + pos + (nlen data - pos)) by lia. apply tiles_order. exact T. }
  rewrite !rd16_ok by lia. cbn [or0].
  assert (H : tparts all (base + pos) (base + (pos + 4)) (leaf "mrt.bgp4mp.interface_index" [be_val (sub data pos 2)] base pos 2 +++ leaf "mrt.bgp4mp.afi" [be_val (sub data (pos + 2) 2)] base (pos + 2) 2)).
  { eapply tparts_cons; [num|]. eapply tparts_eq; [num|lia|lia]. }
  destruct H as (h & -> & T & K & S). cbn [rbind]. set (afi := be_val (sub data (pos + 2) 2)).
  assert (NN : exists l o, (ks <~ leaf "mrt.bgp4mp.addresses" [afi] base (pos + 4) (nlen data - (pos + 4)) ;; Ok (h ++ ks, @None N)) = Ok (l, o) /\ Forall (all_ok all) l /\ Forall (fun k => is_aside k = false) l /\
    match o with None => in_order (base + pos) (base + nlen data) l | Some q => q <= nlen data /\ pos <= q /\ in_order (base + pos) (base + q) l end).
  { assert (Q : tparts all (base + (pos + 4)) (base + (pos + 4) + (nlen data - (pos + 4))) (leaf "mrt.bgp4mp.addresses" [afi] base (pos + 4) (nlen data - (pos + 4)))) by lf.
    destruct Q as (l & -> & T' & K' & S'). exists (h ++ l), None. cbn [rbind]. split; [reflexivity|]. split; [apply Forall_app; auto|]. split; [apply Forall_app; auto|].
    eapply in_order_app; [apply tiles_order; exact T|]. replace (base + nlen data) with (base + (pos + 4) + (nlen data - (pos + 4))) by lia. apply tiles_order. exact T'. }
  assert (SS : forall al, exists l o, (if nlen data <? pos + 4 + 2 * al then ks <~ leaf "mrt.bgp4mp.truncated" [] base (pos + 4) (nlen data - (pos + 4)) ;; Ok (h ++ ks, None) else
      a <~ slice data (pos + 4) (pos + 4 + al) ;; b <~ slice data (pos + 4 + al) (pos + 4 + al + al) ;;
      ks <~ (leaf "mrt.bgp4mp.peer_ip" a base (pos + 4) al +++ leaf "mrt.bgp4mp.local_ip" b base (pos + 4 + al) al) ;;
      Ok (h ++ ks, Some (pos + 4 + al + al))) = Ok (l, o) /\ Forall (all_ok all) l /\ Forall (fun k => is_aside k = false) l /\
    match o with None => in_order (base + pos) (base + nlen data) l | Some q => q <= nlen data /\ pos <= q /\ in_order (base + pos) (base + q) l end).
  { intros al. destruct (nlen data <? pos + 4 + 2 * al) eqn:E2.
    - assert (Q : tparts all (base + (pos + 4)) (base + (pos + 4) + (nlen data - (pos + 4))) (leaf "mrt.bgp4mp.truncated" [] base (pos + 4) (nlen data - (pos + 4)))) by lf.
      destruct Q as (l & -> & T' & K' & S'). exists (h ++ l), None. cbn [rbind]. split; [reflexivity|]. split; [apply Forall_app; auto|]. split; [apply Forall_app; auto|].
      eapply in_order_app; [apply tiles_order; exact T|]. replace (base + nlen data) with (base + (pos + 4) + (nlen data - (pos + 4))) by lia. apply tiles_order. exact T'.
    - rewrite !slice_ok by lia. cbn [rbind]. replace (pos + 4 + al - (pos + 4)) with al by lia. replace (pos + 4 + al + al - (pos + 4 + al)) with al by lia.
      assert (Q : tparts all (base + (pos + 4)) (base + (pos + 4 + al + al)) (leaf "mrt.bgp4mp.peer_ip" (sub data (pos + 4) al) base (pos + 4) al +++ leaf "mrt.bgp4mp.local_ip" (sub data (pos + 4 + al) al) base (pos + 4 + al) al)).
      { eapply tparts_cons; [oct|]. eapply tparts_eq; [oct|lia|lia]. }
      destruct Q as (l & -> & T' & K' & S'). exists (h ++ l), (Some (pos + 4 + al + al)). cbn [rbind]. split; [reflexivity|]. split; [apply Forall_app; auto|]. split; [apply Forall_app; auto|].
      split; [lia|]. split; [lia|]. eapply in_order_app; apply tiles_order; eassumption. }
  destruct afi as [|[p|[p|p|]|]]; auto.
Qed.
Lemma states_parts all base data pos : small all -> at_ all base data -> pos + 4 <= nlen data -> parts all (base + pos) (base + nlen data) (states data base pos).
Proof.
  intros Sm A L. unfold states. rewrite !rd16_ok by lia. cbn [or0]. eapply parts_cons; [num|]. eapply parts_weak; [apply tparts_parts; num|lia|lia].
Qed.
Lemma bgp4mp_node all base data st : small all -> at_ all base data -> nodep all (F "mrt.bgp4mp") base (base + nlen data) (dissect_bgp4mp data base st).
Proof.
  intros Sm A. pose proof (at_len _ _ _ A) as AL. unfold dissect_bgp4mp. cbv zeta.
  set (asz := if existsb (N.eqb st) [4; 5; 7; 9; 11] then 4 else 2). assert (Az : asz = 2 \/ asz = 4) by (subst asz; destruct existsb; auto).
  set (al := if existsb _ _ then Bits32 else Bits16). set (ap := (8 <=? st) && _). set (msg := negb ((st =? 0) || (st =? 5))).
  rewrite <- (N.add_0_r base) at 1. rewrite <- (N.add_0_r base) at 2. eapply node_parts; [eassumption|eassumption|lia|exact I| |reflexivity]. rewrite (N.add_0_r base) at 2.
  assert (MS : forall q, q <= nlen data -> parts all (base + q) (base + nlen data) (one (dissect_bgp (sub data q (nlen data - q)) (base + u32 q) al ap))).
  { intros q Lq. unfold small in Sm. rewrite u32_small by lia. pose proof (at_start _ _ _ q (nlen data - q) (base + q) A ltac:(lia) eq_refl) as A2.
    pose proof (bgp_end_le (sub data q (nlen data - q))) as Be. rewrite sub_len in Be by lia.
    eapply parts_weak; [apply tparts_parts; apply (one_tparts all (F "bgp")); [apply bgp_node; [exact Sm|exact A2]|reflexivity]|lia|lia]. }
  destruct (nlen data <? 2 * asz) eqn:E; [eapply parts_weak; [apply tparts_parts; lf|lia|lia]|].
  rewrite !read_asn_ok by (auto; lia). eapply parts_cons; [num|]. rewrite N.add_0_l. eapply parts_cons; [num|]. replace (asz + asz) with (2 * asz) by lia.
  rewrite slice_ok by lia. cbn [rbind]. set (rest := sub data (2 * asz) (nlen data - 2 * asz)).
  assert (MB : exists b : bool, (if 16 <=? nlen rest then s <~ slice rest 0 16 ;; Ok (forallb (N.eqb 255) s) else Ok false) = Ok b).
  { destruct (16 <=? nlen rest) eqn:E2; [|eauto]. rewrite slice_ok by lia. cbn [rbind]. eauto. }
  destruct MB as (b & ->). cbn [rbind]. destruct b.
  { replace (base + 2 * asz) with (base + 2 * asz + 0) by lia. eapply parts_cat; [apply tparts_parts; eapply tparts_eq; [lf|lia|reflexivity]|]. rewrite N.add_0_r. apply MS. lia. }
  destruct (negb msg && (asz =? 2) && (nlen data =? 8)) eqn:E3; [apply states_parts; auto; lia|].
  destruct (walk_parts all base data (2 * asz) Sm A ltac:(lia)) as (l & o & -> & K & S & O). cbn [rbind]. destruct o as [q|]; [|exists l; auto].
  destruct O as (Q1 & Q2 & O). eapply (parts_cat _ _ (base + q)); [exists l; auto|]. destruct msg.
  - rewrite slice_ok by lia. cbn [rbind]. apply MS. lia.
  - destruct (nlen data <? q + 4) eqn:E4; [|apply states_parts; auto; lia]. eapply parts_weak; [apply tparts_parts; lf|lia|lia].
Qed.
Lemma mrt_node data : small data -> nodep data (F "mrt") 0 (nlen data) (dissect_mrt_bytes data).
Proof.
  intros Sm. pose proof (at_self data) as A. unfold dissect_mrt_bytes. cbv zeta. destruct (nlen data <? 12) eqn:E.
  { change (nodep data (F "mrt") (0 + 0) (0 + 0 + nlen data) (ks <~ (if nlen data =? 0 then Ok [] else leaf "mrt.header" [] 0 0 (nlen data));; node_at (F "mrt") [] 0 0 (nlen data) ks)).
    eapply node_tparts; [eassumption|eassumption|lia|exact I|]. destruct (nlen data =? 0) eqn:E0; [apply tparts_nil; lia|]. lf. }
  rewrite !rd16_ok, !word_ok by lia. cbn [or0 rbind]. set (ty := be_val (sub data 4 2)). set (st := be_val (sub data 6 2)).
  set (et := (ty =? 17) || (ty =? 33) || (ty =? 49)). set (hl := if et then 16 else 12).
  assert (HS : tparts data (0 + 0) (0 + 0 + N.min hl (nlen data)) (leaf "mrt.header.timestamp" [be_val (sub data 0 4)] 0 0 4 +++ leaf "mrt.header.type" [ty] 0 4 2 +++
                  leaf "mrt.header.subtype" [st] 0 6 2 +++ leaf "mrt.header.length" [be_val (sub data 8 4)] 0 8 4 +++
                  (if et then
                     if 16 <=? nlen data then us <~ word 4 data 12 ;; leaf "mrt.header.microsecond" [us] 0 12 4
                     else leaf "mrt.header.microsecond" [] 0 12 (nlen data - 12)
                   else Ok []))).
  { eapply tparts_cons; [num|]. eapply tparts_cons; [num|]. eapply tparts_cons; [num|]. eapply tparts_cons; [num|].
    subst hl. destruct et; [|apply tparts_nil; lia]. destruct (16 <=? nlen data) eqn:E2.
    - rewrite word_ok by lia. cbn [rbind]. eapply tparts_eq; [eapply leaf_ok; [eassumption|eassumption| | |reflexivity]|lia|]; [lia| |lia]. sh. left. rewrite sub_len by lia. auto.
    - eapply tparts_eq; [eapply leaf_ok; [eassumption|eassumption| | |reflexivity]|lia|]; [lia| |lia]. sh. right. rewrite sub_len by lia. split; [auto|lia]. }
  destruct HS as (hs & -> & T & K & S). cbn [rbind].
  change (nodep data (F "mrt") (0 + 0) (0 + 0 + nlen data) (ks <~ (one (node_at (F "mrt.header") [] 0 0 (N.min hl (nlen data)) hs) +++
           (if et && (nlen data <? 16) then Ok []
            else
              body <~ slice data hl (nlen data) ;;
              if nlen body =? 0 then Ok []
              else if (ty =? 16) || (ty =? 17) then one (dissect_bgp4mp body hl st)
              else leaf "mrt.body" [] hl 0 (nlen body)));; node_at (F "mrt") [] 0 0 (nlen data) ks)).
  eapply node_tparts; [eassumption|eassumption|lia|exact I|].
  eapply (tparts_cat _ _ (0 + 0 + N.min hl (nlen data))).
  { apply (one_tparts data (F "mrt.header")); [|reflexivity]. eapply node_at_ok; [eassumption|eassumption|lia|exact I|apply tiles_order; exact T|exact K|exact S|auto]. }
  destruct (et && (nlen data <? 16)) eqn:E2; [apply tparts_nil; subst hl; destruct et; [lia|discriminate]|].
  assert (Hl : hl <= nlen data) by (subst hl; destruct et; [cbn [andb] in E2|]; lia).
  rewrite slice_ok by lia. cbn [rbind]. rewrite sub_len by lia. destruct (nlen data - hl =? 0) eqn:E3; [apply tparts_nil; lia|].
  destruct ((ty =? 16) || (ty =? 17)); [|eapply tparts_eq; [|reflexivity|reflexivity]].
  - pose proof (at_start _ _ _ hl (nlen data - hl) hl A ltac:(lia) eq_refl) as A2. pose proof (bgp4mp_node data hl _ st Sm A2) as B. rewrite sub_len in B by lia.
    eapply tparts_eq; [apply (one_tparts data (F "mrt.bgp4mp")); [exact B|reflexivity]|lia|lia].
  - pose proof (at_start _ _ _ hl (nlen data - hl) hl A ltac:(lia) eq_refl) as A2. eapply tparts_eq; [eapply leaf_ok; [eassumption|exact A2| |exact I|reflexivity]|lia|]; [rewrite sub_len; lia|lia].
Qed.
