(** C07-C13 and C47: AS paths. *)
From Coq Require Import Permutation Sorting.Sorted Lia.
From Verif Require Import Base BaseFacts Net AsPath AsPathSpec AsPathFacts AsPathUnitsSpec AsPathUnitsFacts.

Definition p1 : aspath := [Seg KSeq [100; 200]; Seg KSet [7; 3; 70000]; Seg KCSeq [64512]].

(** C07: every path whose segments hold at most 255 AS numbers of the chosen
    width is encoded, and decoding the result gives the same path. *)
Theorem C07_aspath_roundtrip :
  forall l p, Forall (wire_seg l) p ->
  exists b, encode_as_path l p = Ok b /\ parse_as_path b l = Ok p.
Proof. exact path_roundtrip. Qed.
Print Assumptions C07_aspath_roundtrip.
Example C07_aspath_roundtrip_ex : Forall (wire_seg Bits32) p1.
Proof. repeat constructor; simpl; lia. Qed.

(** C07: encoding fails exactly when some segment is too long or some AS number
    does not fit the chosen width; it never panics and never truncates. *)
Theorem C07_aspath_encode_error_iff :
  forall l p, asn32 p ->
  ((exists e, encode_as_path l p = Err e) <-> ~ Forall (wire_seg l) p).
Proof.
  intros l p H. rewrite <- (encode_path_fails l p H). split.
  - intros [e He] b Hb. congruence.
  - intros Hn. destruct (encode_as_path l p) as [b|e|] eqn:E.
    + elim (Hn b eq_refl).
    + eauto.
    + elim (encode_path_np l p E).
Qed.
Print Assumptions C07_aspath_encode_error_iff.
Example C07_aspath_encode_error_ex :
  encode_as_path Bits16 p1 = Err EEncTooLarge /\ encode_as_path Bits32 [Seg KSet (repeat 1 256)] = Err EEncTooLarge.
Proof. split; vm_compute; reflexivity. Qed.

(** C08: decoding accepts only well-formed paths and loses nothing: whatever is
    accepted re-encodes to exactly the bytes read. *)
Theorem C08_aspath_parse_exact :
  forall l s p, bytes_ok s -> parse_as_path s l = Ok p ->
  encode_as_path l p = Ok s /\ Forall (wire_seg l) p.
Proof. exact (fun l s p Hs H => path_parse_inv l s p H Hs). Qed.
Print Assumptions C08_aspath_parse_exact.
Example C08_aspath_parse_exact_ex :
  parse_as_path [2; 2; 0; 100; 0; 200; 1; 1; 0; 9] Bits16 = Ok [Seg KSeq [100; 200]; Seg KSet [9]].
Proof. vm_compute. reflexivity. Qed.

(** C08: everything else is an error, never a panic. *)
Theorem C08_aspath_parse_total :
  forall l s, bytes_ok s ->
  (forall p, Forall (wire_seg l) p -> encode_as_path l p <> Ok s) ->
  exists e, parse_as_path s l = Err e.
Proof.
  intros l s Hs H. destruct (parse_as_path s l) as [p|e|] eqn:E.
  - apply path_parse_inv in E as [H1 H2]; auto. elim (H p H2 H1).
  - eauto.
  - elim (parse_as_path_np s l E).
Qed.
Print Assumptions C08_aspath_parse_total.
Example C08_aspath_parse_total_ex :
  parse_as_path [5; 1; 0; 9] Bits16 = Err EParse /\ parse_as_path [2; 2; 0; 9] Bits16 = Err ETrunc.
Proof. split; vm_compute; reflexivity. Qed.

(** C09: RFC 6793 reconstruction.  When AS4_PATH has more hops than AS_PATH the
    AS_PATH is kept; otherwise the result has AS_PATH's leading hops followed by
    AS4_PATH's hops, as many in total as AS_PATH has. *)
Theorem C09_as4_longer_is_ignored :
  forall p q, (length (hops p) < length (hops q))%nat -> merge_aspath_as4path p q = Ok p.
Proof.
  intros p q H. pose proof (merge_as4_spec p q) as S.
  destruct (Nat.ltb_spec (length (hops p)) (length (hops q))); [exact S|lia].
Qed.
Print Assumptions C09_as4_longer_is_ignored.
Theorem C09_as4_merge_hops :
  forall p q, (length (hops q) <= length (hops p))%nat ->
  exists m, merge_aspath_as4path p q = Ok m /\
    hops m = firstn (length (hops p) - length (hops q)) (hops p) ++ hops q /\
    length (hops m) = length (hops p) /\
    (exists lead rest, tagged p = lead ++ rest /\ tagged m = lead ++ tagged q).
Proof.
  intros p q H. pose proof (merge_as4_spec p q) as S.
  destruct (Nat.ltb_spec (length (hops p)) (length (hops q))); [lia|].
  destruct S as (m & H1 & H2 & H3 & _). exists m. repeat split; auto.
  rewrite H2, app_length, firstn_length. lia.
Qed.
Print Assumptions C09_as4_merge_hops.
Example C09_as4_merge_ex :
  merge_aspath_as4path [Seg KSeq [1; 2; 23456; 23456]] [Seg KSeq [70000; 80000]] = Ok [Seg KSeq [1; 2; 70000; 80000]].
Proof. vm_compute. reflexivity. Qed.

(** C09, finding: RFC 6793 4.2.3 asks that a leading confederation segment of
    AS_PATH be kept; when both paths have the same number of hops it is
    dropped. *)
Theorem C09_leading_confed_kept_refuted :
  exists p q m, length (hops p) = length (hops q) /\ merge_aspath_as4path p q = Ok m /\
    (exists c p', p = Seg KCSeq c :: p' /\ c <> []) /\ ~ (exists c m', m = Seg KCSeq c :: m').
Proof.
  exists [Seg KCSeq [64512]; Seg KSeq [23456]], [Seg KSeq [70000]], [Seg KSeq [70000]].
  split; [reflexivity|]. split; [reflexivity|]. split.
  - eexists _, _. split; [reflexivity|discriminate].
  - intros (c & m' & H). discriminate.
Qed.
Print Assumptions C09_leading_confed_kept_refuted.

(** C09, finding: two paths that came off the wire can merge into a path that
    can no longer be encoded (one segment of more than 255 AS numbers). *)
Theorem C09_merged_path_encodes_refuted :
  exists p q m, Forall (wire_seg Bits16) p /\ Forall (wire_seg Bits32) q /\
    merge_aspath_as4path p q = Ok m /\ encode_as_path Bits32 m = Err EEncTooLarge.
Proof.
  exists [Seg KSeq (repeat 1 200); Seg KSeq (repeat 1 200)], [Seg KSeq (repeat 2 100)],
         [Seg KSeq (repeat 1 300 ++ repeat 2 100)].
  split; [|split; [|split]].
  - repeat constructor; try (apply Nat.leb_le; reflexivity).
  - repeat constructor; try (apply Nat.leb_le; reflexivity).
  - vm_compute. reflexivity.
  - vm_compute. reflexivity.
Qed.
Print Assumptions C09_merged_path_encodes_refuted.

(** C10: coalescing keeps every AS number in order with its segment kind, keeps
    all set segments, keeps the hops (hence the route length), leaves no two
    adjacent segments that could be joined, and does nothing the second time. *)
Theorem C10_coalesce_lossless :
  forall p, tagged (coalesce p) = tagged p /\ sets (coalesce p) = sets p /\
            hops (coalesce p) = hops p /\ route_len (coalesce p) = length (hops p).
Proof.
  intros p. repeat split; [apply coalesce_tagged | apply coalesce_sets | apply coalesce_hops |].
  rewrite route_len_hops, coalesce_hops. reflexivity.
Qed.
Print Assumptions C10_coalesce_lossless.
Theorem C10_coalesce_minimal : forall p, Sorted irreducible (coalesce p).
Proof. exact coalesce_irreducible. Qed.
Print Assumptions C10_coalesce_minimal.
Theorem C10_coalesce_idempotent : forall p, coalesce (coalesce p) = coalesce p.
Proof. exact coalesce_idem. Qed.
Print Assumptions C10_coalesce_idempotent.
(** C10: the in-place vector loop computes this, whatever value a merge leaves
    behind in the scanned slot. *)
Theorem C10_vector_loop_is_fold :
  forall junk p, coalesce_vec plain_merge junk (length p) 0 1 p = coalesce p.
Proof. exact coalesce_vec_eq. Qed.
Print Assumptions C10_vector_loop_is_fold.
Example C10_ex : coalesce [Seg KSeq [1]; Seg KSeq []; Seg KSeq [1; 2]; Seg KSet [4; 3]; Seg KCSeq []; Seg KSeq [5]]
  = [Seg KSeq [1; 1; 2]; Seg KSet [4; 3]; Seg KSeq [5]].
Proof. reflexivity. Qed.

(** C11: dedup_coalesce neither invents nor loses an AS number and is idempotent. *)
Theorem C11_dedup_coalesce_members :
  forall p a, In a (asns (dedup_coalesce p)) <-> In a (asns p).
Proof. exact (fun p a => dedup_coalesce_in a p). Qed.
Print Assumptions C11_dedup_coalesce_members.
Theorem C11_dedup_coalesce_idempotent : forall p, dedup_coalesce (dedup_coalesce p) = dedup_coalesce p.
Proof. exact dedup_coalesce_idem. Qed.
Print Assumptions C11_dedup_coalesce_idempotent.
Theorem C11_vector_loop_is_fold :
  forall junk p, coalesce_vec dedup_merge_in_place junk (length p) 0 1 (dedup_first p) = dedup_coalesce p.
Proof. exact dedup_coalesce_vec_eq. Qed.
Print Assumptions C11_vector_loop_is_fold.
(** C11: equivalent routing is an equivalence relation ... *)
Theorem C11_equivalent_routing_equivalence :
  (forall p, has_equivalent_routing p p = true) /\
  (forall p q, has_equivalent_routing p q = true -> has_equivalent_routing q p = true) /\
  (forall p q r, has_equivalent_routing p q = true -> has_equivalent_routing q r = true ->
                 has_equivalent_routing p r = true).
Proof. exact (conj equiv_routing_refl (conj equiv_routing_sym equiv_routing_trans)). Qed.
Print Assumptions C11_equivalent_routing_equivalence.
(** ... blind to prepending, to the order of a set and to how a sequence is cut
    into segments, ... *)
Theorem C11_equivalent_routing_ignores :
  forall pre suf,
  (forall k l1 a l2, k = KSeq \/ k = KCSeq ->
     has_equivalent_routing (pre ++ Seg k (l1 ++ a :: a :: l2) :: suf) (pre ++ Seg k (l1 ++ a :: l2) :: suf) = true) /\
  (forall k l l', k = KSet \/ k = KCSet -> Permutation l l' ->
     has_equivalent_routing (pre ++ Seg k l :: suf) (pre ++ Seg k l' :: suf) = true) /\
  (forall k l1 l2, k = KSeq \/ k = KCSeq ->
     has_equivalent_routing (pre ++ Seg k l1 :: Seg k l2 :: suf) (pre ++ Seg k (l1 ++ l2) :: suf) = true).
Proof.
  intros pre suf. split; [|split]; intros.
  - apply prepend_ignored; assumption.
  - apply set_order_ignored; assumption.
  - apply split_ignored; assumption.
Qed.
Print Assumptions C11_equivalent_routing_ignores.
(** ... but not to the AS numbers on the path. *)
Theorem C11_equivalent_routing_same_members :
  forall p q, has_equivalent_routing p q = true -> forall a, In a (asns p) <-> In a (asns q).
Proof.
  intros p q H a. unfold has_equivalent_routing in H. rewrite path_eqb_equiv in H.
  rewrite <- (dedup_coalesce_in a p), <- (dedup_coalesce_in a q).
  unfold asns. induction H as [|x y l l' Hxy _ IH]; [tauto|]. cbn [flat_map]. rewrite !in_app_iff, IH.
  assert (E : In a (s_asns x) <-> In a (s_asns y)).
  { destruct Hxy as [_ Hxy]. destruct (s_kind x); try (rewrite Hxy; tauto);
      split; apply Permutation_in; auto; symmetry; auto. }
  tauto.
Qed.
Print Assumptions C11_equivalent_routing_same_members.
(** The steps of the result are the steps of the path without repetitions: order, sets and
    confederation membership are kept, and nothing else is dropped. *)
Theorem C11_dedup_coalesce_units : forall p, units (dedup_coalesce p) = squeeze (units p).
Proof. exact dedup_coalesce_units. Qed.
Print Assumptions C11_dedup_coalesce_units.
(** Paths with any step at all are equivalent exactly when these are the same. *)
Theorem C11_equivalent_routing_exact : forall p q, units p <> [] -> (has_equivalent_routing p q = true <-> squeeze (units p) = squeeze (units q)).
Proof. exact equiv_routing_units. Qed.
Print Assumptions C11_equivalent_routing_exact.
(** Finding: two paths without any step need not be equivalent. *)
Theorem C11_no_steps_refuted : exists p q, units p = [] /\ units q = [] /\ has_equivalent_routing p q = false.
Proof. exists [], [Seg KSeq []]. repeat split. Qed.
Print Assumptions C11_no_steps_refuted.
Example C11_ex_units : units [Seg KSeq [1; 1; 2]; Seg KCSet [7; 7]; Seg KCSeq [7; 8]; Seg KSet [5; 4; 5]] =
    [Single false 1; Single false 1; Single false 2; Single true 7; Single true 7; Single true 8; Several false [4; 5]] /\
  units (dedup_coalesce [Seg KSeq [1; 1; 2]; Seg KCSet [7; 7]; Seg KCSeq [7; 8]; Seg KSet [5; 4; 5]]) =
    [Single false 1; Single false 2; Single true 7; Single true 8; Several false [4; 5]].
Proof. split; reflexivity. Qed.
Example C11_ex : has_equivalent_routing [Seg KSeq [1; 1; 2]; Seg KSeq [2; 3]; Seg KSet [5; 4]] [Seg KSeq [1; 2; 3]; Seg KSet [4; 5; 5]] = true
  /\ has_equivalent_routing [Seg KSeq [1; 2]] [Seg KSeq [2; 1]] = false.
Proof. split; reflexivity. Qed.

(** C12: [==] on paths: same segments, sequences in order, sets up to order. *)
Theorem C12_path_equality : forall p q, path_eqb p q = true <-> path_equiv p q.
Proof. exact path_eqb_equiv. Qed.
Print Assumptions C12_path_equality.
Theorem C12_path_equality_equivalence :
  (forall p, path_eqb p p = true) /\
  (forall p q, path_eqb p q = true -> path_eqb q p = true) /\
  (forall p q r, path_eqb p q = true -> path_eqb q r = true -> path_eqb p r = true).
Proof.
  repeat split; intros *; rewrite !path_eqb_equiv.
  - apply path_equiv_refl.
  - apply path_equiv_sym.
  - apply path_equiv_trans.
Qed.
Print Assumptions C12_path_equality_equivalence.
(** C12: equal paths feed the same values to the hasher. *)
Theorem C12_equal_paths_hash_equal : forall p q, path_eqb p q = true -> path_hash p = path_hash q.
Proof. intros p q H. apply path_hash_equiv, path_eqb_equiv, H. Qed.
Print Assumptions C12_equal_paths_hash_equal.
Example C12_ex : path_eqb [Seg KSet [3; 1; 2; 1]] [Seg KSet [1; 1; 2; 3]] = true
  /\ path_eqb [Seg KSet [1; 2; 2]] [Seg KSet [1; 1; 2]] = false /\ path_eqb [Seg KSeq [1; 2]] [Seg KSeq [2; 1]] = false.
Proof. repeat split; reflexivity. Qed.

(** C13: the route iterator yields exactly the routes through the path, the
    first set varying fastest, as many as announced. *)
Theorem C13_routes_are_all_choices :
  forall p rs, iter_routes p = Ok rs ->
  rs = all_routes p /\ num_route_variations p = Ok (nlen rs) /\
  (forall r, In r rs <-> is_route p r) /\ (forall r, In r rs -> length r = route_len p).
Proof.
  intros p rs H. apply iter_routes_spec in H as [-> H]. repeat split; auto; try apply in_all_routes.
  intros r Hr. apply is_route_length, in_all_routes, Hr.
Qed.
Print Assumptions C13_routes_are_all_choices.
(** C13: iteration succeeds as long as the number of choices fits 64 bits. *)
Theorem C13_routes_defined :
  forall p, set_product p < 2 ^ 64 -> (forall l, In (Seg KSet l) p -> l <> []) ->
  exists rs, iter_routes p = Ok rs /\ nlen rs = set_product p.
Proof.
  intros p H Hne. assert (E : num_route_variations p = Ok (set_product p)).
  { unfold num_route_variations. rewrite variations_np; auto. f_equal; lia. lia. }
  destruct (iter_routes p) as [rs| |] eqn:Ei.
  - exists rs. split; auto. apply iter_routes_spec in Ei as [_ Ei]. congruence.
  - unfold iter_routes in Ei. rewrite E in Ei. discriminate.
  - unfold iter_routes in Ei. rewrite E in Ei. discriminate.
Qed.
Print Assumptions C13_routes_defined.
Example C13_ex : iter_routes [Seg KSeq [1; 2]; Seg KSet [3; 4]; Seg KCSeq [9]; Seg KSet [5; 6]] =
  Ok [[1; 2; 3; 5]; [1; 2; 4; 5]; [1; 2; 3; 6]; [1; 2; 4; 6]].
Proof. vm_compute. reflexivity. Qed.
(** C13, finding: a path of nine 255-member sets, which the wire format carries,
    overflows the 64-bit count (panic in debug builds, wrong count otherwise);
    and a path with an empty AS_SET has no route at all. *)
Theorem C13_variation_count_overflow_refuted :
  exists p, Forall (wire_seg Bits16) p /\ num_route_variations p = Panic.
Proof.
  exists (repeat (Seg KSet (repeat 1 255)) 9). split.
  - apply Forall_forall. intros s Hs. apply repeat_spec in Hs. subst. split; [apply Nat.leb_le; reflexivity|].
    apply Forall_forall. intros x Hx. apply repeat_spec in Hx. subst. reflexivity.
  - vm_compute. reflexivity.
Qed.
Print Assumptions C13_variation_count_overflow_refuted.
Theorem C13_empty_set_has_no_route_refuted :
  exists p, Forall (wire_seg Bits16) p /\ iter_routes p = Ok [] /\ get_collector_opt p = Some 1.
Proof. exists [Seg KSeq [1]; Seg KSet []]. repeat split; repeat constructor; simpl; lia. Qed.
Print Assumptions C13_empty_set_has_no_route_refuted.

(** C47: the origin is reported exactly when it is unique. *)
Theorem C47_origin_unique : forall p a, get_origin_opt p = Some a <-> iter_origins p = [a].
Proof. exact origin_iff. Qed.
Print Assumptions C47_origin_unique.
(** C47: the origins are the last hops of the routes. *)
Theorem C47_origins_are_last_hops :
  forall p, (forall l, In (Seg KSet l) p -> l <> []) -> iter_origins p <> [] ->
  forall a, In a (iter_origins p) <-> exists r, is_route p r /\ last_opt r = Some a.
Proof.
  intros p Hne Ho a. split.
  - apply origins_complete; auto.
  - intros (r & Hr & Hl). destruct (origins_sound _ _ Hr Ho) as (b & Hb & Hi). congruence.
Qed.
Print Assumptions C47_origins_are_last_hops.
(** C47: the collector AS is the first hop of every route. *)
Theorem C47_collector_is_first_hop :
  forall p a r, get_collector_opt p = Some a -> is_route p r -> exists r', r = a :: r'.
Proof. exact collector_first. Qed.
Print Assumptions C47_collector_is_first_hop.
(** C47: the flat list of AS numbers is available exactly when every segment is
    a sequence or a one-member set, and then it is the path's only route. *)
Theorem C47_flat_path_iff :
  forall p v, to_u32_vec_opt false p = Some v <->
  v = asns p /\ v <> [] /\ Forall (fun s => s_kind s = KSeq \/ (s_kind s = KSet /\ exists a, s_asns s = [a])) p.
Proof. exact to_u32_iff. Qed.
Print Assumptions C47_flat_path_iff.
Theorem C47_flat_path_is_the_route :
  forall p v, to_u32_vec_opt false p = Some v -> forall r, is_route p r <-> r = v.
Proof.
  intros p v H r. apply to_u32_iff in H as (-> & _ & H). rewrite <- in_all_routes, plain_routes by assumption.
  simpl. split; [intros [<-|[]]; reflexivity|auto].
Qed.
Print Assumptions C47_flat_path_is_the_route.
Theorem C47_contains_asn : forall p a, contains_asn p a = true <-> In a (asns p).
Proof. exact contains_asn_iff. Qed.
Print Assumptions C47_contains_asn.
(** C47: the required width is two bytes exactly when every AS number fits. *)
Theorem C47_required_width : forall p, required_asn_length p = Bits16 <-> Forall (fun a => a <= 65535) (asns p).
Proof. exact required_len_iff. Qed.
Print Assumptions C47_required_width.
Example C47_ex : get_origin_opt [Seg KSeq [1; 2]; Seg KSet [9]] = Some 9 /\ iter_origins [Seg KSeq [1]; Seg KSet [9; 8]] = [9; 8]
  /\ get_collector_opt p1 = Some 100 /\ to_u32_vec_opt false [Seg KSeq [1; 2]; Seg KSet [9]] = Some [1; 2; 9]
  /\ to_u32_vec_opt false p1 = None /\ required_asn_length p1 = Bits32.
Proof. repeat split; reflexivity. Qed.
