(** Properties C44, C71: the RIB encoder and the updates encoder. *)
From Coq Require Import Lia Permutation Floats.SpecFloat.
From Verif Require Import Base BaseFacts Net NetSpec AsPath AsPathSpec Community CommunitySpec Attr AttrSpec BgpMsg Bgp4mp TableDump TableDumpSpec TableDumpFacts Stream Framing MrtRecord Elem ElemSpec
  Bmp Filter Iter IterSpec PropFilter PropTime PropElem Encoder EncoderSpec EncoderFacts.

(** ** C44: what is exported reads as one peer table, with one peer for each address fed, and
    one record for each prefix fed, whose entries refer to those peers and are made from the
    last element fed for that peer and prefix.  [o] is any order in which the maps may be
    iterated.  The vocabulary is in EncoderSpec. *)
Theorem C44_records l rs x o b x' st : feed rib_new l = (rs, x) -> iteration (rn_map x) o -> rib_export x o = (Ok b, x') ->
  Forall fed_ok (accepted rs l) -> ids_agree (accepted rs l) -> sized x o -> no_fail st -> sbytes st = b ->
  exists h t nets recs, reads st (map inl (MrtRecord h (MrtV2 (V2Peers t)) :: recs)) /\
    peers_of (accepted rs l) t /\ NoDup nets /\
    (forall n, In n nets <-> exists f, In f (accepted rs l) /\ of_net n f) /\ Forall2 (rib_for (accepted rs l) t) nets recs.
Proof.
  intros F IT E FO IA SZ NF ES. destruct (dump_all l rs x o b x' st F IT E FO IA SZ NF ES) as (_ & h & t & nets & recs & A & B & C & D & G & _).
  exists h, t, nets, recs. auto.
Qed.
Print Assumptions C44_records.
(** The elements a parser gives for the export: one for each peer and prefix fed, [dumped] from
    the last element fed for them. *)
Theorem C44_elems show l rs x o b x' p : feed rib_new l = (rs, x) -> iteration (rn_map x) o -> rib_export x o = (Ok b, x') ->
  Forall fed_ok (accepted rs l) -> ids_agree (accepted rs l) -> sized x o ->
  pr_text p = None -> no_fail (pr_stream p) -> sbytes (pr_stream p) = b ->
  exists k els, (forall fuel, (k <= fuel)%nat -> elem_list show fuel (unfiltered p) = Ok els) /\ NoDup (map route_of els) /\
    forall e, In e els <-> exists i n g f, first_such (from_peer i) (accepted rs l) g /\ last_such (of_route i n) (accepted rs l) f /\ e = dumped (snd g) (snd f).
Proof.
  intros F IT E FO IA SZ T NF ES. destruct (dump_all l rs x o b x' (pr_stream p) F IT E FO IA SZ NF ES) as (_ & h & t & nets & recs & A & _ & _ & _ & _ & B & C).
  destruct (clean_elems show p _ T A) as (_ & k & K). exists k, (flat_map elems_of (annotate None (MrtRecord h (MrtV2 (V2Peers t)) :: recs))). split; [exact K|]. split; [exact B|exact C].
Qed.
Print Assumptions C44_elems.
(** Exports of at most 16 MiB have only records that small. *)
Theorem C44_sized x o b x' : rib_export x o = (Ok b, x') -> nlen b <= 12 + 16777216 -> sized x o.
Proof.
  unfold rib_export, sized. destruct (append_all (rib_parts x o)) as [c| |] eqn:A; try discriminate. intros H L. injection H as -> _. apply append_all_ok in A as (xs & F & ->).
  induction F as [|r y rs ys E F IH]; [constructor|]. cbn [concat] in L. rewrite nlen_app in L. constructor; [|apply IH; lia]. intros z Z. rewrite E in Z. apply ok_inj in Z. subst z. lia.
Qed.
Print Assumptions C44_sized.
(** Every element is accepted, except that of a new peer when 65535 peers are known; then the
    peers and routes kept are unchanged. *)
Theorem C44_answers l rs x four e r x' : feed rib_new l = (rs, x) -> rib_process x four e = (r, x') ->
  exists ips, NoDup ips /\ (forall i, In i ips <-> exists f, In f (accepted rs l) /\ from_peer i f) /\ (nlen ips <= 65535) /\
  ((r = Ok tt /\ (In (e_peer e) ips \/ nlen ips < 65535)) \/
   (r = Err EEncTooLarge /\ ~ In (e_peer e) ips /\ nlen ips = 65535 /\ rn_table x' = rn_table x /\ rn_map x' = rn_map x)).
Proof.
  intros F E. destruct (feed_inv l rib_new [] rs x inv_new F) as (I & _ & _). cbn [app] in I. destruct (process_answer x _ four e r x' I E) as (ips & A & B & C & D).
  pose proof max_peers_val. exists ips. unfold nlen. split; auto. split; auto. split; [lia|]. destruct D as [(D1 & [D2|D2])|(D1 & D2 & D3 & D4)]; [left; auto|left; split; [auto|right; lia]|right].
  split; auto. split; auto. split; [lia|auto].
Qed.
Print Assumptions C44_answers.
(** Exporting never panics; with success it empties the encoder, otherwise it leaves it as it
    was. *)
Theorem C44_export l x o r x' : history l x -> iteration (rn_map x) o -> rib_export x o = (r, x') ->
  r <> Panic /\ (forall b, r = Ok b -> x' = rib_new) /\ (forall e, r = Err e -> x' = x).
Proof.
  intros H IT E. apply history_feed in H as (rs & F). destruct (feed_inv l rib_new [] rs x inv_new F) as (I & _ & _). pose proof (rib_export_np x _ o I IT) as NP.
  unfold rib_export in E. destruct (append_all (rib_parts x o)); injection E as <- <-; repeat split; auto; discriminate.
Qed.
Print Assumptions C44_export.
(** After any history of calls the encoder is one fed only with the elements since it was made
    or last exported with success, to which the theorems above apply. *)
Theorem C44_history l x : history l x -> exists rs, feed rib_new l = (rs, x).
Proof. exact (history_feed l x). Qed.
Print Assumptions C44_history.

(** Two peers, one IPv6; two prefixes, one IPv6; one route fed twice. *)
Definition route (t : N) (pi : ip) (pa : N) (n : ipnet) (h : ip) (p : list N) : elem :=
  Elem (f64_of_N t) Announce pi pa None (Pfx n None) (Some h) (Some [Seg KSeq p]) None (Some IGP) None (Some 5)
    (Some [MLarge (Large 1 2 3); MPlain (CCustom 1 2)]) true (Some 70000) None None (Some [(99, [1; 2])]) None.
Definition p4a : ip := V4 0xC0000201.
Definition p6a : ip := V6 (N.shiftl 0x20010db8 96 + 1).
Definition n4a : ipnet := Net (V4 0x0a000000) 8.
Definition n6a : ipnet := Net (V6 (N.shiftl 0x20010db8 96)) 32.
Definition ex_feed : list fed :=
  [(true, route 1000 p4a 65001 n4a (V4 7) [65001; 3]); (false, route 1001 p6a 65002 n4a (V4 8) [65002; 4]);
   (true, route 1002 p4a 65001 n6a (V6 9) [65001; 70001]); (true, route 1003 p4a 65009 n4a (V4 10) [65001; 5])].
(** The order the lists are in. *)
Definition own_order (x : rib_encoder) : list (ipnet * list rib_entry) := map (fun p => (fst p, map snd (snd p))) (rn_map x).
Lemma own_order_ok x : iteration (rn_map x) (own_order x).
Proof. exists (rn_map x). split; [auto|]. unfold own_order. induction (rn_map x) as [|a l IH]; [constructor|]. constructor; auto. Qed.
Definition exported (l : list fed) : res bytes * rib_encoder := let x := snd (feed rib_new l) in rib_export x (own_order x).
Definition reread_elems (b : bytes) : option (list elem) :=
  match elem_list show_nothing 50 (Parser [Data b] [] false None None) with Ok l => Some l | _ => None end.
Lemma route_fed_ok four t pi pa n h p : net_ok n -> wire_exact n -> ip_ok pi -> pa < 2 ^ 32 -> (four = false -> pa < 2 ^ 16) -> ip_ok h -> afi_of_ip h = afi_of_ip (net_addr n) ->
  Forall (fun a => a < 2 ^ 32) p -> nlen p < 256 -> p <> [] -> fed_ok (four, route t pi pa n h p).
Proof.
  intros Hn Hw Hi Ha Hf Hh Fa Hp Lp Np. split; [|exact Hf]. cbn [snd]. split; [split; [exact Hn|exact I]|]. split; [exact Hw|]. split; [exact Hi|]. split; [exact Ha|]. intros _. cbn [route e_hop e_path e_pref e_med e_otc e_aggr_asn e_aggr_ip e_comms e_unknown e_depr].
  split; [exists h; auto|]. split. { intros q E. injection E as <-. constructor; [|constructor]. split; [unfold nlen in Lp; cbn [s_asns]; change asn with N in *; lia|exact Hp]. }
  repeat (split; [cbn; lia|]). split; [|split].
  - intros q E. injection E as <-. repeat constructor; cbn; lia.
  - intros q E. injection E as <-. constructor; [|constructor]. cbn [fst snd]. split; [repeat constructor|]. split; [lia|]. repeat split; intros X; vm_compute in X; intuition discriminate.
  - discriminate.
Qed.

Lemma ex_nets : Forall (fun n => net_ok n /\ wire_exact n) [n4a; n6a].
Proof. repeat (constructor; [split; [vm_compute; split; [reflexivity|discriminate]|vm_compute; reflexivity]|]). constructor. Qed.
Example C44_ex : exists rs x b, feed rib_new ex_feed = (rs, x) /\ rs = repeat (Ok tt) 4 /\ accepted rs ex_feed = ex_feed /\
  Forall fed_ok ex_feed /\ ids_agree ex_feed /\ iteration (rn_map x) (own_order x) /\ rib_export x (own_order x) = (Ok b, rib_new) /\ sized x (own_order x) /\
  reread_elems b = Some [dumped (route 1000 p4a 65001 n4a (V4 7) [65001; 3]) (route 1003 p4a 65009 n4a (V4 10) [65001; 5]);
                         dumped (route 1001 p6a 65002 n4a (V4 8) [65002; 4]) (route 1001 p6a 65002 n4a (V4 8) [65002; 4]);
                         dumped (route 1000 p4a 65001 n4a (V4 7) [65001; 3]) (route 1002 p4a 65001 n6a (V6 9) [65001; 70001])].
Proof.
  do 3 eexists. split; [vm_compute; reflexivity|]. split; [reflexivity|]. split; [reflexivity|]. split; [|split; [|split; [apply own_order_ok|split; [vm_compute; reflexivity|split; [eapply C44_sized; [vm_compute; reflexivity|]; vm_compute; discriminate|vm_compute; reflexivity]]]]].
  - pose proof ex_nets as E. inversion E as [|? ? [E1 E2] E3]; subst. inversion E3 as [|? ? [E4 E5] _]; subst. clear E E3.
    repeat (constructor; [apply route_fed_ok; try assumption; try reflexivity; try discriminate; repeat constructor|]). constructor.
  - intros f g Hf Hg _. cbn [ex_feed In] in Hf, Hg. repeat (destruct Hf as [<-|Hf]; [repeat (destruct Hg as [<-|Hg]; [reflexivity|]); destruct Hg|]). destruct Hf.
Qed.
(** Findings.  A value of more than 255 octets, as that of a path of 64 hops, cannot be
    exported: attributes are written with a one-octet length; the encoder stays full. *)
Definition long_route : elem := route 1000 p4a 65001 n4a (V4 7) (repeat 70000 64).
Theorem C44_long_path_refuted : exists l rs x r, Forall fed_ok l /\ ids_agree l /\ feed rib_new l = (rs, x) /\ rs = [Ok tt] /\
  rib_export x (own_order x) = (Err r, x) /\ rn_map x <> [].
Proof.
  exists [(true, long_route)]. do 3 eexists. split; [|split; [|split; [vm_compute; reflexivity|split; [reflexivity|split; [vm_compute; reflexivity|discriminate]]]]].
  - pose proof ex_nets as E. inversion E as [|? ? [E1 E2] _]; subst. constructor; [|constructor]. apply route_fed_ok; try assumption; try reflexivity; try discriminate.
    apply Forall_forall. intros a Ha. apply repeat_spec in Ha. subst a. reflexivity.
  - intros f g [<-|[]] [<-|[]] _. reflexivity.
Qed.
Print Assumptions C44_long_path_refuted.
(** A withdrawal fed after an announcement is read back as an announcement. *)
Definition withdrawal (t : N) (pi : ip) (pa : N) (n : ipnet) : elem :=
  Elem (f64_of_N t) Withdraw pi pa None (Pfx n None) None None None None None None None false None None None None None.
Theorem C44_withdrawal_refuted : exists b e, fst (exported [(true, route 1000 p4a 65001 n4a (V4 7) [65001]); (true, withdrawal 1001 p4a 65001 n4a)]) = Ok b /\
  reread_elems b = Some [e] /\ e_type e = Announce /\ e_prefix e = Pfx n4a None /\ e_path e = None.
Proof. do 2 eexists. split; [vm_compute; reflexivity|]. split; [vm_compute; reflexivity|]. repeat split. Qed.
Print Assumptions C44_withdrawal_refuted.
(** Routes with and without path identifier for one prefix: the export succeeds and reads back
    without one of them. *)
Definition with_id (i : N) (e : elem) : elem :=
  Elem (e_time e) (e_type e) (e_peer e) (e_asn e) (e_id e) (Pfx (p_net (e_prefix e)) (Some i)) (e_hop e) (e_path e) (e_origins e) (e_origin e) (e_pref e) (e_med e)
    (e_comms e) (e_atomic e) (e_aggr_asn e) (e_aggr_ip e) (e_otc e) (e_unknown e) (e_depr e).
Definition read_routes (r : res bytes) : option (list (ip * ipnet)) :=
  match r with Ok b => option_map (map route_of) (reread_elems b) | _ => None end.
Theorem C44_mixed_ids_refuted : exists b, fst (exported [(true, with_id 3 (route 1000 p4a 65001 n4a (V4 7) [65001])); (true, route 1001 p6a 65002 n4a (V4 8) [65002])]) = Ok b /\
  read_routes (Ok b) <> Some [(p4a, n4a); (p6a, n4a)] /\ read_routes (Ok b) <> Some [(p6a, n4a); (p4a, n4a)].
Proof. eexists. split; [vm_compute; reflexivity|]. split; vm_compute; discriminate. Qed.
Print Assumptions C44_mixed_ids_refuted.
(** Two paths of one peer to one prefix, told apart by their identifiers: only the last is
    kept. *)
Theorem C44_paths_refuted : exists b e, fst (exported [(true, with_id 1 (route 1000 p4a 65001 n4a (V4 7) [65001; 3])); (true, with_id 2 (route 1000 p4a 65001 n4a (V4 7) [65001; 4]))]) = Ok b /\
  reread_elems b = Some [e] /\ e_path e = Some [Seg KSeq [65001; 4]].
Proof. do 2 eexists. split; [vm_compute; reflexivity|]. split; vm_compute; reflexivity. Qed.
Print Assumptions C44_paths_refuted.

(** ** C71: the updates encoder: the export reads as one BGP4MP record for each element, in
    order. *)
Theorem C71_records l b x' st : Forall log_ok l -> updates_export (fold_left updates_process l []) = (Ok b, x') -> no_fail st -> sbytes st = b ->
  exists recs, reads st (map inl recs) /\ Forall2 logs l recs.
Proof.
  intros F E NF ES. assert (Q : forall l a, fold_left updates_process l a = a ++ l) by (clear; induction l as [|e l IH]; intros a; cbn; [symmetry; apply app_nil_r|]; rewrite IH; unfold updates_process; rewrite <- app_assoc; reflexivity).
  rewrite Q in E. destruct (updates_file l b x' st F E NF ES) as (_ & recs & A & B & _). eauto.
Qed.
Print Assumptions C71_records.
(** The elements a parser gives are those fed, as [logged]. *)
Theorem C71_elems show l b x' p : Forall log_ok l -> updates_export (fold_left updates_process l []) = (Ok b, x') ->
  pr_text p = None -> no_fail (pr_stream p) -> sbytes (pr_stream p) = b ->
  exists k, forall fuel, (k <= fuel)%nat -> elem_list show fuel (unfiltered p) = Ok (map logged l).
Proof.
  intros F E T NF ES. assert (Q : forall l a, fold_left updates_process l a = a ++ l) by (clear; induction l as [|e l IH]; intros a; cbn; [symmetry; apply app_nil_r|]; rewrite IH; unfold updates_process; rewrite <- app_assoc; reflexivity).
  rewrite Q in E. destruct (updates_file l b x' _ F E NF ES) as (_ & recs & A & _ & B). destruct (clean_elems show p recs T A) as (_ & k & K). exists k. intros fuel Hf. rewrite K, B by auto. reflexivity.
Qed.
Print Assumptions C71_elems.
(** Times that are whole microseconds come back with at most one microsecond missing. *)
Theorem C71_time e h : time_ok h -> e_time e = record_time h -> let us := match h_us h with Some us => us | None => 0 end in
  e_time (logged e) = record_time (Hdr (h_ts h) (Some us) 17 4 0) \/ 0 < us /\ e_time (logged e) = record_time (Hdr (h_ts h) (Some (us - 1)) 17 4 0).
Proof.
  intros T E. cbv zeta. unfold logged. rewrite E. destruct (C70_back h T) as [->|[P ->]]; [left|right; split; auto]; reflexivity.
Qed.
Print Assumptions C71_time.
(** Exporting never panics; with success it empties the encoder, otherwise it leaves it as it
    was. *)
Theorem C71_export x r x' : updates_export x = (r, x') -> r <> Panic /\ (forall b, r = Ok b -> x' = []) /\ (forall e, r = Err e -> x' = x).
Proof.
  intros E. assert (NP : append_all (map elem_record x) <> Panic) by (apply append_np; apply Forall_map, Forall_forall; intros; apply elem_record_np).
  unfold updates_export in E. destruct (append_all (map elem_record x)); injection E as <- <-; repeat split; auto; discriminate.
Qed.
Print Assumptions C71_export.
Definition ex_log : list elem :=
  [route 1000 p4a 65001 n4a (V4 7) [65001; 70000]; withdrawal 1001 p6a 70002 n6a; route 1002 p4a 65001 n6a (V4 9) []; route 1000 p4a 65001 n4a (V4 7) [65001; 70000]].
Example C71_ex : Forall log_ok ex_log /\ exists b, updates_export (fold_left updates_process ex_log []) = (Ok b, []) /\ reread_elems b = Some (map logged ex_log).
Proof.
  split; [|eexists; split; [vm_compute; reflexivity|vm_compute; reflexivity]]. pose proof ex_nets as E. inversion E as [|? ? [E1 E2] E3]; subst. inversion E3 as [|? ? [E4 E5] _]; subst. clear E E3.
  assert (R : forall t n h p, net_ok n -> wire_exact n -> h < 2 ^ 32 -> Forall (fun a => a < 2 ^ 32) p -> nlen p < 256 -> log_ok (route t p4a 65001 n (V4 h) p)).
  { intros t n h p Hn Hw Hh Hp Lp. split; [|reflexivity]. split; [split; [exact Hn|exact I]|]. split; [exact Hw|]. split; [reflexivity|]. split; [reflexivity|]. intros _.
    cbn [route e_hop e_path e_pref e_med e_otc e_aggr_asn e_aggr_ip e_comms e_unknown e_depr].
    split; [exists (V4 h); auto|]. split. { intros q E. injection E as <-. constructor; [|constructor]. split; [unfold nlen in Lp; cbn [s_asns]; change asn with N in *; lia|exact Hp]. }
    repeat (split; [cbn; lia|]). split; [|split].
    - intros q E. injection E as <-. repeat constructor; cbn; lia.
    - intros q E. injection E as <-. constructor; [|constructor]. cbn [fst snd]. split; [repeat constructor|]. split; [lia|]. repeat split; intros X; vm_compute in X; intuition discriminate.
    - discriminate. }
  constructor; [apply R; try assumption; try reflexivity; repeat constructor|].
  constructor; [|constructor; [|constructor; [|constructor]]]; try (apply R; try assumption; try reflexivity; repeat constructor).
  split; [|reflexivity]. split; [split; [exact E4|exact I]|]. split; [exact E5|]. split; [vm_compute; reflexivity|]. split; [reflexivity|]. discriminate.
Qed.
(** Findings.  An IPv6 next hop is written into a NEXT_HOP attribute and read back as the IPv4
    address of its first four octets. *)
Theorem C71_ipv6_hop_refuted : exists e b e', e_hop e = Some p6a /\ updates_export [e] = (Ok b, []) /\ reread_elems b = Some [e'] /\ e_hop e' = Some (V4 0x20010db8).
Proof. exists (route 1000 p4a 65001 n6a p6a [65001]). do 2 eexists. split; [reflexivity|]. split; [vm_compute; reflexivity|]. split; [vm_compute; reflexivity|reflexivity]. Qed.
Print Assumptions C71_ipv6_hop_refuted.
(** An element with a path identifier is written in a record without ADD-PATH and read back as
    other prefixes. *)
Theorem C71_path_id_refuted : exists e b, updates_export [e] = (Ok b, []) /\ e_prefix e = Pfx n4a (Some 0x08141400) /\
  option_map (map e_prefix) (reread_elems b) <> Some [Pfx n4a (Some 0x08141400)] /\ option_map (map e_prefix) (reread_elems b) <> Some [Pfx n4a None].
Proof. exists (with_id 0x08141400 (route 1000 p4a 65001 n4a (V4 7) [65001])). eexists. split; [vm_compute; reflexivity|]. split; [reflexivity|]. split; vm_compute; discriminate. Qed.
Print Assumptions C71_path_id_refuted.
(** One long path makes the export fail, for good. *)
Theorem C71_long_path_refuted : exists l r, log_ok long_route /\ l = [route 1 p4a 65001 n4a (V4 7) [65001]; long_route] /\ updates_export l = (Err r, l).
Proof.
  do 2 eexists. split; [|split; [reflexivity|vm_compute; reflexivity]]. pose proof ex_nets as E. inversion E as [|? ? [E1 E2] _]; subst.
  split; [|reflexivity]. destruct (route_fed_ok true 1000 p4a 65001 n4a (V4 7) (repeat 70000 64)) as [H _]; try assumption; try reflexivity; try discriminate.
  apply Forall_forall. intros a Ha. apply repeat_spec in Ha. subst a. reflexivity.
Qed.
Print Assumptions C71_long_path_refuted.
