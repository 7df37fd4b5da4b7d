(** C31, C32, C60: filters. *)
From Coq Require Import Lia Permutation String.
From Verif Require Import Base BaseFacts Net NetSpec AsPath Community Attr Elem Text Filter FilterSpec FilterFacts FilterKeysFacts PropElem.
Local Open Scope string_scope. Local Open Scope list_scope. Local Open Scope N_scope.

(** ** C31.  Each filter matches exactly the elements that meet what it asks ([holds]). *)
Theorem C31_filter_meaning show e f : match_filter show (VElem e) f = true <-> holds show e f.
Proof. exact (elem_matches show e f). Qed.
Print Assumptions C31_filter_meaning.
Theorem C31_conjunction show e l : match_filters show (VElem e) l = true <-> Forall (holds show e) l.
Proof.
  rewrite (filters_all show (VElem e) l), Forall_forall. split; intros H f I; [apply elem_matches|apply (elem_matches show e f)]; auto.
Qed.
Print Assumptions C31_conjunction.
Theorem C31_order show v l l' : Permutation l l' -> match_filters show v l = match_filters show v l'.
Proof.
  unfold match_filters. induction 1 as [|f l l2 P IH|f g l|l1 l2 l3 P1 IH1 P2 IH2]; cbn [forallb]; try congruence.
  destruct (match_filter show v f), (match_filter show v g); reflexivity.
Qed.
Print Assumptions C31_order.
Theorem C31_negation show e f : match_filter show (VElem e) (FNegated f) = negb (match_filter show (VElem e) f).
Proof. reflexivity. Qed.
Print Assumptions C31_negation.
(** A filter on several values is the disjunction of the filters on one, for elements and
    routes alike. *)
Theorem C31_multi show v :
  (forall l, match_filter show v (FOriginAsns l) = true <-> exists a, In a l /\ match_filter show v (FOriginAsn a) = true) /\
  (forall l t, match_filter show v (FPrefixes l t) = true <-> exists p, In p l /\ match_filter show v (FPrefix p t) = true) /\
  (forall l, match_filter show v (FPeerIps l) = true <-> exists i, In i l /\ match_filter show v (FPeerIp i) = true) /\
  (forall l, match_filter show v (FPeerAsns l) = true <-> exists a, In a l /\ match_filter show v (FPeerAsn a) = true).
Proof. destruct v; cbn [match_filter is_full_elem_view negb andb is_elem_only_filter]; repeat split; rewrite ?existsb_exists; auto. Qed.
Print Assumptions C31_multi.
(** On routes, filters on the fields routes have agree with the same filters on the element. *)
Theorem C31_route_agrees show e f : needs_elem f = false -> e_origins e = option_map iter_origins (e_path e) ->
  match_filter show (VRoute (project e)) f = match_filter show (VElem e) f.
Proof. exact (route_agrees show e f). Qed.
Print Assumptions C31_route_agrees.
(** Filters on other fields, and their negations, match no route. *)
Theorem C31_route_closed show r f : is_elem_only_filter f = true ->
  match_filter show (VRoute r) f = false /\ match_filter show (VRoute r) (FNegated f) = false.
Proof. exact (route_closed show r f). Qed.
Print Assumptions C31_route_closed.
Definition ex_elem : elem :=
  Elem (f64_of_N 1000) Announce (V4 7) 64500 None ex_p1 (Some (V4 9)) (Some [Seg KSeq [1; 2]; Seg KSet [3; 4]]) (Some [3; 4]) (Some IGP)
    (Some 100) (Some 0) (Some [MPlain CNoExport; MLarge (Large 1 2 3)]) true None None None None None.
Definition show_nothing (_ : meta_community) : bytes := [].
Example C31_ex :
  match_filters show_nothing (VElem ex_elem)
    [FOriginAsns [9; 4]; FNegated (FPeerAsn 1); FPrefix (Net (V4 0x0a010000) 16) MSuper; FTsStart (f64_of_N 1000); FTsEnd (f64_of_N 1000);
     FAsPath (bytes_eqb (str "1 2 {3,4}")); FAtomic true; FNegated (FPresent PfAggrIp); FIpVersion Ipv4; FType Announce] = true /\
  match_filters show_nothing (VElem ex_elem) [FOriginAsns [9; 4]; FNegated (FOriginAsn 4)] = false /\
  needs_elem (FNegated (FOriginAsns [1])) = false /\ e_origins ex_elem = option_map iter_origins (e_path ex_elem).
Proof. repeat split; vm_compute; reflexivity. Qed.
(** Finding: under two negations a filter on a field that routes lack matches every route,
    whatever it asks; on the element it does not. *)
Theorem C31_double_negation_refuted : exists f, match_filter show_nothing (VElem ex_elem) (FNegated (FNegated f)) = false /\
  match_filter show_nothing (VRoute (project ex_elem)) (FNegated (FNegated f)) = true /\ match_filter show_nothing (VRoute (project ex_elem)) f = false.
Proof. exists (FMed 5). repeat split; vm_compute; reflexivity. Qed.
Print Assumptions C31_double_negation_refuted.

(** ** C32: prefix filters, on prefixes without host bits. *)
Theorem C32_prefix_filter show e m t : net_ok m -> net_ok (p_net (e_prefix e)) -> canonical m -> canonical (p_net (e_prefix e)) ->
  match_filter show (VElem e) (FPrefix m t) = true <->
  let i := p_net (e_prefix e) in
  match t with MExact => i = m | MSuper => contains i m | MSub => contains m i | MSuperSub => contains i m \/ contains m i end.
Proof. intros A B C D. apply (prefix_contains m (p_net (e_prefix e)) t A B C D). Qed.
Print Assumptions C32_prefix_filter.
(** [contains] is inclusion of address sets. *)
Theorem C32_contains big small : net_ok big -> net_ok small ->
  contains big small <->
  is_v4 (net_addr big) = is_v4 (net_addr small) /\
  let w := net_width (net_addr big) in
  forall a, a < 2 ^ w -> a / 2 ^ (w - net_len small) = ip_val (net_addr small) / 2 ^ (w - net_len small) ->
            a / 2 ^ (w - net_len big) = ip_val (net_addr big) / 2 ^ (w - net_len big).
Proof. exact (contains_addresses big small). Qed.
Print Assumptions C32_contains.
Theorem C32_families show e m t : is_v4 (net_addr m) <> is_v4 (net_addr (p_net (e_prefix e))) -> match_filter show (VElem e) (FPrefix m t) = false.
Proof.
  intros H. destruct (match_filter show (VElem e) (FPrefix m t)) eqn:E; [|reflexivity]. apply elem_matches in E. cbn [holds] in E.
  exfalso. unfold prefix_holds, range_in in E. destruct E as [E|E]; [congruence|]. destruct t; [auto|..]; intuition congruence.
Qed.
Print Assumptions C32_families.
Definition p4 (a l : N) : ipnet := Net (V4 a) l.
Example C32_ex :
  prefix_match (p4 0x0a010000 16) (p4 0x0a000000 8) MSuper = true /\ prefix_match (p4 0x0a010000 16) (p4 0x0a000000 8) MSub = false /\
  prefix_match (p4 0x0a010000 16) (p4 0x0a010200 24) MSub = true /\ prefix_match (p4 0x0a010000 16) (p4 0x0a020000 16) MSuperSub = false /\
  prefix_match (p4 0 0) (p4 0xffffffff 32) MSub = true /\ prefix_match (Net (V6 0) 0) (p4 0 0) MSuperSub = false /\
  canonical (p4 0x0a010000 16) /\ net_ok (p4 0x0a010000 16).
Proof. repeat split; vm_compute; try reflexivity. discriminate. Qed.
(** Finding: with host bits, which neither the parser of filters nor that of RIB and table
    dump prefixes removes, none of the four holds. *)
Theorem C32_host_bits_refuted :
  (exists m i, net_ok m /\ net_ok i /\ contains m i /\ contains i m /\ prefix_match m i MExact = false) /\
  (exists m i, net_ok m /\ net_ok i /\ canonical i /\ contains m i /\ prefix_match m i MSub = false /\ prefix_match m i MSuperSub = false) /\
  (exists m i, net_ok m /\ net_ok i /\ canonical i /\ ~ contains i m /\ prefix_match m i MSuper = true).
Proof.
  split; [exists (p4 0x0a000001 8), (p4 0x0a000002 8)|split; [exists (p4 0x0a000101 8), (p4 0x0a000000 24)|exists (p4 0x0a0000ff 24), (p4 0x0a0000ff 32)]];
    unfold net_ok, ip_ok, contains, canonical; cbn; change (2 ^ 32) with 4294967296.
  - repeat split; try lia; vm_compute; reflexivity.
  - repeat split; try lia; vm_compute; reflexivity.
  - split; [lia|]. split; [lia|]. split; [vm_compute; reflexivity|]. split; [|vm_compute; reflexivity]. intros (_ & H & _). lia.
Qed.
Print Assumptions C32_host_bits_refuted.

(** ** C60: filters given as text.  An exclamation mark negates, once; times cannot be
    negated. *)
Theorem C60_negation ps ty v : one_of ty multi_value = false -> one_of ty time_keys = false -> hd_error v <> Some 33 ->
  filter_new ps ty (33 :: v) = option_map FNegated (filter_new ps ty v).
Proof. exact (new_negated ps ty v). Qed.
Print Assumptions C60_negation.
Theorem C60_refused ps ty v :
  (one_of ty multi_value = false -> filter_new ps ty (33 :: 33 :: v) = None) /\
  (one_of ty time_keys = true -> filter_new ps ty (33 :: v) = None).
Proof. split; [apply new_double|apply new_time]. Qed.
Print Assumptions C60_refused.
(** Every textual filter that is accepted asks what its keyword says, and every filter that the
    list of keywords allows is accepted. *)
Theorem C60_keywords show ps t v :
  (forall k P, t = str k -> asks show ps k v P -> exists f, filter_new ps t v = Some f /\ forall e, match_filter show (VElem e) f = true <-> P e) /\
  (forall f, filter_new ps t v = Some f -> exists k P, t = str k /\ asks show ps k v P /\ forall e, match_filter show (VElem e) f = true <-> P e).
Proof. split; [intros k P -> A; exact (asks_new show ps k v P A)|intros f; exact (new_asks show ps t v f)]. Qed.
Print Assumptions C60_keywords.
Example C60_keywords_ex show : let ps := Parsers (fun _ => None) (fun _ => None) (fun _ => None) (fun _ => None) (fun s => option_map f64_of_N (parse_u32 s)) in
  asks show ps "end_ts" (str "1500") (fun e => f64_le (e_time e) (f64_of_N 1500)) /\
  asks show ps "type" (str "!w") (fun e => ~ e_type e = Withdraw) /\ asks show ps "otc" (str "!*") (fun e => ~ present (e_otc e)).
Proof.
  cbn zeta. split; [apply a_single; [eapply s_end; [right; left; reflexivity|reflexivity]|discriminate|discriminate]|].
  split; [|apply a_not_star; constructor]. apply (a_not_single show _ "type" (str "w")); [apply s_withdraw; left; reflexivity|discriminate|discriminate|].
  cbn [In]. intuition discriminate.
Qed.
(** A list is accepted exactly when it has a value and all its values are readable and
    equally negated; blanks and empty parts do not count. *)
Theorem C60_lists {A} (p : bytes -> option A) s l n :
  parse_list p s = Some (l, n) <-> l <> [] /\ Forall2 (valued p n) (list_parts s) l.
Proof. exact (list_iff p s l n). Qed.
Print Assumptions C60_lists.
Theorem C60_parts l : l <> [] -> Forall (fun s => s <> [] /\ ~ In 44 s /\ ~ In 32 s) l -> list_parts (join [44] l) = l.
Proof. exact (parts_join l). Qed.
Print Assumptions C60_parts.
(** The numbers: what is printed is read, and nothing above 32 bits is. *)
Theorem C60_numbers : (forall n, n < 2 ^ 32 -> parse_u32 (dec n) = Some n) /\ (forall s n, parse_u32 s = Some n -> n < 2 ^ 32).
Proof. split; [exact parse_dec|exact parse_u32_bound]. Qed.
Print Assumptions C60_numbers.
(** Together: a text list of AS numbers selects the elements with an origin (or the peer) among
    them, with exclamation marks the others. *)
Theorem C60_asn_lists show ps e l b : l <> [] -> Forall (fun n => n < 2 ^ 32) l ->
  let text := join [44] (map (fun n => (if b : bool then [33] else []) ++ dec n) l) in
  let says f (P : Prop) := match_filter show (VElem e) f = true <-> if b then ~ P else P in
  (exists f, filter_new ps (str "origin_asns") text = Some f /\ says f (exists a os, In a l /\ e_origins e = Some os /\ In a os)) /\
  (exists f, filter_new ps (str "peer_asns") text = Some f /\ says f (In (e_asn e) l)).
Proof.
  intros Ne F text says.
  split; [exists (negate_if b (FOriginAsns l))|exists (negate_if b (FPeerAsns l))]; (split; [|unfold says; rewrite elem_matches; destruct b; reflexivity]).
  - unfold filter_new. change (one_of (str "origin_asns") multi_value) with true. cbv iota.
    unfold new_base. change (one_of (str "origin_asns") ["origin_asn"]) with false. change (one_of (str "origin_asns") ["origin_asns"]) with true. cbv iota.
    unfold text. rewrite (dec_list b l Ne F). reflexivity.
  - unfold filter_new. change (one_of (str "peer_asns") multi_value) with true. cbv iota.
    unfold new_base. repeat match goal with |- context [one_of (str "peer_asns") ?x] => let v := eval vm_compute in (one_of (str "peer_asns") x) in change (one_of (str "peer_asns") x) with v end. cbv iota.
    unfold text. rewrite (dec_list b l Ne F). reflexivity.
Qed.
Print Assumptions C60_asn_lists.
Definition no_parsers : parsers := Parsers (fun _ => None) (fun _ => None) (fun _ => None) (fun _ => None) (fun _ => None).
Example C60_ex :
  filter_new no_parsers (str "origin_asns") (str "!13335, !15169") = Some (FNegated (FOriginAsns [13335; 15169])) /\
  filter_new no_parsers (str "origin_asns") (str "13335,!15169") = None /\
  filter_new no_parsers (str "peer_asn") (str "!4294967295") = Some (FNegated (FPeerAsn 4294967295)) /\
  filter_new no_parsers (str "peer_asn") (str "4294967296") = None /\
  filter_new no_parsers (str "otc") (str "!*") = Some (FNegated (FPresent PfOtc)) /\
  filter_new no_parsers (str "peer_asn") (str "*") = None /\
  filter_new no_parsers (str "origin") (str "InComplete") = Some (FOrigin INCOMPLETE) /\
  filter_new no_parsers (str "peer_asns") (str ",, ,") = None.
Proof. repeat split; vm_compute; reflexivity. Qed.
