(** C35, C63: route-level iteration. *)
From Coq Require Import Lia.
From Verif Require Import Base BaseFacts Net AsPath Community Attr BgpMsg Bgp4mp TableDump TableDumpFacts Stream Framing MrtRecord MrtRecordFacts Elem ElemSpec Filter FilterSpec FilterFacts Iter IterSpec IterFacts Route RouteSpec RouteFacts PropMrtRecord PropElem PropFilter PropIter.

(** ** C35: the routes of a record are the projections of its elements, in order.  The
    routes are followed by an error only where the entries of a RIB record end in
    malformed attributes, which element iteration passes over in silence. *)
Theorem C35_record w r t l : bytes_ok (r_body w) -> parse_raw w = Ok r -> comparable t r -> same_peers t l ->
  exists i l' eo, parse_raw_routes w l = Ok (i, l') /\ same_peers (table_after t r) l' /\
    drains i (map project (elems_of (t, r))) eo /\ (is_rib r = false -> eo = None).
Proof. exact (record_agrees w r t l). Qed.
Print Assumptions C35_record.
(** Over a whole source, with filters both can evaluate. *)
Theorem C35_stream show p cs : pr_text p = None -> pr_core p = false -> bytes_ok (sbytes (pr_stream p)) ->
  chunks (pr_stream p) cs -> agreeing None cs -> Forall (fun f => needs_elem f = false) (pr_filters p) ->
  exists n es, forall fuel, (n <= fuel)%nat ->
    elem_list show fuel p = Ok es /\ route_list show fuel p = Ok (map project es).
Proof. exact (streams_agree show p cs). Qed.
Print Assumptions C35_stream.
(** Records refused by the full parser leave the peer table of route iteration alone. *)
Theorem C35_refused_table w e t i t' : parse_raw w = Err e -> parse_raw_routes w t = Ok (i, t') -> t' = t.
Proof. exact (refused_table w e t i t'). Qed.
Print Assumptions C35_refused_table.

(** ** C63: route iteration ends without panic on every source and gives the routes of its
    records, one record after the other; the fallible iterator reports every error in its place. *)
Theorem C63_routes show p : pr_text p = None -> exists cs out, chunks (pr_stream p) cs /\ routes_of None cs out /\
  (forall out', routes_of None cs out' -> out' = out) /\
  exists n, forall fuel, (n <= fuel)%nat ->
    route_list show fuel (unfiltered p) = Ok (usable_routes (pr_core p) out) /\ froute_list show fuel (unfiltered p) = Ok (map reported out).
Proof.
  intros T. destruct (chunks_total (pr_stream p)) as (cs & C). destruct (routes_total cs None) as (out & R). exists cs, out. split; [exact C|]. split; [exact R|].
  split; [intros o' R'; eapply routes_fun; eauto|]. exists (S (length out + length cs)). intros fuel L.
  rewrite (route_list_ok show (unfiltered p) cs out T C R fuel L), (froute_list_ok show (unfiltered p) cs out T C R fuel L). cbn [unfiltered pr_core pr_filters]. split; f_equal; [apply filter_true|].
  clear. induction (map reported out) as [|[x|x] l IH]; [reflexivity| |]; cbn [List.filter keep_item keep_route match_filters forallb]; rewrite IH; reflexivity.
Qed.
Print Assumptions C63_routes.
(** With filters it gives the unfiltered routes that match. *)
Theorem C63_filtered show p : exists n l, forall fuel, (n <= fuel)%nat ->
  route_list show fuel (unfiltered p) = Ok l /\
  route_list show fuel p = Ok (List.filter (fun r => match_filters show (VRoute r) (pr_filters p)) l).
Proof. exact (filtered_routes show p). Qed.
Print Assumptions C63_filtered.
Theorem C63_filtered_fallible show p : exists n l, forall fuel, (n <= fuel)%nat ->
  froute_list show fuel (unfiltered p) = Ok l /\
  froute_list show fuel p = Ok (List.filter (keep_item (fun r => match_filters show (VRoute r) (pr_filters p))) l).
Proof. exact (filtered_froutes show p). Qed.
Print Assumptions C63_filtered_fallible.

(** ** Examples *)
Definition good_bytes : bytes :=
  enc (ex_v2 1 (V2Peers ex_table)) ++ enc (ex_v2 2 (V2Rib (Rib 2 1 ex_p1 (map (fun i => RibEntry i (1000 + i) None (of_values [AOrigin IGP; AAsPath [Seg KSeq [i; 5]]])) [2; 0])))) ++
  [0;0;0;9; 0;11; 0;0; 0;0;0;2; 7;7] ++ enc ex_record.
Definition source (b : bytes) (fs : list filter) : parser := Parser [Data (firstn 9 b); Intr; Data (skipn 9 b)] fs false None None.
Fixpoint chunk_list (fuel : nat) (s : stream) : list (item raw) :=
  match fuel with
  | O => []
  | S f => match chunk_mrt_record_s s with CRec r s' => inl r :: chunk_list f s' | CErr EEofExpected _ _ _ => [] | CErr e _ c s' => inr (e, c) :: chunk_list f s' end
  end.
Example C35_ex : let p := source good_bytes [FOriginAsn 5; FNegated (FPeerAsn 64502)] in
  bytes_ok (sbytes (pr_stream p)) /\ (exists cs, length cs = 4%nat /\ chunks (pr_stream p) cs /\ agreeing None cs) /\ Forall (fun f => needs_elem f = false) (pr_filters p) /\
  match elem_list show_nothing 30 p, route_list show_nothing 30 p with Ok [e], Ok [r] => r = project e | _, _ => False end.
Proof.
  cbv zeta. split; [apply bytes_okb_spec; vm_compute; reflexivity|]. split; [|split; [repeat constructor|vm_compute; reflexivity]].
  exists (chunk_list 9 (pr_stream (source good_bytes []))). split; [vm_compute; reflexivity|]. split.
  - vm_compute chunk_list. do 4 (eapply chunks_rec; [vm_compute; reflexivity|]). eapply chunks_end. vm_compute. reflexivity.
  - vm_compute chunk_list. eapply ag_rec; [vm_compute; reflexivity|exact I|]. eapply ag_rec; [vm_compute; reflexivity|vm_compute; repeat constructor; discriminate|].
    eapply ag_bad; [vm_compute; reflexivity|reflexivity|intros ? ? ? ? ? H; vm_compute in H; discriminate H|]. eapply ag_rec; [vm_compute; reflexivity|vm_compute; repeat constructor|]. apply ag_end.
Qed.
Definition route_asns (r : res (list route)) : option (list N) := match r with Ok l => Some (map ro_asn l) | _ => None end.
Definition route_summary (r : res (list (item route))) : option (list (N + perr)) :=
  match r with Ok l => Some (map (fun x => match x with inl e => inl (ro_asn e) | inr (e, _) => inr e end) l) | _ => None end.
Example C63_ex :
  route_summary (froute_list show_nothing 30 (ex_parser [] false)) = Some [inl 64502; inl 64500; inr EUnsup; inl 400000; inr EParse; inl 400000; inr EIo] /\
  route_asns (route_list show_nothing 30 (ex_parser [] false)) = Some [64502; 64500; 400000; 400000] /\
  route_asns (route_list show_nothing 30 (ex_parser [FNegated (FPeerAsn 64502)] false)) = Some [64500; 400000; 400000].
Proof. repeat split; vm_compute; reflexivity. Qed.

(** ** Findings: where the two ways to iterate part. *)
(** An entry of an unknown peer ends the elements of its record; its route alone is left out. *)
Theorem C35_unknown_peer_refuted : exists b, let p := source b [] in
  match elem_list show_nothing 30 p, route_list show_nothing 30 p with Ok [], Ok [r] => ro_asn r = 64500 | _, _ => False end.
Proof.
  exists (enc (ex_v2 1 (V2Peers ex_table)) ++ enc (ex_v2 2 (V2Rib (Rib 2 1 ex_p1 (map (fun i => RibEntry i 1000 None (of_values [AOrigin IGP])) [9; 0]))))).
  vm_compute. reflexivity.
Qed.
(** AS4_PATH in the old table dump format counts for routes only. *)
Definition as4_dump : mrt_record :=
  MrtRecord (Hdr 7 None 12 1 0) (MrtDump (Dump 0 1 ex_p1 1 1000 (V4 5) 6 (of_values [AOrigin IGP; AAsPath [Seg KSeq [23456]]; AAs4Path [Seg KSeq [70000]]]))).
Theorem C35_dump_as4_refuted : exists b, let p := source b [] in
  match elem_list show_nothing 30 p, route_list show_nothing 30 p with
  | Ok [e], Ok [r] => e_path e = Some [Seg KSeq [23456]] /\ ro_path r = Some [Seg KSeq [70000]] | _, _ => False end.
Proof. exists (enc as4_dump). vm_compute. split; reflexivity. Qed.
(** A malformed prefix in the NLRI of an UPDATE: a warning for elements, an error for routes. *)
Definition bad_nlri : bytes :=
  [0;0;0;7; 0;16; 0;4; 0;0;0;50; 0;0;0;1; 0;0;0;2; 0;0; 0;1; 1;1;1;1; 2;2;2;2] ++ repeat 255 16 ++ [0;30; 2; 0;2;8;10; 0;4; 64;1;1;0; 40].
Theorem C35_nlri_refuted : exists b, let p := source b [] in
  match elem_list show_nothing 30 p, froute_list show_nothing 30 p with
  | Ok [e], Ok [inr _] => e_type e = Withdraw | _, _ => False end.
Proof. exists bad_nlri. vm_compute. reflexivity. Qed.
(** A broken entry late in a TABLE_DUMP record: no element, but the routes before it. *)
Theorem C35_dump_cut_refuted : exists b, let p := source b [] in
  match elem_list show_nothing 30 p, froute_list show_nothing 30 p with
  | Ok [], Ok [inl r; inr _] => ro_asn r = 6 | _, _ => False end.
Proof.
  exists (let b := enc as4_dump in firstn 11 b ++ [nth 11 b 0 + 2] ++ skipn 12 b ++ [1;2]). vm_compute. reflexivity.
Qed.
(** A text dump has elements and no routes. *)
Theorem C35_text_refuted : exists p, match elem_list show_nothing 30 p, route_list show_nothing 30 p with Ok [_], Ok [] => True | _, _ => False end.
Proof. exists (Parser [] [] false (Some [ex_elem]) None). vm_compute. exact I. Qed.
(** A whole record whose body ends inside an address: the default record and element
    iterators leave all later records unread, the route iterator goes on. *)
Theorem C34_short_body_refuted : exists b, let p := source (b ++ enc ex_record) [] in
  match parse_mrt_record_s [Data (b ++ enc ex_record)] with RErr EIo (Some c) rest => c = b /\ sbytes rest = enc ex_record | _ => False end /\
  elem_list show_nothing 30 p = Ok [] /\ record_list show_nothing p = Ok [] /\ route_asns (route_list show_nothing 30 p) = Some [400000].
Proof.
  exists [0;0;0;7; 0;16; 0;4; 0;0;0;14; 0;0;0;1; 0;0;0;2; 0;0; 0;1; 1;1]. split; [vm_compute; split; reflexivity|]. repeat split; vm_compute; reflexivity.
Qed.
