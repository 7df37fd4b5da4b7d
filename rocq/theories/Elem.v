(** Per-prefix elements (/repo/src/parser/mrt/mrt_elem.rs, /repo/src/models/bgp/elem.rs). *)
From Coq Require Import Floats.SpecFloat.
From Verif Require Import Base Reader Net AsPath Community Nlri Attr BgpMsg Bgp4mp TableDump Stream Framing MrtRecord.

(** [f64]: IEEE 754 binary64 as the standard library specifies it (no kernel floats). *)
Definition f64 := spec_float.
Definition f64_of_N (n : N) : f64 := binary_normalize 53 1024 (Z.of_N n) 0 false.
Definition f64_add : f64 -> f64 -> f64 := SFadd 53 1024.
Definition f64_div : f64 -> f64 -> f64 := SFdiv 53 1024.

(** elem.rs:44-71 [ElemType]. *)
Inductive elem_type := Announce | Withdraw.
Definition elem_type_eqb (a b : elem_type) : bool :=
  match a, b with Announce, Announce | Withdraw, Withdraw => true | _, _ => false end.
(** elem.rs:101-158 [BgpElem]; a raw attribute is its type octet and its value. *)
Record elem := Elem {
  e_time : f64; e_type : elem_type; e_peer : ip; e_asn : asn; e_id : option N; e_prefix : prefix;
  e_hop : option ip; e_path : option aspath; e_origins : option (list asn); e_origin : option origin;
  e_pref : option N; e_med : option N; e_comms : option (list meta_community); e_atomic : bool;
  e_aggr_asn : option asn; e_aggr_ip : option N; e_otc : option asn;
  e_unknown : option (list (N * bytes)); e_depr : option (list (N * bytes)) }.
(** elem.rs:351-360 [is_announcement], [get_origin_asn_opt]. *)
Definition is_announcement (e : elem) : bool := elem_type_eqb (e_type e) Announce.
Definition get_origin_asn_opt (e : elem) : option asn :=
  match e_origins e with Some [a] => Some a | _ => None end.

(** mrt_elem.rs:68-204 [get_relevant_attributes]: the variables of its loop. *)
Record relevant := Rel {
  v_path : option aspath; v_path4 : option aspath; v_origin : option origin; v_hop : option ip;
  v_pref : option N; v_med : option N; v_comms : list meta_community; v_atomic : bool;
  v_aggr : option (asn * N); v_reach : option nlri; v_unreach : option nlri; v_otc : option asn;
  v_unknown : list (N * bytes); v_depr : list (N * bytes) }.
(** mrt_elem.rs:87-101: their initial values; note [Some(0)] for two of them. *)
Definition rel_init : relevant :=
  Rel None None None None (Some 0) (Some 0) [] false None None None None [] [].
(** mrt_elem.rs:103-159: the body of the loop. *)
Definition rel_step (r : relevant) (v : attr_value) : relevant :=
  let '(Rel p p4 o h lp md cs at_ ag an wd otc un de) := r in
  match v with
  | AOrigin x => Rel p p4 (Some x) h lp md cs at_ ag an wd otc un de
  | AAsPath x => Rel (Some x) p4 o h lp md cs at_ ag an wd otc un de
  | AAs4Path x => Rel p (Some x) o h lp md cs at_ ag an wd otc un de
  | ANextHop x => Rel p p4 o (Some x) lp md cs at_ ag an wd otc un de
  | AMed x => Rel p p4 o h lp (Some x) cs at_ ag an wd otc un de
  | ALocalPref x => Rel p p4 o h (Some x) md cs at_ ag an wd otc un de
  | AAtomicAggregate => Rel p p4 o h lp md cs true ag an wd otc un de
  | ACommunities l => Rel p p4 o h lp md (cs ++ map MPlain l) at_ ag an wd otc un de
  | AExtCommunities l => Rel p p4 o h lp md (cs ++ map MExtended l) at_ ag an wd otc un de
  | AIpv6ExtCommunities l => Rel p p4 o h lp md (cs ++ map MIpv6Extended l) at_ ag an wd otc un de
  | ALargeCommunities l => Rel p p4 o h lp md (cs ++ map MLarge l) at_ ag an wd otc un de
  | AAggregator a id | AAs4Aggregator a id => Rel p p4 o h lp md cs at_ (Some (a, id)) an wd otc un de
  | AMpReach n => Rel p p4 o h lp md cs at_ ag (Some n) wd otc un de
  | AMpUnreach n => Rel p p4 o h lp md cs at_ ag an (Some n) otc un de
  | AOtc a => Rel p p4 o h lp md cs at_ ag an wd (Some a) un de
  | AUnknown c b | ARaw c b => Rel p p4 o h lp md cs at_ ag an wd otc (un ++ [(c, b)]) de
  | ADeprecated c b => Rel p p4 o h lp md cs at_ ag an wd otc un (de ++ [(c, b)])
  | AOriginatorId _ | AClusters _ | ADevelopment _ | ALinkStateAttr _ | ATunnelEncap _
  | ATrafficEng _ | AAigp _ | ABfd _ | APrefixSid _ | ABier _ | ASfp _ | AAttrSet _ => r
  end.
Definition some_list {A} (l : list A) : option (list A) := match l with [] => None | _ => Some l end.
(** mrt_elem.rs:161-204: an unset next hop is taken from the announced NLRI. *)
Definition get_relevant_attributes (a : attributes) : relevant :=
  let '(Rel p p4 o h lp md cs at_ ag an wd otc un de) := fold_left rel_step (values a) rel_init in
  let h' := match h with
            | Some x => Some x
            | None => match an with Some n => option_map nh_addr (nl_next n) | None => None end
            end in
  Rel p p4 o h' lp md cs at_ ag an wd otc un de.
(** mrt_elem.rs:224-229, 640-645. *)
Definition merge_paths (p p4 : option aspath) : res (option aspath) :=
  match p, p4 with
  | None, None => Ok None
  | Some v, None | None, Some v => Ok (Some v)
  | Some v, Some w => m <~ merge_aspath_as4path v w ;; Ok (Some m)
  end.

(** mrt_elem.rs:206-269 [rib_entry_to_elem]. *)
Definition rib_entry_to_elem (p : prefix) (pe : peer) (e : rib_entry) : res elem :=
  let r := get_relevant_attributes (re_attrs e) in
  path <~ merge_paths (v_path r) (v_path4 r) ;;
  let h := match v_hop r with
           | Some x => Some x
           | None => match v_reach r with Some n => option_map nh_addr (nl_next n) | None => None end
           end in
  Ok (Elem (f64_of_N (re_time e)) Announce (pe_ip pe) (pe_asn pe) (Some (pe_id pe)) p
        h path (option_map iter_origins path) (v_origin r) (v_pref r) (v_med r) (some_list (v_comms r)) (v_atomic r)
        (option_map fst (v_aggr r)) (option_map snd (v_aggr r)) (v_otc r)
        (some_list (v_unknown r)) (some_list (v_depr r))).
(** mrt_elem.rs:702-745 [table_dump_to_elem]. *)
Definition table_dump_to_elem (m : dump) : elem :=
  let r := get_relevant_attributes (td_attrs m) in
  Elem (f64_of_N (td_time m)) Announce (td_peer m) (td_asn m) None (td_prefix m)
    (v_hop r) (v_path r) (option_map iter_origins (v_path r)) (v_origin r) (v_pref r) (v_med r)
    (some_list (v_comms r)) (v_atomic r) (option_map fst (v_aggr r)) (option_map snd (v_aggr r)) (v_otc r)
    (some_list (v_unknown r)) (some_list (v_depr r)).

(** mrt_elem.rs:344-369 [BgpUpdateElemIter]: [ui_model] holds the fields the announcements
    share (its type and prefix are not used); the prefix lists are those of the chained
    iterators. *)
Record upd_iter := UpdIter { ui_model : elem; ui_ann : list prefix; ui_wd : list prefix; ui_phase : bool }.
Definition with_prefix (e : elem) (p : prefix) : elem :=
  Elem (e_time e) Announce (e_peer e) (e_asn e) (e_id e) p (e_hop e) (e_path e) (e_origins e) (e_origin e)
    (e_pref e) (e_med e) (e_comms e) (e_atomic e) (e_aggr_asn e) (e_aggr_ip e) (e_otc e) (e_unknown e) (e_depr e).
Definition withdrawal (e : elem) (p : prefix) : elem :=
  Elem (e_time e) Withdraw (e_peer e) (e_asn e) (e_id e) p None None None None
    None None None false None None None None None.
(** mrt_elem.rs:371-423 [next]. *)
Definition upd_next (u : upd_iter) : option elem * upd_iter :=
  let go_withdrawn (u : upd_iter) :=
    match ui_wd u with
    | p :: l => (Some (withdrawal (ui_model u) p), UpdIter (ui_model u) (ui_ann u) l (ui_phase u))
    | [] => (None, u)
    end in
  if ui_phase u then go_withdrawn u
  else match ui_ann u with
       | p :: l => (Some (with_prefix (ui_model u) p), UpdIter (ui_model u) l (ui_wd u) false)
       | [] => go_withdrawn (UpdIter (ui_model u) [] (ui_wd u) true)
       end.
(** mrt_elem.rs:425-433 [size_hint]; both bounds are this number. *)
Definition upd_size (u : upd_iter) : nat := (if ui_phase u then 0 else length (ui_ann u)) + length (ui_wd u).
(** mrt_elem.rs:617-676 [bgp_update_to_elems_iter]. *)
Definition bgp_update_to_elems_iter (m : update_msg) (t : f64) (pi : ip) (pa : asn) : res upd_iter :=
  let r := get_relevant_attributes (u_attrs m) in
  path <~ merge_paths (v_path r) (v_path4 r) ;;
  Ok (UpdIter
        (Elem t Announce pi pa None (Pfx (Net (V4 0) 0) None)
           (v_hop r) path (option_map iter_origins path) (v_origin r) (v_pref r) (v_med r)
           (some_list (v_comms r)) (v_atomic r) (option_map fst (v_aggr r)) (option_map snd (v_aggr r)) (v_otc r)
           (some_list (v_unknown r)) (some_list (v_depr r)))
        (u_announced m ++ match v_reach r with Some n => nl_prefixes n | None => [] end)
        (u_withdrawn m ++ match v_unreach r with Some n => nl_prefixes n | None => [] end)
        false).
(** [collect] on an iterator; the fuel is one more than its size. *)
Fixpoint upd_collect (fuel : nat) (u : upd_iter) : list elem :=
  match fuel with
  | O => []
  | S f => match upd_next u with (Some e, u') => e :: upd_collect f u' | (None, _) => [] end
  end.
(** mrt_elem.rs:606-613 [bgp_update_to_elems]. *)
Definition bgp_update_to_elems (m : update_msg) (t : f64) (pi : ip) (pa : asn) : res (list elem) :=
  u <~ bgp_update_to_elems_iter m t pi pa ;; Ok (upd_collect (S (upd_size u)) u).
(** mrt_elem.rs:588-603 [bgp_to_elems_iter], 574-583 [bgp_to_elems]. *)
Definition bgp_to_elems_iter (m : bgp_msg) (t : f64) (pi : ip) (pa : asn) : res (option upd_iter) :=
  match m with
  | MUpdate u => i <~ bgp_update_to_elems_iter u t pi pa ;; Ok (Some i)
  | _ => Ok None
  end.
Definition bgp_to_elems (m : bgp_msg) (t : f64) (pi : ip) (pa : asn) : res (list elem) :=
  o <~ bgp_to_elems_iter m t pi pa ;;
  Ok (match o with Some u => upd_collect (S (upd_size u)) u | None => [] end).

(** mrt_elem.rs:276-291 [RecordElemIter]. *)
Inductive rec_iter :=
| RIEmpty | RIDump (e : option elem) | RIBatch (l : list dump)
| RIRib (t : peer_table) (p : prefix) (l : list rib_entry) | RIBgp (u : upd_iter).
(** mrt_elem.rs:293-319 [next]. *)
Definition rec_next (i : rec_iter) : res (option elem * rec_iter) :=
  match i with
  | RIEmpty => Ok (None, RIEmpty)
  | RIDump e => Ok (e, RIDump None)
  | RIBatch [] => Ok (None, RIBatch [])
  | RIBatch (m :: l) => Ok (Some (table_dump_to_elem m), RIBatch l)
  | RIBgp u => let '(e, u') := upd_next u in Ok (e, RIBgp u')
  | RIRib t p [] => Ok (None, RIRib t p [])
  | RIRib t p (e :: l) =>
      match get_peer_by_id t (re_peer e) with
      | Some pe => x <~ rib_entry_to_elem p pe e ;; Ok (Some x, RIRib t p l)
      | None => Ok (None, RIEmpty)
      end
  end.
(** mrt_elem.rs:321-338 [size_hint]; both bounds are this number. *)
Definition rec_size (i : rec_iter) : nat :=
  match i with
  | RIEmpty => 0
  | RIDump e => match e with Some _ => 1 | None => 0 end
  | RIBatch l => length l
  | RIRib _ _ l => length l
  | RIBgp u => upd_size u
  end.
Fixpoint rec_collect (fuel : nat) (i : rec_iter) : res (list elem) :=
  match fuel with
  | O => Ok []
  | S f =>
      n <~ rec_next i ;;
      match n with (Some e, i') => l <~ rec_collect f i' ;; Ok (e :: l) | (None, _) => Ok [] end
  end.

(** mrt_elem.rs:19-21 [Elementor]; 25-34 [ElemError]. *)
Definition elementor := option peer_table.
Inductive elem_err := EeTable (t : peer_table) | EeNoTable | EeGeneric.
(** mrt_elem.rs:504-512: the time of a record, as a float. *)
Definition record_time (h : header) : f64 :=
  match h_us h with
  | Some us => f64_add (f64_of_N (h_ts h)) (f64_div (f64_of_N us) (f64_of_N 1000000))
  | None => f64_of_N (h_ts h)
  end.
(** mrt_elem.rs:503-568 [record_to_elems_iter]. *)
Definition record_to_elems_iter (el : elementor) (r : mrt_record) : res (elem_err + rec_iter) :=
  let t := record_time (mr_hdr r) in
  let of_bgp b pi pa :=
    o <~ bgp_to_elems_iter b t pi pa ;; Ok (inr (match o with Some u => RIBgp u | None => RIEmpty end)) in
  match mr_msg r with
  | MrtDump m => Ok (inr (RIDump (Some (table_dump_to_elem m))))
  | MrtDumps l => Ok (inr (RIBatch l))
  | MrtV2 (V2Peers p) => Ok (inl (EeTable p))
  | MrtV2 (V2Rib b) =>
      match el with Some t => Ok (inr (RIRib t (rb_prefix b) (rb_entries b))) | None => Ok (inl EeNoTable) end
  | MrtV2 V2Generic => Ok (inl EeGeneric)
  | MrtV2 (V2Geo _) => Ok (inr RIEmpty)
  | MrtBgp4mp (MpStateChange _) => Ok (inr RIEmpty)
  | MrtBgp4mp (MpMessage m) => of_bgp (mm_bgp m) (mm_peer m) (mm_peer_as m)
  | MrtLegacy (LgStateChange _) => Ok (inr RIEmpty)
  | MrtLegacy (LgMessage m) => of_bgp (lg_bgp m) (lg_peer m) (lg_peer_as m)
  end.
(** mrt_elem.rs:469-485 [set_peer_table], [with_peer_table]. *)
Definition set_peer_table (el : elementor) (r : mrt_record) : res elementor :=
  match mr_msg r with MrtV2 (V2Peers p) => Ok (Some p) | _ => Err EParse end.
(** mrt_elem.rs:685-699 [record_to_elems]: the elements and the elementor afterwards. *)
Definition record_to_elems (el : elementor) (r : mrt_record) : res (list elem * elementor) :=
  match mr_msg r with
  | MrtV2 (V2Peers p) => Ok ([], Some p)
  | _ =>
      o <~ record_to_elems_iter el r ;;
      match o with
      | inr i => l <~ rec_collect (S (rec_size i)) i ;; Ok (l, el)
      | inl _ => Ok ([], el)
      end
  end.

(** mrt_elem.rs:799-811: the communities of one kind, in order. *)
Definition plain_of (l : list meta_community) : list community :=
  flat_map (fun c => match c with MPlain x => [x] | _ => [] end) l.
Definition extended_of (l : list meta_community) : list ext_community :=
  flat_map (fun c => match c with MExtended x => [x] | _ => [] end) l.
Definition large_of (l : list meta_community) : list large_community :=
  flat_map (fun c => match c with MLarge x => [x] | _ => [] end) l.
Definition ipv6_of (l : list meta_community) : list ipv6_ext :=
  flat_map (fun c => match c with MIpv6Extended x => [x] | _ => [] end) l.
Definition opt_one {A B} (o : option A) (f : A -> B) : list B := match o with Some a => [f a] | None => [] end.
Definition if_any {A B} (l : list A) (f : list A -> B) : list B := match l with [] => [] | _ => [f l] end.
(** mrt_elem.rs:759-858 [From<&BgpElem> for Attributes]. *)
Definition elem_values (e : elem) : list attr_value :=
  match e_type e with
  | Withdraw => [AMpUnreach (new_unreachable (e_prefix e))]
  | Announce =>
      [AMpReach (new_reachable (e_prefix e) (e_hop e))] ++
      opt_one (e_hop e) ANextHop ++ opt_one (e_path e) AAsPath ++ opt_one (e_origin e) AOrigin ++
      opt_one (e_pref e) ALocalPref ++ opt_one (e_med e) AMed ++
      match e_comms e with
      | Some l => if_any (plain_of l) ACommunities ++ if_any (extended_of l) AExtCommunities ++
                  if_any (large_of l) ALargeCommunities ++ if_any (ipv6_of l) AIpv6ExtCommunities
      | None => []
      end ++
      opt_one (e_aggr_asn e) (fun a => AAggregator a (match e_aggr_ip e with Some i => i | None => 0 end)) ++
      opt_one (e_otc e) AOtc ++
      match e_unknown e with Some l => map (fun x => AUnknown (fst x) (snd x)) l | None => [] end ++
      match e_depr e with Some l => map (fun x => ADeprecated (fst x) (snd x)) l | None => [] end
  end.
Definition attributes_of_elem (e : elem) : attributes := extend_attrs (Attrs [] [] 0) (map attr_of_value (elem_values e)).
