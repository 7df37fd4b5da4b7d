(** Vocabulary: the values that the fields of MRT records can have; records that are the same. *)
From Coq Require Import String Sorting.Permutation.
From Verif Require Import Base Net NetSpec AsPath LinkState Attr BgpMsg Elem Text Filter Framing TableDump TableDumpSpec Bgp4mp MrtRecord Json JsonSpec JsonMsgSpec JsonRec.
Local Open Scope string_scope. Local Open Scope list_scope. Local Open Scope N_scope.

(** Maps are iterated over in some order. *)
Definition any_orders (ord : orders) : Prop :=
  any_order (or_ls ord) /\ (forall m, Permutation (or_peers ord m) m) /\ (forall m, Permutation (or_ids ord m) m).

(** * Ranges *)
Definition header_in (h : header) : Prop := u32v (h_ts h) /\ opt_all u32v (h_us h) /\ etype_known (h_type h) = true /\ u16v (h_sub h) /\ u32v (h_len h).
Definition attrs_in_range (a : attributes) : Prop := Forall attr_in (at_inner a).
Definition attrs_kept (a : attributes) : Prop := Forall attr_kept (at_inner a).
Definition dump_in (m : dump) : Prop :=
  u16v (td_view m) /\ u16v (td_seq m) /\ prefix_ok (td_prefix m) /\ u8v (td_status m) /\ u64v (td_time m) /\ ip_ok (td_peer m) /\ u32v (td_asn m) /\
  attrs_in_range (td_attrs m).
Definition peer_in (p : peer) : Prop := u8v (pe_type p) /\ u32v (pe_id p) /\ ip_ok (pe_ip p) /\ u32v (pe_asn p).
(** A map has one entry for a key. *)
Definition table_in (t : peer_table) : Prop :=
  u32v (pt_collector t) /\ NoDup (map fst (pt_peers t)) /\ Forall (fun kv => u16v (fst kv) /\ peer_in (snd kv)) (pt_peers t) /\
  NoDup (map fst (pt_ids t)) /\ Forall (fun kv => ip_ok (fst kv) /\ u16v (snd kv)) (pt_ids t).
Definition geo_in (t : geo_table) : Prop := u32v (gt_collector t) /\ Forall (fun g => peer_in (gp_peer g)) (gt_peers t).
Definition geo_finite (t : geo_table) : Prop :=
  single_finite (gt_lat t) /\ single_finite (gt_lon t) /\ Forall (fun g => single_finite (gp_lat g) /\ single_finite (gp_lon g)) (gt_peers t).
Definition entry_in (e : rib_entry) : Prop := u16v (re_peer e) /\ u32v (re_time e) /\ opt_all u32v (re_path e) /\ attrs_in_range (re_attrs e).
Definition rib_in (r : rib) : Prop := (1 <= rb_type r <= 12) /\ u32v (rb_seq r) /\ prefix_ok (rb_prefix r) /\ Forall entry_in (rb_entries r).
Definition mp_code (n : N) : Prop := n <= 1 \/ 4 <= n <= 11.
Definition mp_in (m : bgp4mp) : Prop :=
  match m with
  | MpStateChange s => mp_code (ms_type s) /\ u32v (ms_peer_as s) /\ u32v (ms_local_as s) /\ u16v (ms_ifindex s) /\ ip_ok (ms_peer s) /\ ip_ok (ms_local s)
  | MpMessage x => mp_code (mm_type x) /\ u32v (mm_peer_as x) /\ u32v (mm_local_as x) /\ u16v (mm_ifindex x) /\ ip_ok (mm_peer x) /\ ip_ok (mm_local x) /\
                   msg_ranged (mm_bgp x)
  end.
Definition legacy_in (m : legacy) : Prop :=
  match m with
  | LgMessage x => u32v (lg_peer_as x) /\ ip_ok (lg_peer x) /\ u32v (lg_local_as x) /\ ip_ok (lg_local x) /\ msg_ranged (lg_bgp x)
  | LgStateChange s => u32v (ls_peer_as s) /\ ip_ok (ls_peer s)
  end.
(** Values of the types of the fields; [RibGeneric] is not modelled. *)
Definition body_in (m : mrt_message) : Prop :=
  match m with
  | MrtDump d => dump_in d | MrtDumps l => Forall dump_in l | MrtV2 (V2Peers t) => table_in t | MrtV2 (V2Rib r) => rib_in r | MrtV2 V2Generic => False
  | MrtV2 (V2Geo t) => geo_in t | MrtBgp4mp m => mp_in m | MrtLegacy m => legacy_in m
  end.
Definition record_in (r : mrt_record) : Prop := header_in (mr_hdr r) /\ body_in (mr_msg r).
(** No NaN and no infinity among floats; paths that C80 does not exclude. *)
Definition body_kept (m : mrt_message) : Prop :=
  match m with
  | MrtDump d => attrs_kept (td_attrs d) | MrtDumps l => Forall (fun d => attrs_kept (td_attrs d)) l
  | MrtV2 (V2Rib r) => Forall (fun e => attrs_kept (re_attrs e)) (rb_entries r) | MrtV2 (V2Geo t) => geo_finite t | MrtV2 _ => True
  | MrtBgp4mp (MpMessage x) => msg_kept (mm_bgp x) | MrtLegacy (LgMessage x) => msg_kept (lg_bgp x) | _ => True
  end.
Definition record_kept (r : mrt_record) : Prop := body_kept (mr_msg r).

(** * The same record *)
(** Attributes: the same list, no warnings. *)
Definition same_attrs (a b : attributes) : Prop := plain_attrs (at_inner a) b.
Definition same_dump (d e : dump) : Prop :=
  exists a, e = Dump (td_view d) (td_seq d) (td_prefix d) (td_status d) (td_time d) (td_peer d) (td_asn d) a /\ same_attrs (td_attrs d) a.
(** Peer tables that answer every question alike, with as many entries. *)
Definition same_table (t u : peer_table) : Prop :=
  pt_collector u = pt_collector t /\ pt_name u = pt_name t /\ Permutation (pt_peers u) (pt_peers t) /\ Permutation (pt_ids u) (pt_ids t) /\
  (forall i, get_peer_by_id u i = get_peer_by_id t i) /\ (forall a, get_peer_id_by_addr u a = get_peer_id_by_addr t a).
Definition same_entry (e f : rib_entry) : Prop := exists a, f = RibEntry (re_peer e) (re_time e) (re_path e) a /\ same_attrs (re_attrs e) a.
Definition same_rib (r q : rib) : Prop :=
  exists l, q = Rib (rb_type r) (rb_seq r) (rb_prefix r) l /\ Forall2 same_entry (rb_entries r) l.
Definition same_body (m n : mrt_message) : Prop :=
  match m with
  | MrtDump d => exists e, n = MrtDump e /\ same_dump d e
  | MrtDumps l => exists k, n = MrtDumps k /\ Forall2 same_dump l k
  | MrtV2 (V2Peers t) => exists u, n = MrtV2 (V2Peers u) /\ same_table t u
  | MrtV2 (V2Rib r) => exists q, n = MrtV2 (V2Rib q) /\ same_rib r q
  | MrtBgp4mp (MpMessage x) => exists b, n = MrtBgp4mp (MpMessage (MpMsg (mm_type x) (mm_peer_as x) (mm_local_as x) (mm_ifindex x) (mm_peer x) (mm_local x) b)) /\
      same_msg (mm_bgp x) b
  | MrtLegacy (LgMessage x) => exists b, n = MrtLegacy (LgMessage (LgMsg (lg_peer_as x) (lg_peer x) (lg_local_as x) (lg_local x) b)) /\ same_msg (lg_bgp x) b
  | _ => n = m
  end.
Definition same_record (r q : mrt_record) : Prop := mr_hdr q = mr_hdr r /\ same_body (mr_msg r) (mr_msg q).

(** * Names *)
(** The words of a peer type: two named bits, then the rest as a hexadecimal number. *)
Definition hexchar (n : N) : N := nth (N.to_nat n) (str "0123456789abcdef") 0.
Definition peer_words_of (f : N) : list bytes :=
  (if 2 <=? f mod 4 then [str "AS_SIZE_32BIT"] else []) ++ (if f mod 2 =? 1 then [str "ADDRESS_FAMILY_IPV6"] else []) ++
  (if f <? 4 then [] else [str "0x" ++ (if f <? 16 then [] else [hexchar (f / 16)]) ++ [hexchar (f mod 16 / 4 * 4)]]).
Definition body_word (m : mrt_message) : string :=
  match m with
  | MrtDump _ => "TableDumpMessage" | MrtDumps _ => "TableDumpMessageBatch" | MrtV2 _ => "TableDumpV2Message" | MrtBgp4mp _ => "Bgp4Mp"
  | MrtLegacy _ => "LegacyBgp"
  end.

(** The elements of a sequence of records, with one elementor. *)
Fixpoint elements (el : elementor) (l : list mrt_record) : res (list elem) :=
  match l with
  | [] => Ok []
  | r :: l' => x <~ record_to_elems el r ;; y <~ elements (snd x) l' ;; Ok (fst x ++ y)
  end.
