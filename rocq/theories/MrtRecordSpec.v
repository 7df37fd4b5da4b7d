(** Vocabulary of the whole-record theorems. *)
From Verif Require Import Base Net NetSpec FlowSpec Nlri Attr BgpMsg MsgSpec Bgp4mp Bgp4mpSpec TableDump TableDumpSpec Stream Framing MrtRecord.

(** A peer table whose peers are [l], in the order of their numbers. *)
Definition table_ok (t : peer_table) (l : list peer) : Prop :=
  map_ok (pt_peers t) /\ numbered t l /\ pt_collector t < 2 ^ 32 /\ nlen (pt_name t) < 2 ^ 16 /\ utf8 (pt_name t) /\
  nlen l < 2 ^ 16 /\ Forall peer_ok l.
Definition geo_table_ok (t : geo_table) : Prop :=
  gt_collector t < 2 ^ 32 /\ gt_lat t < 2 ^ 32 /\ gt_lon t < 2 ^ 32 /\ Forall geo_ok (gt_peers t) /\
  Forall (fun c => c < 128) (gt_name t).
Definition rib_ok (a : afi) (sf : safi) (ap : bool) (r : rib) : Prop :=
  rb_seq r < 2 ^ 32 /\ prefix_ok (rb_prefix r) /\ p_id (rb_prefix r) = None /\ wire_exact (p_net (rb_prefix r)) /\
  afi_of_ip (net_addr (p_net (rb_prefix r))) = a /\ Forall (rib_entry_ok ap a sf (rb_prefix r)) (rb_entries r).

(** A message that belongs under a type and a subtype and is preserved by the codecs of
    its kind; [b] is its encoding. *)
Definition body_ok (ty sub : N) (m : mrt_message) (b : bytes) : Prop :=
  match m with
  | MrtDump d => ty = 12 /\ exists a, dump_subtype sub a /\ dump_ok a d /\ td_view d < 2 ^ 16 /\ td_seq d < 2 ^ 16
  | MrtDumps l => ty = 12 /\ length l <> 1%nat /\
      exists a, dump_subtype sub a /\ Forall (fun d => dump_ok a d /\ td_view d < 2 ^ 16 /\ td_seq d < 2 ^ 16) l
  | MrtV2 (V2Peers t) => ty = 13 /\ sub = 1 /\ exists l, table_ok t l
  | MrtV2 (V2Rib r) => ty = 13 /\ sub = rb_type r /\ exists a sf ap, rib_subtype sub a sf ap /\ rib_ok a sf ap r
  | MrtV2 V2Generic => False
  | MrtV2 (V2Geo t) => ty = 13 /\ sub = 7 /\ geo_table_ok t
  | MrtBgp4mp (MpMessage m) => (ty = 16 \/ ty = 17) /\ mm_type m = sub /\
      (exists al ap, message_subtype sub al ap /\ mp_message_ok ap al m) /\ (msg_type (mm_bgp m) = 1 -> nlen b <= 4096)
  | MrtBgp4mp (MpStateChange m) => (ty = 16 \/ ty = 17) /\ ms_type m = sub /\ exists al, state_subtype sub al /\ mp_state_ok al m
  | MrtLegacy (LgMessage x) => ty = 5 /\ ip_ok (lg_peer x) /\ ip_ok (lg_local x) /\ message_ok false Bits16 (lg_bgp x)
  | MrtLegacy (LgStateChange x) => ty = 5 /\ ip_ok (ls_peer x)
  end.
(** Equal up to what is recomputed on parsing: validation notes of attributes, lengths
    of open messages, numbering maps of a peer table. *)
Definition same_body (m m' : mrt_message) : Prop :=
  match m, m' with
  | MrtDump x, MrtDump y => same_dump x y
  | MrtDumps x, MrtDumps y => Forall2 same_dump x y
  | MrtV2 (V2Peers x), MrtV2 (V2Peers y) => pt_collector x = pt_collector y /\ pt_name x = pt_name y /\
      exists l, numbered x l /\ numbered y l
  | MrtV2 (V2Rib x), MrtV2 (V2Rib y) => rb_type x = rb_type y /\ rb_seq x = rb_seq y /\ rb_prefix x = rb_prefix y /\
      Forall2 same_entry (rb_entries x) (rb_entries y)
  | MrtV2 (V2Geo x), MrtV2 (V2Geo y) => x = y
  | MrtBgp4mp (MpMessage x), MrtBgp4mp (MpMessage y) => same_mp_message x y
  | MrtBgp4mp (MpStateChange x), MrtBgp4mp (MpStateChange y) => x = y
  | MrtLegacy x, MrtLegacy y => same_legacy x y
  | _, _ => False
  end.
(** The octets of a header: 16 with microseconds, 12 without. *)
Definition header_size (h : header) : N := match h_us h with Some _ => 16 | None => 12 end.
(** Time stamps and subtype in range; microseconds exactly for type 17. *)
Definition header_fields_ok (h : header) : Prop :=
  h_ts h < 2 ^ 32 /\ h_sub h < 2 ^ 16 /\
  match h_us h with Some us => h_type h = 17 /\ us < 2 ^ 32 | None => h_type h <> 17 end.
(** The records that survive: [b] is the encoded record. *)
Definition record_ok (r : mrt_record) (b : bytes) : Prop :=
  header_fields_ok (mr_hdr r) /\
  body_ok (h_type (mr_hdr r)) (h_sub (mr_hdr r)) (mr_msg r) (skipn (N.to_nat (header_size (mr_hdr r))) b).
Definition same_header (a b : header) : Prop :=
  h_ts a = h_ts b /\ h_us a = h_us b /\ h_type a = h_type b /\ h_sub a = h_sub b.
Definition same_record (r r' : mrt_record) : Prop :=
  same_header (mr_hdr r) (mr_hdr r') /\ same_body (mr_msg r) (mr_msg r').

(** TABLE_DUMP entries: two addresses of [al] octets, ten octets, the last two of which
    count the attributes that follow. *)
Definition entry_length (al : nat) (w : bytes) : N :=
  N.of_nat (al * 2 + 10) + be_val (firstn 2 (skipn (al * 2 + 8) w)).
Definition whole_entry (al : nat) (w : bytes) : Prop := (al * 2 + 10 <= length w)%nat /\ entry_length al w = nlen w.
Definition entry_but_four (al : nat) (w : bytes) : Prop := (al * 2 + 10 <= length w)%nat /\ entry_length al w = nlen w + 4.
Definition addr_octets (a : afi) : nat := match a with AIpv4 => 4 | _ => 16 end.
(** A body four octets short: view and sequence number, whole entries, and one entry that
    lacks exactly four octets. *)
Definition four_short (sub : N) (s : bytes) : Prop :=
  exists a head ws c, dump_subtype sub a /\ s = head ++ concat ws ++ c /\ length head = 4%nat /\
    Forall (whole_entry (addr_octets a)) ws /\ entry_but_four (addr_octets a) c.

(** FlowSpec operators whose declared value length, a public field, is at most eight. *)
Definition comp_lengths_ok (c : fs_comp) : Prop :=
  match c with
  | FDestPrefix _ | FSrcPrefix _ | FDestPrefix6 _ _ | FSrcPrefix6 _ _ => True
  | FIpProto l | FPort l | FDestPort l | FSrcPort l | FIcmpType l | FIcmpCode l
  | FPktLen l | FDscp l | FFlowLabel l => Forall (fun o => no_len o <= 8) l
  | FTcpFlags l | FFragment l => Forall (fun o => bo_len o <= 8) l
  end.
Definition attr_lengths_ok (a : attribute) : Prop :=
  match a_value a with
  | AMpReach n | AMpUnreach n => match nl_fs n with Some l => Forall (Forall comp_lengths_ok) l | None => True end
  | _ => True
  end.
(** The attributes of a message. *)
Definition bgp_attrs (m : bgp_msg) : list attribute := match m with MUpdate u => at_inner (u_attrs u) | _ => [] end.
Definition mrt_attrs (m : mrt_message) : list attribute :=
  match m with
  | MrtDump d => at_inner (td_attrs d)
  | MrtDumps l => flat_map (fun d => at_inner (td_attrs d)) l
  | MrtV2 (V2Rib r) => flat_map (fun e => at_inner (re_attrs e)) (rb_entries r)
  | MrtV2 _ => []
  | MrtBgp4mp (MpMessage m) => bgp_attrs (mm_bgp m)
  | MrtBgp4mp (MpStateChange _) => []
  | MrtLegacy (LgMessage m) => bgp_attrs (lg_bgp m)
  | MrtLegacy (LgStateChange _) => []
  end.
(** Values the types admit: a map has one entry per key. *)
Definition maps_ok (m : mrt_message) : Prop := match m with MrtV2 (V2Peers t) => map_ok (pt_peers t) | _ => True end.
