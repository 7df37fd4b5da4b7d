(** JSON forms of MRT records (the serde derives in /repo/src/models/mrt).  As in Json.v, a JSON
    value is a tree, and of the encodings a derived reader accepts the one that is written is
    modelled. *)
From Coq Require Import String.
From Verif Require Import Base Net AsPath LinkState Attr BgpMsg Elem Text Filter TextDump Framing TableDump Bgp4mp MrtRecord Json JsonMsg.
Local Open Scope string_scope. Local Open Scope list_scope. Local Open Scope N_scope.

(** The orders of iteration over the maps: of link-state attributes, of peers by index, of indexes
    by address. *)
Record orders := Orders { or_ls : kmap -> kmap; or_peers : list (N * peer) -> list (N * peer); or_ids : list (ip * N) -> list (ip * N) }.

(** mod.rs:239-265 [EntryType]: the names of the variants. *)
Definition entry_names : list (N * string) :=
  [(0, "NULL"); (1, "START"); (2, "DIE"); (3, "I_AM_DEAD"); (4, "PEER_DOWN"); (5, "BGP"); (6, "RIP"); (7, "IDRP"); (8, "RIPNG"); (9, "BGP4PLUS");
   (10, "BGP4PLUS_01"); (11, "OSPFv2"); (12, "TABLE_DUMP"); (13, "TABLE_DUMP_V2"); (16, "BGP4MP"); (17, "BGP4MP_ET"); (32, "ISIS"); (33, "ISIS_ET");
   (48, "OSPFv3"); (49, "OSPFv3_ET")].
(** mod.rs:77-85 [CommonHeader]. *)
Definition ser_header (h : header) : json :=
  jobj [("timestamp", JNum (h_ts h)); ("microsecond_timestamp", jopt JNum (h_us h)); ("entry_type", ser_code entry_names (h_type h));
        ("entry_subtype", JNum (h_sub h)); ("length", JNum (h_len h))].
Definition de_header (j : json) : option header :=
  l <<- de_object ["timestamp"; "microsecond_timestamp"; "entry_type"; "entry_subtype"; "length"] j ;;
  t <<- field "timestamp" de_u32 l ;; u <<- opt_field "microsecond_timestamp" de_u32 l ;; e <<- field "entry_type" (de_code entry_names) l ;;
  s <<- field "entry_subtype" de_u16 l ;; n <<- field "length" de_u32 l ;; Some (Hdr t u e s n).

(** * Table dumps *)
(** table_dump.rs:6-17 [TableDumpMessage]. *)
Definition ser_dump (tx : texts) (ord : orders) (m : dump) : json :=
  jobj [("view_number", JNum (td_view m)); ("sequence_number", JNum (td_seq m)); ("prefix", ser_prefix tx (td_prefix m)); ("status", JNum (td_status m));
        ("originated_time", JNum (td_time m)); ("peer_ip", ser_ip tx (td_peer m)); ("peer_asn", ser_asn (td_asn m));
        ("attributes", ser_attrs tx (or_ls ord) (td_attrs m))].
Definition de_dump (ps : parsers) (j : json) : option dump :=
  l <<- de_object ["view_number"; "sequence_number"; "prefix"; "status"; "originated_time"; "peer_ip"; "peer_asn"; "attributes"] j ;;
  v <<- field "view_number" de_u16 l ;; q <<- field "sequence_number" de_u16 l ;; p <<- field "prefix" (de_prefix ps) l ;;
  s <<- field "status" de_byte l ;; t <<- field "originated_time" de_u64 l ;; i <<- field "peer_ip" (de_ip ps) l ;;
  a <<- field "peer_asn" de_asn l ;; x <<- field "attributes" (de_attrs ps) l ;; Some (Dump v q p s t i a x).
(** table_dump_v2.rs:184-192 [PeerType]: the text that the bitflags crate gives it, the names of
    the flags that are set, then the remaining bits in hexadecimal without leading zeros; read as
    [AttrFlags] is, with these names. *)
Definition peer_flag_names : list (N * string) := [(1, "AS_SIZE_32BIT"); (0, "ADDRESS_FAMILY_IPV6")].
Definition hex_text (n : N) : bytes := if n <? 16 then [nibble n] else [nibble (n / 16); nibble (n mod 16)].
Definition peer_flag_words (f : N) : list bytes :=
  map (fun p => str (snd p)) (List.filter (fun p => N.testbit f (fst p)) peer_flag_names) ++
  (if f / 4 =? 0 then [] else [str "0x" ++ hex_text (f / 4 * 4)]).
Definition show_peer_flags (f : N) : bytes := join (str " | ") (peer_flag_words f).
Definition parse_peer_flag (w : bytes) : option N :=
  let w := trim w in
  match w with
  | [] => None
  | 48 :: 120 :: h => parse_hex8 h
  | _ => p <<- find (fun p => bytes_eqb w (str (snd p))) peer_flag_names ;; Some (2 ^ fst p)
  end.
Definition parse_peer_flags (s : bytes) : option N :=
  match trim s with
  | [] => Some 0
  | _ => fs <<- all_of parse_peer_flag (split_on 124 s) ;; Some (fold_left N.lor fs 0)
  end.
(** table_dump_v2.rs:266-275 [Peer]. *)
Definition ser_peer (tx : texts) (p : peer) : json :=
  jobj [("peer_type", JText (show_peer_flags (pe_type p))); ("peer_bgp_id", ser_ip4 tx (pe_id p)); ("peer_ip", ser_ip tx (pe_ip p));
        ("peer_asn", ser_asn (pe_asn p))].
Definition de_peer (ps : parsers) (j : json) : option peer :=
  l <<- de_object ["peer_type"; "peer_bgp_id"; "peer_ip"; "peer_asn"] j ;;
  t <<- field "peer_type" (fun j => s <<- de_text j ;; parse_peer_flags s) l ;; b <<- field "peer_bgp_id" (de_ip4 ps) l ;;
  i <<- field "peer_ip" (de_ip ps) l ;; a <<- field "peer_asn" de_asn l ;; Some (Peer t b i a).
(** Keys of objects (serde_json): the text of a number, which is read only in the form that is
    written; the text of an address. *)
Definition read_index (s : bytes) : option N :=
  n <<- parse_u32 s ;; if (n <? 2 ^ 16) && bytes_eqb (dec n) s then Some n else None.
Definition de_peer_entry (ps : parsers) (kv : bytes * json) : option (N * peer) := k <<- read_index (fst kv) ;; p <<- de_peer ps (snd kv) ;; Some (k, p).
Definition de_id_entry (ps : parsers) (kv : bytes * json) : option (ip * N) := k <<- ps_ip ps (fst kv) ;; n <<- de_u16 (snd kv) ;; Some (k, n).
(** A [HashMap]: an object with one member per entry; read by inserting one after the other. *)
Definition de_members {K V} (eqb : K -> K -> bool) (f : bytes * json -> option (K * V)) (j : json) : option (list (K * V)) :=
  match j with
  | JObject l => es <<- all_of f l ;; Some (fold_left (fun m kv => map_insert eqb (fst kv) (snd kv) m) es [])
  | _ => None
  end.
(** table_dump_v2.rs:163-182 [PeerIndexTable]. *)
Definition ser_table (tx : texts) (ord : orders) (t : peer_table) : json :=
  jobj [("collector_bgp_id", ser_ip4 tx (pt_collector t)); ("view_name", JText (pt_name t));
        ("id_peer_map", JObject (map (fun kv => (dec (fst kv), ser_peer tx (snd kv))) (or_peers ord (pt_peers t))));
        ("peer_ip_id_map", JObject (map (fun kv => (tx_ip tx (fst kv), JNum (snd kv))) (or_ids ord (pt_ids t))))].
Definition de_table (ps : parsers) (j : json) : option peer_table :=
  l <<- de_object ["collector_bgp_id"; "view_name"; "id_peer_map"; "peer_ip_id_map"] j ;;
  c <<- field "collector_bgp_id" (de_ip4 ps) l ;; n <<- field "view_name" de_text l ;;
  p <<- field "id_peer_map" (de_members N.eqb (de_peer_entry ps)) l ;; i <<- field "peer_ip_id_map" (de_members ip_eqb (de_id_entry ps)) l ;;
  Some (PeerTable c n p i).
(** table_dump_v2.rs:194-226 [GeoPeer], [GeoPeerTable]. *)
Definition ser_geo_peer (tx : texts) (g : geo_peer) : json :=
  jobj [("peer", ser_peer tx (gp_peer g)); ("peer_latitude", ser_f32 (gp_lat g)); ("peer_longitude", ser_f32 (gp_lon g))].
Definition de_geo_peer (ps : parsers) (j : json) : option geo_peer :=
  l <<- de_object ["peer"; "peer_latitude"; "peer_longitude"] j ;; p <<- field "peer" (de_peer ps) l ;;
  a <<- field "peer_latitude" de_f32 l ;; o <<- field "peer_longitude" de_f32 l ;; Some (GeoPeer p a o).
Definition ser_geo (tx : texts) (t : geo_table) : json :=
  jobj [("collector_bgp_id", ser_ip4 tx (gt_collector t)); ("view_name", JText (gt_name t)); ("collector_latitude", ser_f32 (gt_lat t));
        ("collector_longitude", ser_f32 (gt_lon t)); ("geo_peers", ser_list (ser_geo_peer tx) (gt_peers t))].
Definition de_geo (ps : parsers) (j : json) : option geo_table :=
  l <<- de_object ["collector_bgp_id"; "view_name"; "collector_latitude"; "collector_longitude"; "geo_peers"] j ;;
  c <<- field "collector_bgp_id" (de_ip4 ps) l ;; n <<- field "view_name" de_text l ;; a <<- field "collector_latitude" de_f32 l ;;
  o <<- field "collector_longitude" de_f32 l ;; p <<- field "geo_peers" (de_list (de_geo_peer ps)) l ;; Some (GeoTable c n a o p).
(** table_dump_v2.rs:35-51 [TableDumpV2Type]. *)
Definition rib_names : list (N * string) :=
  [(1, "PeerIndexTable"); (2, "RibIpv4Unicast"); (3, "RibIpv4Multicast"); (4, "RibIpv6Unicast"); (5, "RibIpv6Multicast"); (6, "RibGeneric");
   (7, "GeoPeerTable"); (8, "RibIpv4UnicastAddPath"); (9, "RibIpv4MulticastAddPath"); (10, "RibIpv6UnicastAddPath");
   (11, "RibIpv6MulticastAddPath"); (12, "RibGenericAddPath")].
(** table_dump_v2.rs:80-90 [RibAfiEntries], 143-152 [RibEntry]. *)
Definition ser_rib_entry (tx : texts) (ord : orders) (e : rib_entry) : json :=
  jobj [("peer_index", JNum (re_peer e)); ("originated_time", JNum (re_time e)); ("path_id", jopt JNum (re_path e));
        ("attributes", ser_attrs tx (or_ls ord) (re_attrs e))].
Definition de_rib_entry (ps : parsers) (j : json) : option rib_entry :=
  l <<- de_object ["peer_index"; "originated_time"; "path_id"; "attributes"] j ;; p <<- field "peer_index" de_u16 l ;;
  t <<- field "originated_time" de_u32 l ;; i <<- opt_field "path_id" de_u32 l ;; a <<- field "attributes" (de_attrs ps) l ;; Some (RibEntry p t i a).
Definition ser_rib (tx : texts) (ord : orders) (r : rib) : json :=
  jobj [("rib_type", ser_code rib_names (rb_type r)); ("sequence_number", JNum (rb_seq r)); ("prefix", ser_prefix tx (rb_prefix r));
        ("rib_entries", ser_list (ser_rib_entry tx ord) (rb_entries r))].
Definition de_rib (ps : parsers) (j : json) : option rib :=
  l <<- de_object ["rib_type"; "sequence_number"; "prefix"; "rib_entries"] j ;; t <<- field "rib_type" (de_code rib_names) l ;;
  q <<- field "sequence_number" de_u32 l ;; p <<- field "prefix" (de_prefix ps) l ;; e <<- field "rib_entries" (de_list (de_rib_entry ps)) l ;;
  Some (Rib t q p e).
(** table_dump_v2.rs:9-20 [TableDumpV2Message].  [RibGeneric], which the parser refuses, has no
    content in the model: it is null here and never read. *)
Definition ser_v2 (tx : texts) (ord : orders) (m : dump_v2) : json :=
  match m with
  | V2Peers t => tagged "PeerIndexTable" (ser_table tx ord t) | V2Rib r => tagged "RibAfi" (ser_rib tx ord r) | V2Generic => JNull
  | V2Geo t => tagged "GeoPeerTable" (ser_geo tx t)
  end.
Definition de_v2 (ps : parsers) : json -> option dump_v2 := de_variant [
  ("PeerIndexTable", de_into (de_table ps) V2Peers); ("RibAfi", de_into (de_rib ps) V2Rib); ("GeoPeerTable", de_into (de_geo ps) V2Geo)].

(** * Messages *)
(** bgp4mp.rs:8-22 [BgpState]. *)
Definition state_text (s : bgp_state) : string :=
  match s with
  | StIdle => "Idle" | StConnect => "Connect" | StActive => "Active" | StOpenSent => "OpenSent" | StOpenConfirm => "OpenConfirm"
  | StEstablished => "Established" | StClearing => "Clearing" | StDeleted => "Deleted"
  end.
Definition ser_state : bgp_state -> json := ser_unit state_text.
Definition de_state : json -> option bgp_state :=
  de_unit state_text [StIdle; StConnect; StActive; StOpenSent; StOpenConfirm; StEstablished; StClearing; StDeleted].
(** bgp4mp.rs:42-58 [Bgp4MpType]. *)
Definition mp_names : list (N * string) :=
  [(0, "StateChange"); (1, "Message"); (4, "MessageAs4"); (5, "StateChangeAs4"); (6, "MessageLocal"); (7, "MessageAs4Local"); (8, "MessageAddpath");
   (9, "MessageAs4Addpath"); (10, "MessageLocalAddpath"); (11, "MessageLocalAs4Addpath")].
(** bgp4mp.rs:59-84 [Bgp4MpStateChange], [Bgp4MpMessage], 25-30 [Bgp4MpEnum]. *)
Definition ser_mp_state (tx : texts) (m : mp_state_change) : json :=
  jobj [("msg_type", ser_code mp_names (ms_type m)); ("peer_asn", ser_asn (ms_peer_as m)); ("local_asn", ser_asn (ms_local_as m));
        ("interface_index", JNum (ms_ifindex m)); ("peer_ip", ser_ip tx (ms_peer m)); ("local_addr", ser_ip tx (ms_local m));
        ("old_state", ser_state (ms_old m)); ("new_state", ser_state (ms_new m))].
Definition de_mp_state (ps : parsers) (j : json) : option mp_state_change :=
  l <<- de_object ["msg_type"; "peer_asn"; "local_asn"; "interface_index"; "peer_ip"; "local_addr"; "old_state"; "new_state"] j ;;
  t <<- field "msg_type" (de_code mp_names) l ;; a <<- field "peer_asn" de_asn l ;; b <<- field "local_asn" de_asn l ;;
  i <<- field "interface_index" de_u16 l ;; p <<- field "peer_ip" (de_ip ps) l ;; q <<- field "local_addr" (de_ip ps) l ;;
  o <<- field "old_state" de_state l ;; n <<- field "new_state" de_state l ;; Some (MpState t a b i p q o n).
Definition ser_mp_message (tx : texts) (ord : orders) (m : mp_message) : json :=
  jobj [("msg_type", ser_code mp_names (mm_type m)); ("peer_asn", ser_asn (mm_peer_as m)); ("local_asn", ser_asn (mm_local_as m));
        ("interface_index", JNum (mm_ifindex m)); ("peer_ip", ser_ip tx (mm_peer m)); ("local_ip", ser_ip tx (mm_local m));
        ("bgp_message", ser_msg tx (or_ls ord) (mm_bgp m))].
Definition de_mp_message (ps : parsers) (j : json) : option mp_message :=
  l <<- de_object ["msg_type"; "peer_asn"; "local_asn"; "interface_index"; "peer_ip"; "local_ip"; "bgp_message"] j ;;
  t <<- field "msg_type" (de_code mp_names) l ;; a <<- field "peer_asn" de_asn l ;; b <<- field "local_asn" de_asn l ;;
  i <<- field "interface_index" de_u16 l ;; p <<- field "peer_ip" (de_ip ps) l ;; q <<- field "local_ip" (de_ip ps) l ;;
  m <<- field "bgp_message" (de_msg ps) l ;; Some (MpMsg t a b i p q m).
Definition ser_mp (tx : texts) (ord : orders) (m : bgp4mp) : json :=
  match m with MpStateChange s => tagged "StateChange" (ser_mp_state tx s) | MpMessage x => tagged "Message" (ser_mp_message tx ord x) end.
Definition de_mp (ps : parsers) : json -> option bgp4mp :=
  de_variant [("StateChange", de_into (de_mp_state ps) MpStateChange); ("Message", de_into (de_mp_message ps) MpMessage)].
(** legacy_bgp.rs:11-42 [LegacyBgp], [LegacyBgpMessage], [LegacyBgpStateChange]. *)
Definition ser_legacy_message (tx : texts) (ord : orders) (m : legacy_message) : json :=
  jobj [("peer_asn", ser_asn (lg_peer_as m)); ("peer_ip", ser_ip tx (lg_peer m)); ("local_asn", ser_asn (lg_local_as m));
        ("local_ip", ser_ip tx (lg_local m)); ("bgp_message", ser_msg tx (or_ls ord) (lg_bgp m))].
Definition de_legacy_message (ps : parsers) (j : json) : option legacy_message :=
  l <<- de_object ["peer_asn"; "peer_ip"; "local_asn"; "local_ip"; "bgp_message"] j ;; a <<- field "peer_asn" de_asn l ;;
  i <<- field "peer_ip" (de_ip ps) l ;; b <<- field "local_asn" de_asn l ;; k <<- field "local_ip" (de_ip ps) l ;;
  m <<- field "bgp_message" (de_msg ps) l ;; Some (LgMsg a i b k m).
Definition ser_legacy_state (tx : texts) (m : legacy_state_change) : json :=
  jobj [("peer_asn", ser_asn (ls_peer_as m)); ("peer_ip", ser_ip tx (ls_peer m)); ("old_state", ser_state (ls_old m)); ("new_state", ser_state (ls_new m))].
Definition de_legacy_state (ps : parsers) (j : json) : option legacy_state_change :=
  l <<- de_object ["peer_asn"; "peer_ip"; "old_state"; "new_state"] j ;; a <<- field "peer_asn" de_asn l ;; i <<- field "peer_ip" (de_ip ps) l ;;
  o <<- field "old_state" de_state l ;; n <<- field "new_state" de_state l ;; Some (LgState a i o n).
Definition ser_legacy (tx : texts) (ord : orders) (m : legacy) : json :=
  match m with LgMessage x => tagged "Message" (ser_legacy_message tx ord x) | LgStateChange s => tagged "StateChange" (ser_legacy_state tx s) end.
Definition de_legacy (ps : parsers) : json -> option legacy :=
  de_variant [("Message", de_into (de_legacy_message ps) LgMessage); ("StateChange", de_into (de_legacy_state ps) LgStateChange)].
(** mod.rs:204-213 [MrtMessage], 30-35 [MrtRecord]. *)
Definition ser_body (tx : texts) (ord : orders) (m : mrt_message) : json :=
  match m with
  | MrtDump d => tagged "TableDumpMessage" (ser_dump tx ord d) | MrtDumps l => tagged "TableDumpMessageBatch" (ser_list (ser_dump tx ord) l)
  | MrtV2 m => tagged "TableDumpV2Message" (ser_v2 tx ord m) | MrtBgp4mp m => tagged "Bgp4Mp" (ser_mp tx ord m)
  | MrtLegacy m => tagged "LegacyBgp" (ser_legacy tx ord m)
  end.
Definition de_body (ps : parsers) : json -> option mrt_message := de_variant [
  ("TableDumpMessage", de_into (de_dump ps) MrtDump); ("TableDumpMessageBatch", de_into (de_list (de_dump ps)) MrtDumps);
  ("TableDumpV2Message", de_into (de_v2 ps) MrtV2); ("Bgp4Mp", de_into (de_mp ps) MrtBgp4mp); ("LegacyBgp", de_into (de_legacy ps) MrtLegacy)].
Definition ser_record (tx : texts) (ord : orders) (r : mrt_record) : json :=
  jobj [("common_header", ser_header (mr_hdr r)); ("message", ser_body tx ord (mr_msg r))].
Definition de_record (ps : parsers) (j : json) : option mrt_record :=
  l <<- de_object ["common_header"; "message"] j ;; h <<- field "common_header" de_header l ;; m <<- field "message" (de_body ps) l ;;
  Some (MrtRecord h m).
