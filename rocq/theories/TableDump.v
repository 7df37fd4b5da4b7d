(** MRT TABLE_DUMP and TABLE_DUMP_V2 records (/repo/src/parser/mrt/messages/table_dump.rs,
    table_dump_v2/, /repo/src/models/mrt/table_dump.rs, table_dump_v2.rs). *)
From Verif Require Import Base Reader Net AsPath Tlv Attr Utf8.

(** * [HashMap] as an association list without duplicate keys; the order of the list is
    not observable through the functions modelled. *)
Fixpoint map_get {K V} (eqb : K -> K -> bool) (k : K) (m : list (K * V)) : option V :=
  match m with [] => None | (k', v) :: t => if eqb k k' then Some v else map_get eqb k t end.
Fixpoint map_insert {K V} (eqb : K -> K -> bool) (k : K) (v : V) (m : list (K * V)) : list (K * V) :=
  match m with
  | [] => [(k, v)]
  | (k', v') :: t => if eqb k k' then (k, v) :: t else (k', v') :: map_insert eqb k v t
  end.

(** * Peers *)
(** models/mrt/table_dump_v2.rs:267-274 [Peer]; 184-191 [PeerType] as its octet
    ([from_bits_retain] keeps unknown bits). *)
Record peer := Peer { pe_type : N; pe_id : N; pe_ip : ip; pe_asn : asn }.
Definition type_ipv6 (t : N) : bool := N.testbit t 0.
Definition type_as4 (t : N) : bool := N.testbit t 1.
(** table_dump_v2.rs:277-294 [Peer::new]; [four] is [peer_asn.is_four_byte()]. *)
Definition peer_new (id : N) (i : ip) (a : asn) (four : bool) : peer :=
  Peer ((if four then 2 else 0) + (if is_v4 i then 0 else 1)) id i a.
(** table_dump_v2.rs:166-182 [PeerIndexTable] and its default. *)
Record peer_table := PeerTable {
  pt_collector : N; pt_name : bytes; pt_peers : list (N * peer); pt_ids : list (ip * N) }.
Definition empty_table : peer_table := PeerTable 0 [] [] [].

(** peer_index_table.rs:32-50: one peer. *)
Definition read_peer : P peer :=
  t <- read_u8 ;; id <- read_u32 ;;
  i <- read_address (if type_ipv6 t then AIpv6 else AIpv4) ;;
  a <- read_asn (if type_as4 t then Bits32 else Bits16) ;; ret (Peer t id i a).
(** peer_index_table.rs:53-59: the maps, filled in order; [k] numbers the peers. *)
Fixpoint number_peers (k : N) (l : list peer) (t : peer_table) : peer_table :=
  match l with
  | [] => t
  | p :: l' => number_peers (k + 1) l'
      (PeerTable (pt_collector t) (pt_name t)
         (map_insert N.eqb (k mod 65536) p (pt_peers t))
         (map_insert ip_eqb (pe_ip p) (k mod 65536) (pt_ids t)))
  end.
(** peer_index_table.rs:22-67 [parse_peer_index_table]. *)
Definition parse_peer_table : P peer_table :=
  c <- read_u32 ;; n <- read_u16 ;; nm <- read_n_bytes n ;;
  count <- read_u16 ;; l <- repeat_p (N.to_nat count) read_peer ;;
  ret (number_peers 0 l (PeerTable c (if utf8_ok nm then nm else []) [] [])).
(** peer_index_table.rs:76-88 [add_peer]: the result and the table afterwards. *)
Definition add_peer (t : peer_table) (p : peer) : res N * peer_table :=
  match map_get ip_eqb (pe_ip p) (pt_ids t) with
  | Some id => (Ok id, t)
  | None =>
      let next := nlen (pt_ids t) in
      match check_max (next + 1) 65535 with
      | Ok _ => (Ok next, PeerTable (pt_collector t) (pt_name t)
                            (map_insert N.eqb next p (pt_peers t)) (map_insert ip_eqb (pe_ip p) next (pt_ids t)))
      | Err e => (Err e, t)
      | Panic => (Panic, t)
      end
  end.
(** peer_index_table.rs:99-101, 124-126. *)
Definition get_peer_by_id (t : peer_table) (id : N) : option peer := map_get N.eqb id (pt_peers t).
Definition get_peer_id_by_addr (t : peer_table) (i : ip) : option N := map_get ip_eqb i (pt_ids t).
(** peer_index_table.rs:169-170: the keys, sorted. *)
Fixpoint insert_sorted (k : N) (l : list N) : list N :=
  match l with [] => [k] | h :: t => if k <=? h then k :: l else h :: insert_sorted k t end.
Definition sort_keys (l : list N) : list N := fold_right insert_sorted [] l.
(** peer_index_table.rs:173-193: one peer.  The address decides on its own size, the type
    on that of the AS number. *)
Definition encode_peer (p : peer) : bytes :=
  be 1 (pe_type p) ++ be 4 (pe_id p) ++ octets (pe_ip p) ++
  be (if type_as4 (pe_type p) then 4 else 2) (pe_asn p).
(** peer_index_table.rs:150-198 [PeerIndexTable::encode]; the [unwrap] of line 172 is the
    [Panic]. *)
Definition encode_peer_table (t : peer_table) : res bytes :=
  nm <~ put_len_slice 2 (pt_name t) ;;
  let count := nlen (pt_peers t) in
  _ <~ check_max count 65535 ;;
  ps <~ rmap (fun id => match get_peer_by_id t id with Some p => Ok (encode_peer p) | None => Panic end)
          (sort_keys (map fst (pt_peers t))) ;;
  Ok (be 4 (pt_collector t) ++ nm ++ be 2 count ++ concat ps).

(** * Geographic peers *)
(** table_dump_v2.rs:196-200, 225-231 [GeoPeer], [GeoPeerTable]; coordinates are the bits
    of the [f32]. *)
Record geo_peer := GeoPeer { gp_peer : peer; gp_lat : N; gp_lon : N }.
Record geo_table := GeoTable { gt_collector : N; gt_name : bytes; gt_lat : N; gt_lon : N; gt_peers : list geo_peer }.
(** geo_peer_table.rs:75-110: one entry ([get_f32] after a check is [read_be 4]). *)
Definition read_geo_peer : P geo_peer :=
  t <- read_u8 ;; id <- read_ipv4 ;;
  i <- (if type_ipv6 t then n <- read_ipv6 ;; ret (V6 n) else n <- read_ipv4 ;; ret (V4 n)) ;;
  a <- (if type_as4 t then read_u32 else read_u16) ;;
  la <- read_be 4 ;; lo <- read_be 4 ;; ret (GeoPeer (Peer t id i a) la lo).
(** geo_peer_table.rs:49-115 [parse_geo_peer_table]. *)
Definition parse_geo_table : P geo_table :=
  c <- read_ipv4 ;; n <- read_u16 ;; nm <- read_n_bytes n ;;
  la <- read_be 4 ;; lo <- read_be 4 ;; count <- read_u16 ;;
  l <- repeat_p (N.to_nat count) read_geo_peer ;; ret (GeoTable c (latin1 nm) la lo l).
(** geo_peer_table.rs:140-200 [GeoPeerTable::encode]. *)
Definition encode_geo_peer (g : geo_peer) : bytes := encode_peer (gp_peer g) ++ be 4 (gp_lat g) ++ be 4 (gp_lon g).
Definition encode_geo_table (t : geo_table) : res bytes :=
  nm <~ put_len_slice 2 (gt_name t) ;;
  let count := nlen (gt_peers t) in
  _ <~ check_max count 65535 ;;
  Ok (be 4 (gt_collector t) ++ nm ++ be 4 (gt_lat t) ++ be 4 (gt_lon t) ++ be 2 count ++
      flat_map encode_geo_peer (gt_peers t)).

(** * RIB entries *)
(** table_dump_v2.rs:146-151, 83-88 [RibEntry], [RibAfiEntries]; [rib_type] as its code. *)
Record rib_entry := RibEntry { re_peer : N; re_time : N; re_path : option N; re_attrs : attributes }.
Record rib := Rib { rb_type : N; rb_seq : N; rb_prefix : prefix; rb_entries : list rib_entry }.
(** rib_afi_entries.rs:12-50 [extract_afi_safi_from_rib_type], [is_add_path_rib_type]. *)
Definition rib_family (t : N) : option (afi * safi) :=
  match t with
  | 2 | 8 => Some (AIpv4, SUnicast)
  | 3 | 9 => Some (AIpv4, SMulticast)
  | 4 | 10 => Some (AIpv6, SUnicast)
  | 5 | 11 => Some (AIpv6, SMulticast)
  | _ => None
  end.
Definition rib_add_path (t : N) : bool := existsb (N.eqb t) [8; 9; 10; 11].
(** rib_afi_entries.rs:123-166 [parse_rib_entry]. *)
Definition read_rib_entry (ap : bool) (a : afi) (sf : safi) (p : prefix) : P rib_entry := fun s =>
  if Nat.ltb (length s) 8 then Err ETrunc else
  (pi <- read_u16 ;; t <- read_u32 ;;
   pid <- (if ap then i <- read_u32 ;; ret (Some i) else ret None) ;;
   n <- read_u16 ;; has_n n ;;; b <- split_to (N.to_nat n) ;;
   A <- lift (parse_attributes (ACfg Bits32 ap (Some a) (Some sf) (Some [p])) b) ;;
   ret (RibEntry pi t pid (check_mandatory A true (afi_eqb a AIpv4)))) s.
(** rib_afi_entries.rs:82-94: up to [n] entries, stopping without an error at the first
    that fails. *)
Fixpoint upto_p {A} (n : nat) (p : P A) (s : bytes) : res (list A) :=
  match n with
  | O => Ok []
  | S n' =>
      match p s with
      | Ok (a, s') => l <~ upto_p n' p s' ;; Ok (a :: l)
      | Err _ => Ok []
      | Panic => Panic
      end
  end.
(** rib_afi_entries.rs:59-102 [parse_rib_afi_entries]. *)
Definition parse_rib (t : N) (s : bytes) : res rib :=
  match rib_family t with
  | None => Err EParse
  | Some (a, sf) =>
      run (q <- read_u32 ;; p <- read_nlri_prefix a false ;; count <- read_u16 ;;
           r <- peek ;;
           l <- lift (upto_p (N.to_nat count) (read_rib_entry (rib_add_path t) a sf p) r) ;;
           ret (Rib t q p l)) s
  end.
(** rib_afi_entries.rs:195-210 [encode_for_rib_type]; 189-193 [RibEntry::encode]. *)
Definition encode_rib_entry (ap : bool) (e : rib_entry) : res bytes :=
  b <~ with_len 2 (encode_attributes Bits32 (at_inner (re_attrs e))) ;;
  Ok (be 2 (re_peer e) ++ be 4 (re_time e) ++
      (if ap then match re_path e with Some i => be 4 i | None => [] end else []) ++ b).
Definition encode_rib_entry_alone (e : rib_entry) : res bytes :=
  encode_rib_entry (match re_path e with Some _ => true | None => false end) e.
(** rib_afi_entries.rs:169-185 [RibAfiEntries::encode]. *)
Definition encode_rib (r : rib) : res bytes :=
  let count := nlen (rb_entries r) in
  _ <~ check_max count 65535 ;;
  es <~ rmap (encode_rib_entry (rib_add_path (rb_type r))) (rb_entries r) ;;
  Ok (be 4 (rb_seq r) ++ encode_prefix (rb_prefix r) ++ be 2 count ++ concat es).

(** * TABLE_DUMP_V2 *)
(** table_dump_v2.rs:12-19 [TableDumpV2Message]; the generic entries are never produced by
    the parser and never encoded, so their contents are left out. *)
Inductive dump_v2 := V2Peers (t : peer_table) | V2Rib (r : rib) | V2Generic | V2Geo (t : geo_table).
(** table_dump_v2/mod.rs:29-61 [parse_table_dump_v2_message]. *)
Definition parse_dump_v2 (sub : N) (s : bytes) : res dump_v2 :=
  match sub with
  | 1 => t <~ run parse_peer_table s ;; Ok (V2Peers t)
  | 2 | 3 | 4 | 5 | 8 | 9 | 10 | 11 => r <~ parse_rib sub s ;; Ok (V2Rib r)
  | 6 | 12 => Err EUnsup
  | 7 => t <~ run parse_geo_table s ;; Ok (V2Geo t)
  | _ => Err EParse
  end.
(** messages/mod.rs:19-29. *)
Definition encode_dump_v2 (m : dump_v2) : res bytes :=
  match m with
  | V2Peers t => encode_peer_table t
  | V2Rib r => encode_rib r
  | V2Generic => Err EUnenc
  | V2Geo t => encode_geo_table t
  end.
(** table_dump_v2.rs:22-29 [dump_type]. *)
Definition dump_type (m : dump_v2) : N :=
  match m with V2Peers _ => 1 | V2Rib r => rb_type r | V2Generic => 6 | V2Geo _ => 7 end.

(** * TABLE_DUMP *)
(** models/mrt/table_dump.rs:8-17 [TableDumpMessage]. *)
Record dump := Dump {
  td_view : N; td_seq : N; td_prefix : prefix; td_status : N; td_time : N; td_peer : ip; td_asn : asn; td_attrs : attributes }.
(** table_dump.rs:112-163 [parse_table_dump_entry]; the address family is IPv4 or IPv6. *)
Definition read_dump_entry (a : afi) (view seq : N) : P dump :=
  p <- (match a with AIpv4 => read_ipv4_prefix | AIpv6 => read_ipv6_prefix | ALinkState => ret (Net (V4 0) 0) end) ;;
  st <- read_u8 ;; tm <- read_u32 ;; pi <- read_address a ;; pa <- read_u16 ;;
  n <- read_u16 ;; has_n n ;;; b <- split_to (N.to_nat n) ;;
  A <- lift (parse_attributes (ACfg Bits16 false None None None) b) ;;
  ret (Dump view seq (Pfx p None) st tm pi pa (check_mandatory A true (afi_eqb a AIpv4))).
(** table_dump.rs:57-110 [parse_table_dump_messages]. *)
Definition dump_afi (sub : N) : option afi := match sub with 1 => Some AIpv4 | 2 => Some AIpv6 | _ => None end.
Definition parse_dumps (sub : N) (s : bytes) : res (list dump) :=
  match dump_afi sub with
  | None => Err EParse
  | Some a =>
      run (v <- read_u16 ;; q <- read_u16 ;; r <- peek ;;
           l <- lift (many_p (length r) (read_dump_entry a v q) r) ;;
           match l with [] => fail ETrunc | _ => ret l end) s
  end.
(** table_dump.rs:39-51 [parse_table_dump_message]. *)
Definition parse_dump (sub : N) (s : bytes) : res dump :=
  l <~ parse_dumps sub s ;; match l with [m] => Ok m | _ => Err EParse end.
(** table_dump.rs:174-204 [encode_entry_to]: time and AS number are truncated. *)
Definition encode_dump_entry (m : dump) : res bytes :=
  b <~ with_len 2 (encode_attributes Bits16 (at_inner (td_attrs m))) ;;
  Ok (octets (net_addr (p_net (td_prefix m))) ++ be 1 (net_len (p_net (td_prefix m))) ++
      be 1 (td_status m) ++ be 4 (td_time m) ++ octets (td_peer m) ++ be 2 (td_asn m) ++ b).
(** table_dump.rs:166-172 [TableDumpMessage::encode]. *)
Definition encode_dump (m : dump) : res bytes :=
  b <~ encode_dump_entry m ;; Ok (be 2 (td_view m) ++ be 2 (td_seq m) ++ b).
(** table_dump.rs:207-252 [encode_table_dump_batch]. *)
Definition encode_dumps (sub : N) (l : list dump) : res bytes :=
  match l with
  | [] => Err EUnenc
  | first :: _ =>
      match dump_afi sub with
      | None => Err EUnenc
      | Some a =>
          bs <~ rmap (fun m =>
            if negb ((td_view m =? td_view first) && (td_seq m =? td_seq first)) then Err EUnenc
            else if negb (Bool.eqb (is_v4 (net_addr (p_net (td_prefix m)))) (afi_eqb a AIpv4))
                    || negb (Bool.eqb (is_v4 (td_peer m)) (afi_eqb a AIpv4)) then Err EUnenc
            else encode_dump_entry m) l ;;
          Ok (be 2 (td_view first) ++ be 2 (td_seq first) ++ concat bs)
      end
  end.
