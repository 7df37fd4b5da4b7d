(** Vocabulary of the TABLE_DUMP and TABLE_DUMP_V2 theorems (RFC 6396 sections 4.2 and 4.3,
    RFC 6397, RFC 8050 section 4.3). *)
From Coq Require Import Permutation Sorted.
From Verif Require Import Base Net NetSpec Attr AttrSpec Utf8 TableDump.

(** * Strings *)
Definition scalar (c : N) : Prop := c < 0xD800 \/ 0xE000 <= c < 0x110000.
Definition utf8 (s : bytes) : Prop := exists l, Forall scalar l /\ s = flat_map encode_scalar l.

(** * Peers *)
(** Bit 0 of the type is set for IPv6, bit 1 for a 4-octet AS number. *)
Definition peer_ok (p : peer) : Prop :=
  pe_type p < 256 /\ pe_id p < 2 ^ 32 /\ ip_ok (pe_ip p) /\
  N.testbit (pe_type p) 0 = negb (is_v4 (pe_ip p)) /\
  pe_asn p < (if N.testbit (pe_type p) 1 then 2 ^ 32 else 2 ^ 16).
Definition peer_wire (p : peer) : bytes :=
  [pe_type p] ++ be 4 (pe_id p) ++ octets (pe_ip p) ++ be (if N.testbit (pe_type p) 1 then 4 else 2) (pe_asn p).
Definition table_wire (c : N) (nm : bytes) (l : list peer) : bytes :=
  be 4 c ++ be 2 (nlen nm) ++ nm ++ be 2 (nlen l) ++ flat_map peer_wire l.
(** The peers of the table are those of the list, numbered from 0. *)
Definition numbered (t : peer_table) (l : list peer) : Prop :=
  forall id, get_peer_by_id t id = nth_error l (N.to_nat id).
(** An address is found under the last number that has it. *)
Definition addresses_last (t : peer_table) (l : list peer) : Prop :=
  forall i, match get_peer_id_by_addr t i with
            | Some id => (exists p, nth_error l (N.to_nat id) = Some p /\ pe_ip p = i) /\
                forall j p, nth_error l j = Some p -> pe_ip p = i -> (j <= N.to_nat id)%nat
            | None => forall p, In p l -> pe_ip p <> i
            end.
(** Increasing numbers. *)
Definition key_lt (a b : N * peer) : Prop := fst a < fst b.
(** What every [HashMap] satisfies. *)
Definition map_ok {K V} (m : list (K * V)) : Prop := NoDup (map fst m).

(** Registering a list of peers one by one: the results and the final table. *)
Definition register (t : peer_table) (ps : list peer) : list (res N) * peer_table :=
  fold_left (fun x p => let '(rs, t) := x in let '(r, t') := add_peer t p in (rs ++ [r], t')) ps ([], t).
(** The number of peers a table can hold. *)
Definition max_peers : nat := N.to_nat 65535.
(** What registering answers for the peer whose address is the [n]-th to appear. *)
Definition entry_result (n : nat) : res N := if (n <? max_peers)%nat then Ok (N.of_nat n) else Err EEncTooLarge.
(** The first peer of each address, in order of appearance. *)
Fixpoint firsts (l : list peer) : list peer :=
  match l with
  | [] => []
  | p :: t => p :: filter (fun q => negb (ip_eqb (pe_ip q) (pe_ip p))) (firsts t)
  end.

(** * Geographic peers *)
Definition geo_ok (g : geo_peer) : Prop := peer_ok (gp_peer g) /\ gp_lat g < 2 ^ 32 /\ gp_lon g < 2 ^ 32.
Definition geo_wire (g : geo_peer) : bytes := peer_wire (gp_peer g) ++ be 4 (gp_lat g) ++ be 4 (gp_lon g).
Definition geo_table_wire (c : N) (nm : bytes) (la lo : N) (l : list geo_peer) : bytes :=
  be 4 c ++ be 2 (nlen nm) ++ nm ++ be 4 la ++ be 4 lo ++ be 2 (nlen l) ++ flat_map geo_wire l.

(** * RIB entries *)
(** The subtypes: IPv4 or IPv6, unicast or multicast, without and with path identifiers. *)
Definition rib_subtype (t : N) (a : afi) (sf : safi) (ap : bool) : Prop :=
  t = (match a, sf with
       | AIpv4, SUnicast => 2 | AIpv4, SMulticast => 3 | AIpv6, SUnicast => 4 | AIpv6, SMulticast => 5 | _, _ => 0
       end) + (if ap then 6 else 0) /\ (a = AIpv4 \/ a = AIpv6) /\ (sf = SUnicast \/ sf = SMulticast).
Definition rib_cfg (ap : bool) (a : afi) (sf : safi) (p : prefix) : acfg := ACfg Bits32 ap (Some a) (Some sf) (Some [p]).
Definition path_ok (ap : bool) (o : option N) : Prop :=
  match o with Some i => ap = true /\ i < 2 ^ 32 | None => ap = false end.
Definition path_wire (o : option N) : bytes := match o with Some i => be 4 i | None => [] end.
(** A network: its length and just enough octets of its address. *)
Definition net_wire (x : ipnet) : bytes :=
  [net_len x] ++ firstn (N.to_nat ((net_len x + 7) / 8)) (octets (net_addr x)).
Definition rib_wire (seq : N) (x : ipnet) (count : N) (entries : bytes) : bytes :=
  be 4 seq ++ net_wire x ++ be 2 count ++ entries.
(** An entry with the attribute block [b]. *)
Definition entry_wire (pi t : N) (path : option N) (b : bytes) : bytes :=
  be 2 pi ++ be 4 t ++ path_wire path ++ be 2 (nlen b) ++ b.
(** [w] is an entry read as [e]. *)
Definition entry_reads (ap : bool) (a : afi) (sf : safi) (p : prefix) (w : bytes) (e : rib_entry) : Prop :=
  exists b A, w = entry_wire (re_peer e) (re_time e) (re_path e) b /\ re_peer e < 2 ^ 16 /\ re_time e < 2 ^ 32 /\
    path_ok ap (re_path e) /\ nlen b < 2 ^ 16 /\ parse_attributes (rib_cfg ap a sf p) b = Ok A /\
    re_attrs e = check_mandatory A true (match a with AIpv4 => true | _ => false end).
Definition rib_entry_ok (ap : bool) (a : afi) (sf : safi) (p : prefix) (e : rib_entry) : Prop :=
  re_peer e < 2 ^ 16 /\ re_time e < 2 ^ 32 /\ path_ok ap (re_path e) /\
  Forall (attr_ok (rib_cfg ap a sf p)) (at_inner (re_attrs e)).
Definition same_entry (x y : rib_entry) : Prop :=
  re_peer x = re_peer y /\ re_time x = re_time y /\ re_path x = re_path y /\
  at_inner (re_attrs x) = at_inner (re_attrs y).

(** * TABLE_DUMP *)
Definition dump_subtype (sub : N) (a : afi) : Prop := sub = 1 /\ a = AIpv4 \/ sub = 2 /\ a = AIpv6.
Definition dump_cfg : acfg := ACfg Bits16 false None None None.
Definition dump_wire (m : dump) (b : bytes) : bytes :=
  octets (net_addr (p_net (td_prefix m))) ++ [net_len (p_net (td_prefix m))] ++ [td_status m] ++ be 4 (td_time m) ++
  octets (td_peer m) ++ be 2 (td_asn m) ++ be 2 (nlen b) ++ b.
Definition dump_head_ok (a : afi) (m : dump) : Prop :=
  net_ok (p_net (td_prefix m)) /\ p_id (td_prefix m) = None /\ afi_of_ip (net_addr (p_net (td_prefix m))) = a /\
  td_status m < 256 /\ td_time m < 2 ^ 32 /\ ip_ok (td_peer m) /\ afi_of_ip (td_peer m) = a /\ td_asn m < 2 ^ 16.
Definition dump_ok (a : afi) (m : dump) : Prop := dump_head_ok a m /\ Forall (attr_ok dump_cfg) (at_inner (td_attrs m)).
Definition dump_reads (a : afi) (w : bytes) (m : dump) : Prop :=
  exists b A, w = dump_wire m b /\ dump_head_ok a m /\ nlen b < 2 ^ 16 /\ parse_attributes dump_cfg b = Ok A /\
    td_attrs m = check_mandatory A true (match a with AIpv4 => true | _ => false end).
Definition same_dump (x y : dump) : Prop :=
  td_view x = td_view y /\ td_seq x = td_seq y /\ td_prefix x = td_prefix y /\ td_status x = td_status y /\
  td_time x = td_time y /\ td_peer x = td_peer y /\ td_asn x = td_asn y /\
  at_inner (td_attrs x) = at_inner (td_attrs y).
