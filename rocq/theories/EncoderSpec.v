(** Vocabulary of the theorems about the encoders. *)
From Coq Require Import Permutation.
From Verif Require Import Base Net NetSpec AsPath AsPathSpec Community CommunitySpec Attr AttrSpec BgpMsg Bgp4mp TableDump TableDumpSpec Framing MrtRecord Elem ElemSpec Bmp Encoder.

(** * What is fed *)
(** An element, with whether its peer's AS number is held as a 4-octet number. *)
Definition fed := (bool * elem)%type.
(** Feeding elements one after another: the answers and the encoder afterwards. *)
Fixpoint feed (x : rib_encoder) (l : list fed) : list (res unit) * rib_encoder :=
  match l with
  | [] => ([], x)
  | (four, e) :: l' =>
      let '(r, x1) := rib_process x four e in let '(rs, x2) := feed x1 l' in (r :: rs, x2)
  end.
(** The elements that were not refused. *)
Fixpoint accepted (rs : list (res unit)) (l : list fed) : list fed :=
  match rs, l with
  | Ok _ :: rs', f :: l' => f :: accepted rs' l'
  | _ :: rs', _ :: l' => accepted rs' l'
  | _, _ => []
  end.
Definition first_such {A} (P : A -> Prop) (l : list A) (a : A) : Prop :=
  exists l1 l2, l = l1 ++ a :: l2 /\ P a /\ Forall (fun x => ~ P x) l1.
Definition last_such {A} (P : A -> Prop) (l : list A) (a : A) : Prop :=
  exists l1 l2, l = l1 ++ a :: l2 /\ P a /\ Forall (fun x => ~ P x) l2.
Definition from_peer (i : ip) (f : fed) : Prop := e_peer (snd f) = i.
Definition of_net (n : ipnet) (f : fed) : Prop := p_net (e_prefix (snd f)) = n.
Definition of_route (i : ip) (n : ipnet) (f : fed) : Prop := from_peer i f /\ of_net n f.

(** * Orders of iteration *)
(** [o] lists the entries of a map of maps, in any order. *)
Definition iteration (m : list (ipnet * list (N * rib_entry))) (o : list (ipnet * list rib_entry)) : Prop :=
  exists m', Permutation m m' /\
    Forall2 (fun x y => fst x = fst y /\ Permutation (map snd (snd x)) (snd y)) m' o.

(** * What can be written *)
Definition meta_ok (c : meta_community) : Prop :=
  match c with
  | MPlain x => community_ok x | MExtended x => ext_ok x | MLarge x => large_ok x | MIpv6Extended x => ipv6_ext_ok x
  end.
Definition small (o : option N) : Prop := match o with Some n => n < 2 ^ 32 | None => True end.
(** An element with fields of the widths the formats have, whose next hop is of the family
    [hop]. *)
Definition elem_ok (hop : afi) (e : elem) : Prop :=
  prefix_ok (e_prefix e) /\ wire_exact (p_net (e_prefix e)) /\ ip_ok (e_peer e) /\ e_asn e < 2 ^ 32 /\
  (e_type e = Announce ->
    (exists h, e_hop e = Some h /\ ip_ok h /\ afi_of_ip h = hop) /\
    (forall p, e_path e = Some p -> Forall (wire_seg Bits32) p) /\
    small (e_pref e) /\ small (e_med e) /\ small (e_otc e) /\ small (e_aggr_asn e) /\ small (e_aggr_ip e) /\
    (forall l, e_comms e = Some l -> Forall meta_ok l) /\
    (forall l, e_unknown e = Some l -> Forall (fun x => bytes_ok (snd x) /\ fst x < 256 /\
       ~ deprecated (fst x) /\ ~ retained (fst x) /\ ~ decodable (fst x)) l) /\
    (forall l, e_depr e = Some l -> Forall (fun x => bytes_ok (snd x) /\ deprecated (fst x)) l)).
(** For the RIB encoder: the next hop has the family of the prefix; a 2-octet AS number is
    one. *)
Definition fed_ok (f : fed) : Prop :=
  elem_ok (afi_of_ip (net_addr (p_net (e_prefix (snd f))))) (snd f) /\ (fst f = false -> e_asn (snd f) < 2 ^ 16).
(** All elements of a prefix have a path identifier, or none has. *)
Definition ids_agree (l : list fed) : Prop :=
  forall f g, In f l -> In g l -> p_net (e_prefix (snd f)) = p_net (e_prefix (snd g)) ->
    has_id (e_prefix (snd f)) = has_id (e_prefix (snd g)).

(** * What is read back *)
(** The table has one peer per address fed, with the AS number it was first fed with. *)
Definition peers_of (acc : list fed) (t : peer_table) : Prop :=
  exists ps, numbered t ps /\ NoDup (map pe_ip ps) /\
    (forall i, In i (map pe_ip ps) <-> exists f, In f acc /\ from_peer i f) /\
    (forall p, In p ps -> exists f, first_such (from_peer (pe_ip p)) acc f /\ pe_asn p = e_asn (snd f) /\
       pe_id p = match pe_ip p with V4 n => n | V6 _ => 0 end).
(** The entry of an element. *)
Definition entry_of (e : elem) (r : rib_entry) : Prop :=
  re_time r = f64_to_u32 (e_time e) /\ re_path r = p_id (e_prefix e) /\
  map a_value (at_inner (re_attrs r)) = elem_values e.
(** The record of a prefix: one entry per peer that announced it, made from the last element of
    that peer for that prefix. *)
Definition rib_for (acc : list fed) (t : peer_table) (n : ipnet) (r : mrt_record) : Prop :=
  exists b, mr_msg r = MrtV2 (V2Rib b) /\ rb_prefix b = Pfx n None /\ NoDup (map re_peer (rb_entries b)) /\
    (forall i f, last_such (of_route i n) acc f ->
       exists en p, In en (rb_entries b) /\ get_peer_by_id t (re_peer en) = Some p /\ pe_ip p = i) /\
    (forall en, In en (rb_entries b) ->
       exists p f, get_peer_by_id t (re_peer en) = Some p /\ last_such (of_route (pe_ip p) n) acc f /\ entry_of (snd f) en).
(** [e] as it is read from a RIB dump, [g] being the first element of its peer: an announcement
    at its second, with the AS number of [g] and the address as BGP identifier if it is IPv4,
    without path identifier; its attributes are those of [reread] (a withdrawal has none). *)
Definition dumped (g e : elem) : elem :=
  let r := reread e in
  let d := match e_type e with Announce => fun o => o | Withdraw => fun _ => Some 0 end in
  Elem (f64_of_N (f64_to_u32 (e_time e))) Announce (e_peer e) (e_asn g)
    (Some (match e_peer e with V4 n => n | V6 _ => 0 end)) (Pfx (p_net (e_prefix e)) None)
    (e_hop r) (e_path r) (e_origins r) (e_origin r) (d (e_pref r)) (d (e_med r)) (e_comms r) (e_atomic r)
    (e_aggr_asn r) (e_aggr_ip r) (e_otc r) (e_unknown r) (e_depr r).
(** [e] at another time. *)
Definition at_time (t : f64) (e : elem) : elem :=
  Elem t (e_type e) (e_peer e) (e_asn e) (e_id e) (e_prefix e) (e_hop e) (e_path e) (e_origins e) (e_origin e) (e_pref e) (e_med e)
    (e_comms e) (e_atomic e) (e_aggr_asn e) (e_aggr_ip e) (e_otc e) (e_unknown e) (e_depr e).
(** [e] as it is read from an update file: [reread] at the time that seconds and microseconds
    make. *)
Definition logged (e : elem) : elem :=
  let '(s, us) := convert_timestamp (e_time e) in at_time (record_time (Hdr s (Some us) 17 4 0)) (reread e).
(** The record of an element: its peer, local AS and address zero, one route. *)
Definition logs (e : elem) (r : mrt_record) : Prop :=
  (h_ts (mr_hdr r), h_us (mr_hdr r)) = (fst (convert_timestamp (e_time e)), Some (snd (convert_timestamp (e_time e)))) /\
  exists m u, mr_msg r = MrtBgp4mp (MpMessage m) /\ mm_bgp m = MUpdate u /\
    mm_peer m = e_peer e /\ mm_peer_as m = e_asn e /\ mm_local_as m = 0 /\ octets (mm_local m) = repeat 0 (length (octets (e_peer e))) /\
    u_announced u = [] /\ u_withdrawn u = [] /\ map a_value (at_inner (u_attrs u)) = elem_values e.
(** For the updates encoder: the next hop is IPv4, there is no path identifier. *)
Definition log_ok (e : elem) : Prop := elem_ok AIpv4 e /\ has_id (e_prefix e) = false.
(** The states of a RIB encoder, with the elements fed since it was made or last exported
    with success. *)
Inductive history : list fed -> rib_encoder -> Prop :=
| hist_new : history [] rib_new
| hist_feed l x four e : history l x -> history (l ++ [(four, e)]) (snd (rib_process x four e))
| hist_export l x o b x' : history l x -> rib_export x o = (Ok b, x') -> history [] x'
| hist_failed l x o r x' : history l x -> rib_export x o = (Err r, x') -> history l x'.
(** Peer and prefix of an element. *)
Definition route_of (e : elem) : ip * ipnet := (e_peer e, p_net (e_prefix e)).
(** Records of at most 16 MiB, the most the reader accepts (C01). *)
Definition sized (x : rib_encoder) (o : list (ipnet * list rib_entry)) : Prop :=
  Forall (fun r => forall y, r = Ok y -> nlen y <= 12 + 16777216) (rib_parts x o).
