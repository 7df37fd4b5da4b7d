(** Vocabulary of the theorems about filters. *)
From Coq Require Import String Floats.SpecFloat.
From Verif Require Import Base Net NetSpec AsPath Community Attr Elem Text Filter.

(** Every address of [small] is an address of [big]: same family, and the bits fixed by [big]
    are the same in [small]. *)
Definition contains (big small : ipnet) : Prop :=
  is_v4 (net_addr big) = is_v4 (net_addr small) /\ net_len big <= net_len small /\
  let h := 2 ^ (net_width (net_addr big) - net_len big) in
  ip_val (net_addr big) / h = ip_val (net_addr small) / h.
(** What the code looks at instead: inclusion of address ranges that start at the address
    as given. *)
Definition range_in (big small : ipnet) : Prop :=
  is_v4 (net_addr big) = is_v4 (net_addr small) /\
  ip_val (net_addr big) <= ip_val (net_addr small) /\ net_broadcast small <= net_broadcast big.
Definition prefix_holds (m i : ipnet) (t : match_type) : Prop :=
  i = m \/
  match t with
  | MExact => False | MSuper => range_in i m | MSub => range_in m i | MSuperSub => range_in i m \/ range_in m i
  end.
(** Order of floats; false when one is not a number. *)
Definition f64_le (a b : f64) : Prop := SFcompare a b = Some Lt \/ SFcompare a b = Some Eq.
Definition present {A} (o : option A) : Prop := exists a, o = Some a.
(** What each filter asks of an element. *)
Fixpoint holds (show : meta_community -> bytes) (e : elem) (f : filter) : Prop :=
  match f with
  | FNegated g => ~ holds show e g
  | FOriginAsn a => exists l, e_origins e = Some l /\ In a l
  | FOriginAsns v => exists a l, In a v /\ e_origins e = Some l /\ In a l
  | FPrefix p t => prefix_holds p (p_net (e_prefix e)) t
  | FPrefixes l t => exists p, In p l /\ prefix_holds p (p_net (e_prefix e)) t
  | FPeerIp i => e_peer e = i
  | FPeerIps l => In (e_peer e) l
  | FPeerAsn a => e_asn e = a
  | FPeerAsns l => In (e_asn e) l
  | FType t => e_type e = t
  | FTsStart t => f64_le t (e_time e)
  | FTsEnd t => f64_le (e_time e) t
  | FAsPath r => exists p, e_path e = Some p /\ r (show_path p) = true
  | FCommunity r => exists l c, e_comms e = Some l /\ In c l /\ r (show c) = true
  | FIpVersion Ipv4 => exists a, net_addr (p_net (e_prefix e)) = V4 a
  | FIpVersion Ipv6 => exists a, net_addr (p_net (e_prefix e)) = V6 a
  | FOtc a => e_otc e = Some a
  | FNextHop i => e_hop e = Some i
  | FOrigin o => e_origin e = Some o
  | FLocalPref a => e_pref e = Some a
  | FMed a => e_med e = Some a
  | FAtomic b => e_atomic e = b
  | FAggrAsn a => e_aggr_asn e = Some a
  | FAggrIp i => e_aggr_ip e = Some i
  | FPeerBgpId i => e_id e = Some i
  | FPresent PfOtc => present (e_otc e)
  | FPresent PfNextHop => present (e_hop e)
  | FPresent PfOrigin => present (e_origin e)
  | FPresent PfLocalPref => present (e_pref e)
  | FPresent PfMed => present (e_med e)
  | FPresent PfAggrAsn => present (e_aggr_asn e)
  | FPresent PfAggrIp => present (e_aggr_ip e)
  | FPresent PfPeerId => present (e_id e)
  end.
(** The part of an element that route-level iteration delivers. *)
Definition project (e : elem) : route := Route (e_time e) (e_type e) (e_peer e) (e_asn e) (e_prefix e) (e_path e).
(** A filter on a field that routes lack, under any number of negations. *)
Fixpoint needs_elem (f : filter) : bool := match f with FNegated g => needs_elem g | _ => is_elem_only_filter f end.
(** The values of a comma-separated list: blanks are removed, empty parts skipped. *)
Definition list_parts (s : bytes) : list bytes :=
  List.filter (fun p => match p with [] => false | _ => true end) (split_on 44 (List.filter (fun c => negb (c =? 32)) s)).
(** A value and whether it is negated. *)
Definition valued {A} (p : bytes -> option A) (n : bool) (s : bytes) (a : A) : Prop :=
  exists v, p v = Some a /\ if n then s = 33 :: v else s = v /\ hd_error s <> Some 33.

(** * The keywords of textual filters *)
(** What a keyword with one value asks of an element. *)
Inductive single (show : meta_community -> bytes) (ps : parsers) : string -> bytes -> (elem -> Prop) -> Prop :=
| s_origin_asn v a : parse_u32 v = Some a -> single show ps "origin_asn" v (fun e => exists l, e_origins e = Some l /\ In a l)
| s_prefix v p : ps_net ps v = Some p -> single show ps "prefix" v (fun e => prefix_holds p (p_net (e_prefix e)) MExact)
| s_prefix_super v p : ps_net ps v = Some p -> single show ps "prefix_super" v (fun e => prefix_holds p (p_net (e_prefix e)) MSuper)
| s_prefix_sub v p : ps_net ps v = Some p -> single show ps "prefix_sub" v (fun e => prefix_holds p (p_net (e_prefix e)) MSub)
| s_prefix_both v p : ps_net ps v = Some p -> single show ps "prefix_super_sub" v (fun e => prefix_holds p (p_net (e_prefix e)) MSuperSub)
| s_peer_ip v i : ps_ip ps v = Some i -> single show ps "peer_ip" v (fun e => e_peer e = i)
| s_peer_asn v a : parse_u32 v = Some a -> single show ps "peer_asn" v (fun e => e_asn e = a)
| s_withdraw w : In w ["w"; "withdraw"; "withdrawal"]%string -> single show ps "type" (str w) (fun e => e_type e = Withdraw)
| s_announce w : In w ["a"; "announce"; "announcement"]%string -> single show ps "type" (str w) (fun e => e_type e = Announce)
| s_start k v t : In k ["ts_start"; "start_ts"]%string -> ps_time ps v = Some t -> single show ps k v (fun e => f64_le t (e_time e))
| s_end k v t : In k ["ts_end"; "end_ts"]%string -> ps_time ps v = Some t -> single show ps k v (fun e => f64_le (e_time e) t)
| s_path v r : ps_regex ps v = Some r -> single show ps "as_path" v (fun e => exists p, e_path e = Some p /\ r (show_path p) = true)
| s_comm v r : ps_regex ps v = Some r -> single show ps "community" v (fun e => exists l c, e_comms e = Some l /\ In c l /\ r (show c) = true)
| s_v4 k w : In k ["ip_version"; "ip"]%string -> In w ["4"; "v4"; "ipv4"]%string -> single show ps k (str w) (fun e => exists a, net_addr (p_net (e_prefix e)) = V4 a)
| s_v6 k w : In k ["ip_version"; "ip"]%string -> In w ["6"; "v6"; "ipv6"]%string -> single show ps k (str w) (fun e => exists a, net_addr (p_net (e_prefix e)) = V6 a)
| s_otc v a : parse_u32 v = Some a -> single show ps "otc" v (fun e => e_otc e = Some a)
| s_hop v i : ps_ip ps v = Some i -> single show ps "next_hop" v (fun e => e_hop e = Some i)
| s_origin v w o : In (w, o) [("igp", IGP); ("egp", EGP); ("incomplete", INCOMPLETE)]%string -> lower v = str w -> single show ps "origin" v (fun e => e_origin e = Some o)
| s_pref v a : parse_u32 v = Some a -> single show ps "local_pref" v (fun e => e_pref e = Some a)
| s_med v a : parse_u32 v = Some a -> single show ps "med" v (fun e => e_med e = Some a)
| s_atomic w : In w ["true"; "t"; "1"]%string -> single show ps "atomic" (str w) (fun e => e_atomic e = true)
| s_not_atomic w : In w ["false"; "f"; "0"]%string -> single show ps "atomic" (str w) (fun e => e_atomic e = false)
| s_aggr_asn v a : parse_u32 v = Some a -> single show ps "aggr_asn" v (fun e => e_aggr_asn e = Some a)
| s_aggr_ip v i : ps_ip4 ps v = Some i -> single show ps "aggr_ip" v (fun e => e_aggr_ip e = Some i)
| s_id v i : ps_ip4 ps v = Some i -> single show ps "peer_bgp_id" v (fun e => e_id e = Some i).
(** Keywords with a list of values, of which an element must have one. *)
Inductive listed (ps : parsers) : string -> bytes -> bool -> (elem -> Prop) -> Prop :=
| l_origin_asns v l n : l <> [] -> Forall2 (valued parse_u32 n) (list_parts v) l -> listed ps "origin_asns" v n (fun e => exists a os, In a l /\ e_origins e = Some os /\ In a os)
| l_prefixes k t v l n : In (k, t) [("prefixes", MExact); ("prefixes_super", MSuper); ("prefixes_sub", MSub); ("prefixes_super_sub", MSuperSub)]%string ->
    l <> [] -> Forall2 (valued (ps_net ps) n) (list_parts v) l -> listed ps k v n (fun e => exists p, In p l /\ prefix_holds p (p_net (e_prefix e)) t)
| l_peer_ips v l n : l <> [] -> Forall2 (valued (ps_ip ps) n) (list_parts v) l -> listed ps "peer_ips" v n (fun e => In (e_peer e) l)
| l_peer_asns v l n : l <> [] -> Forall2 (valued parse_u32 n) (list_parts v) l -> listed ps "peer_asns" v n (fun e => In (e_asn e) l).
(** Keywords that take [*]: the element has the field. *)
Inductive starred : string -> (elem -> Prop) -> Prop :=
| st_otc : starred "otc" (fun e => present (e_otc e))
| st_hop : starred "next_hop" (fun e => present (e_hop e))
| st_origin : starred "origin" (fun e => present (e_origin e))
| st_pref : starred "local_pref" (fun e => present (e_pref e))
| st_med : starred "med" (fun e => present (e_med e))
| st_aggr_asn : starred "aggr_asn" (fun e => present (e_aggr_asn e))
| st_aggr_ip : starred "aggr_ip" (fun e => present (e_aggr_ip e))
| st_id : starred "peer_bgp_id" (fun e => present (e_id e)).
(** What a textual filter asks: a starred keyword, a list (all negated or none), or a value,
    negated by an exclamation mark except for times. *)
Inductive asks (show : meta_community -> bytes) (ps : parsers) : string -> bytes -> (elem -> Prop) -> Prop :=
| a_star k P : starred k P -> asks show ps k (str "*") P
| a_not_star k P : starred k P -> asks show ps k (str "!*") (fun e => ~ P e)
| a_list k v P : listed ps k v false P -> asks show ps k v P
| a_not_list k v P : listed ps k v true P -> asks show ps k v (fun e => ~ P e)
| a_single k v P : single show ps k v P -> hd_error v <> Some 33 -> (v = str "*" -> forall Q, ~ starred k Q) -> asks show ps k v P
| a_not_single k v P : single show ps k v P -> hd_error v <> Some 33 -> (v = str "*" -> forall Q, ~ starred k Q) ->
    ~ In k ["ts_start"; "start_ts"; "ts_end"; "end_ts"]%string -> asks show ps k (33 :: v) (fun e => ~ P e).
