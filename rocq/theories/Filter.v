(** Filters (/repo/src/parser/filter.rs). *)
From Coq Require Import String Floats.SpecFloat.
From Verif Require Import Base Net AsPath Community Attr Elem Text.

(** filter.rs:199-227. *)
Inductive present_field := PfOtc | PfNextHop | PfOrigin | PfLocalPref | PfMed | PfAggrAsn | PfAggrIp | PfPeerId.
Inductive ip_version := Ipv4 | Ipv6.
Inductive match_type := MExact | MSuper | MSub | MSuperSub.
(** filter.rs:168-197 [Filter].  A regular expression ([ComparableRegex], utils.rs:409-439) is
    the set of texts it matches. *)
Definition regex := bytes -> bool.
Inductive filter :=
| FOriginAsn (v : N) | FOriginAsns (v : list N)
| FPrefix (p : ipnet) (t : match_type) | FPrefixes (l : list ipnet) (t : match_type)
| FPeerIp (i : ip) | FPeerIps (l : list ip)
| FPeerAsn (v : N) | FPeerAsns (l : list N)
| FType (t : elem_type) | FIpVersion (v : ip_version)
| FTsStart (t : f64) | FTsEnd (t : f64)
| FAsPath (r : regex) | FCommunity (r : regex)
| FOtc (a : asn) | FNextHop (i : ip) | FOrigin (o : origin) | FLocalPref (v : N) | FMed (v : N)
| FAtomic (b : bool) | FAggrAsn (a : asn) | FAggrIp (i : N) | FPeerBgpId (i : N)
| FPresent (f : present_field) | FNegated (f : filter).

(** elem.rs:170-187 [BgpRouteElem]; the shared pointer to the path is the path. *)
Record route := Route {
  ro_time : f64; ro_type : elem_type; ro_peer : ip; ro_asn : asn; ro_prefix : prefix; ro_path : option aspath }.
(** filter.rs:692-738 [RouteFilterView] and its implementations (851-954): what filters see. *)
Inductive view := VElem (e : elem) | VRoute (r : route).
Definition vw_time (v : view) := match v with VElem e => e_time e | VRoute r => ro_time r end.
Definition vw_type (v : view) := match v with VElem e => e_type e | VRoute r => ro_type r end.
Definition vw_peer (v : view) := match v with VElem e => e_peer e | VRoute r => ro_peer r end.
Definition vw_asn (v : view) := match v with VElem e => e_asn e | VRoute r => ro_asn r end.
Definition vw_prefix (v : view) := match v with VElem e => e_prefix e | VRoute r => ro_prefix r end.
Definition vw_path (v : view) := match v with VElem e => e_path e | VRoute r => ro_path r end.
Definition vw_origin_asn (v : view) (a : asn) : bool :=
  match v with
  | VElem e => match e_origins e with Some l => existsb (N.eqb a) l | None => false end
  | VRoute r => match ro_path r with Some p => existsb (fun o => o =? a) (iter_origins p) | None => false end
  end.
Definition vw_field {A} (f : elem -> option A) (v : view) : option A := match v with VElem e => f e | VRoute _ => None end.
Definition vw_atomic (v : view) : bool := match v with VElem e => e_atomic e | VRoute _ => false end.
Definition is_full_elem_view (v : view) : bool := match v with VElem _ => true | VRoute _ => false end.
(** filter.rs:911-916; [show] is the [Display] of communities. *)
Definition vw_community (show : meta_community -> bytes) (v : view) (r : regex) : bool :=
  match v with
  | VElem e => match e_comms e with Some l => existsb (fun c => r (show c)) l | None => false end
  | VRoute _ => false
  end.

(** filter.rs:658-676 [is_elem_only_filter]. *)
Definition is_elem_only_filter (f : filter) : bool :=
  match f with
  | FCommunity _ | FOtc _ | FNextHop _ | FOrigin _ | FLocalPref _ | FMed _ | FAtomic _ | FAggrAsn _ | FAggrIp _
  | FPeerBgpId _ | FPresent _ => true
  | _ => false
  end.

(** [IpAddr] ordering within one family; the code compares addresses of one family only. *)
Definition ip_leb (a b : ip) : bool :=
  match a, b with V4 x, V4 y | V6 x, V6 y => x <=? y | V4 _, V6 _ => true | V6 _, V4 _ => false end.
(** [IpNet::broadcast] (crate ipnet): the address with all host bits set. *)
Definition broadcast (x : ipnet) : ip := if is_v4 (net_addr x) then V4 (net_broadcast x) else V6 (net_broadcast x).
(** filter.rs:740-745 [same_family]. *)
Definition same_family (a b : ipnet) : bool := Bool.eqb (is_v4 (net_addr a)) (is_v4 (net_addr b)).
(** filter.rs:747-790 [prefix_match]. *)
Definition prefix_match (m i : ipnet) (t : match_type) : bool :=
  let exact := ipnet_eqb i m in
  let super := ip_leb (net_addr i) (net_addr m) && ip_leb (broadcast m) (broadcast i) in
  let sub := ip_leb (net_addr m) (net_addr i) && ip_leb (broadcast i) (broadcast m) in
  match t with
  | MExact => exact
  | MSuper => if exact then exact else if negb (same_family m i) then false else super
  | MSub => if exact then exact else if negb (same_family m i) then false else sub
  | MSuperSub => if exact then exact else if negb (same_family m i) then false else super || sub
  end.

Definition opt_is {A} (eqb : A -> A -> bool) (o : option A) (a : A) : bool := match o with Some x => eqb x a | None => false end.
Definition is_some {A} (o : option A) : bool := match o with Some _ => true | None => false end.
Definition origin_eqb (a b : origin) : bool := origin_code a =? origin_code b.
(** filter.rs:792-849 [match_route_view_filter]. *)
Fixpoint match_filter (show : meta_community -> bytes) (v : view) (f : filter) : bool :=
  let guarded :=
    negb (is_full_elem_view v) &&
    is_elem_only_filter (match f with FNegated g => g | _ => f end) in
  if guarded then false else
  match f with
  | FNegated g => negb (match_filter show v g)
  | FOriginAsn a => vw_origin_asn v a
  | FOriginAsns l => existsb (vw_origin_asn v) l
  | FPrefix p t => prefix_match p (p_net (vw_prefix v)) t
  | FPrefixes l t => existsb (fun p => prefix_match p (p_net (vw_prefix v)) t) l
  | FPeerIp i => ip_eqb (vw_peer v) i
  | FPeerIps l => existsb (ip_eqb (vw_peer v)) l
  | FPeerAsn a => vw_asn v =? a
  | FPeerAsns l => existsb (fun a => vw_asn v =? a) l
  | FType t => elem_type_eqb (vw_type v) t
  | FTsStart t => SFleb t (vw_time v)
  | FTsEnd t => SFleb (vw_time v) t
  | FAsPath r => match vw_path v with Some p => r (show_path p) | None => false end
  | FCommunity r => is_full_elem_view v && vw_community show v r
  | FIpVersion Ipv4 => is_v4 (net_addr (p_net (vw_prefix v)))
  | FIpVersion Ipv6 => negb (is_v4 (net_addr (p_net (vw_prefix v))))
  | FOtc a => opt_is N.eqb (vw_field e_otc v) a
  | FNextHop i => opt_is ip_eqb (vw_field e_hop v) i
  | FOrigin o => opt_is origin_eqb (vw_field e_origin v) o
  | FLocalPref a => opt_is N.eqb (vw_field e_pref v) a
  | FMed a => opt_is N.eqb (vw_field e_med v) a
  | FAtomic b => Bool.eqb (vw_atomic v) b
  | FAggrAsn a => opt_is N.eqb (vw_field e_aggr_asn v) a
  | FAggrIp i => opt_is N.eqb (vw_field e_aggr_ip v) i
  | FPeerBgpId i => opt_is N.eqb (vw_field e_id v) i
  | FPresent PfOtc => is_some (vw_field e_otc v)
  | FPresent PfNextHop => is_some (vw_field e_hop v)
  | FPresent PfOrigin => is_some (vw_field e_origin v)
  | FPresent PfLocalPref => is_some (vw_field e_pref v)
  | FPresent PfMed => is_some (vw_field e_med v)
  | FPresent PfAggrAsn => is_some (vw_field e_aggr_asn v)
  | FPresent PfAggrIp => is_some (vw_field e_aggr_ip v)
  | FPresent PfPeerId => is_some (vw_field e_id v)
  end.
(** filter.rs:685-690 [match_filters]. *)
Definition match_filters (show : meta_community -> bytes) (v : view) (l : list filter) : bool := forallb (match_filter show v) l.

(** * Filters from text *)
(** The text parsers of other crates: networks, addresses, regular expressions, and
    [parse_time_str] (filter.rs:229-237) as the resulting float. *)
Record parsers := Parsers {
  ps_net : bytes -> option ipnet; ps_ip : bytes -> option ip; ps_ip4 : bytes -> option N;
  ps_regex : bytes -> option regex; ps_time : bytes -> option f64 }.
(** [strip_prefix('!')]. *)
Definition strip_bang (s : bytes) : bool * bytes := match s with 33 :: r => (true, r) | _ => (false, s) end.
(** filter.rs:239-368 [parse_asn_list], [parse_prefix_list], [parse_ip_list], which differ in
    the parser of one value only: the loop over the parts. *)
Fixpoint parse_parts {A} (p : bytes -> option A) (neg : option bool) (l : list bytes) : option (list A * option bool) :=
  match l with
  | [] => Some ([], neg)
  | [] :: l' => parse_parts p neg l'
  | s :: l' =>
      let '(n, v) := strip_bang s in
      if match neg with Some b => negb (Bool.eqb b n) | None => false end then None else
      match p v with
      | Some a => match parse_parts p (Some n) l' with Some (r, x) => Some (a :: r, x) | None => None end
      | None => None
      end
  end.
Definition parse_list {A} (p : bytes -> option A) (s : bytes) : option (list A * bool) :=
  match parse_parts p None (split_on 44 (List.filter (fun c => negb (c =? 32)) s)) with
  | Some ([], _) => None
  | Some (l, n) => Some (l, match n with Some b => b | None => false end)
  | None => None
  end.
(** filter.rs:642-656 [present_field_for]. *)
Definition present_field_for (ty : bytes) : option present_field :=
  if bytes_eqb ty (str "otc") then Some PfOtc else if bytes_eqb ty (str "next_hop") then Some PfNextHop
  else if bytes_eqb ty (str "origin") then Some PfOrigin else if bytes_eqb ty (str "local_pref") then Some PfLocalPref
  else if bytes_eqb ty (str "med") then Some PfMed else if bytes_eqb ty (str "aggr_asn") then Some PfAggrAsn
  else if bytes_eqb ty (str "aggr_ip") then Some PfAggrIp else if bytes_eqb ty (str "peer_bgp_id") then Some PfPeerId
  else None.
Definition one_of (s : bytes) (l : list string) : bool := existsb (fun x => bytes_eqb s (str x)) l.
Local Open Scope string_scope. Local Open Scope list_scope. Local Open Scope N_scope.
(** [to_lowercase], on the characters that matter here. *)
Definition lower (s : bytes) : bytes := map (fun c => if (65 <=? c) && (c <=? 90) then c + 32 else c) s.
Definition negate_if (b : bool) (f : filter) : filter := if b then FNegated f else f.
(** filter.rs:437-639 [new_base]; an error is [None]. *)
Definition new_base (ps : parsers) (ty v : bytes) : option filter :=
  let nums (k : list N -> filter) := match parse_list parse_u32 v with Some (l, n) => Some (negate_if n (k l)) | None => None end in
  let nets (k : list ipnet -> filter) := match parse_list (ps_net ps) v with Some (l, n) => Some (negate_if n (k l)) | None => None end in
  if one_of ty ["origin_asn"] then option_map FOriginAsn (parse_u32 v)
  else if one_of ty ["origin_asns"] then nums FOriginAsns
  else if one_of ty ["prefix"] then option_map (fun p => FPrefix p MExact) (ps_net ps v)
  else if one_of ty ["prefix_super"] then option_map (fun p => FPrefix p MSuper) (ps_net ps v)
  else if one_of ty ["prefix_sub"] then option_map (fun p => FPrefix p MSub) (ps_net ps v)
  else if one_of ty ["prefix_super_sub"] then option_map (fun p => FPrefix p MSuperSub) (ps_net ps v)
  else if one_of ty ["prefixes"] then nets (fun l => FPrefixes l MExact)
  else if one_of ty ["prefixes_super"] then nets (fun l => FPrefixes l MSuper)
  else if one_of ty ["prefixes_sub"] then nets (fun l => FPrefixes l MSub)
  else if one_of ty ["prefixes_super_sub"] then nets (fun l => FPrefixes l MSuperSub)
  else if one_of ty ["peer_ip"] then option_map FPeerIp (ps_ip ps v)
  else if one_of ty ["peer_ips"] then match parse_list (ps_ip ps) v with Some (l, n) => Some (negate_if n (FPeerIps l)) | None => None end
  else if one_of ty ["peer_asn"] then option_map FPeerAsn (parse_u32 v)
  else if one_of ty ["peer_asns"] then nums FPeerAsns
  else if one_of ty ["type"] then
    if one_of v ["w"; "withdraw"; "withdrawal"] then Some (FType Withdraw)
    else if one_of v ["a"; "announce"; "announcement"] then Some (FType Announce) else None
  else if one_of ty ["ts_start"; "start_ts"] then option_map FTsStart (ps_time ps v)
  else if one_of ty ["ts_end"; "end_ts"] then option_map FTsEnd (ps_time ps v)
  else if one_of ty ["as_path"] then option_map FAsPath (ps_regex ps v)
  else if one_of ty ["community"] then option_map FCommunity (ps_regex ps v)
  else if one_of ty ["ip_version"; "ip"] then
    if one_of v ["4"; "v4"; "ipv4"] then Some (FIpVersion Ipv4)
    else if one_of v ["6"; "v6"; "ipv6"] then Some (FIpVersion Ipv6) else None
  else if one_of ty ["otc"] then option_map FOtc (parse_u32 v)
  else if one_of ty ["next_hop"] then option_map FNextHop (ps_ip ps v)
  else if one_of ty ["origin"] then
    let w := lower v in
    if one_of w ["igp"] then Some (FOrigin IGP) else if one_of w ["egp"] then Some (FOrigin EGP)
    else if one_of w ["incomplete"] then Some (FOrigin INCOMPLETE) else None
  else if one_of ty ["local_pref"] then option_map FLocalPref (parse_u32 v)
  else if one_of ty ["med"] then option_map FMed (parse_u32 v)
  else if one_of ty ["atomic"] then
    if one_of v ["true"; "t"; "1"] then Some (FAtomic true)
    else if one_of v ["false"; "f"; "0"] then Some (FAtomic false) else None
  else if one_of ty ["aggr_asn"] then option_map FAggrAsn (parse_u32 v)
  else if one_of ty ["aggr_ip"] then option_map FAggrIp (ps_ip4 ps v)
  else if one_of ty ["peer_bgp_id"] then option_map FPeerBgpId (ps_ip4 ps v)
  else None.
(** filter.rs:371-435 [Filter::new]. *)
Definition multi_value : list string :=
  ["origin_asns"; "prefixes"; "prefixes_super"; "prefixes_sub"; "prefixes_super_sub"; "peer_ips"; "peer_asns"]%string.
Definition time_keys : list string := ["ts_start"; "start_ts"; "ts_end"; "end_ts"]%string.
Definition filter_new (ps : parsers) (ty v : bytes) : option filter :=
  if one_of ty multi_value then new_base ps ty v else
  let '(neg, w) := strip_bang v in
  if neg && (match w with 33 :: _ => true | _ => false end) then None else
  if neg && one_of ty time_keys then None else
  match (if bytes_eqb w [42] then present_field_for ty else None) with
  | Some f => Some (negate_if neg (FPresent f))
  | None => option_map (negate_if neg) (new_base ps ty w)
  end.
