(** JSON forms of AS paths and elements (serde implementations in /repo/src/models).  A JSON
    value is a tree: its text (serde_json) is not modelled.  Of the encodings that derived
    readers accept, only the one that is written is modelled for structures and variants
    (no arrays in place of objects). *)
From Coq Require Import String Floats.SpecFloat.
From Verif Require Import Base Net AsPath Community Attr Elem Text Filter.

(** serde_json's values.  [JNum] is a non-negative integer, [JFloat] any other number;
    [JSingle] is the text of an [f32], given by its bit pattern. *)
Inductive json :=
| JNull | JBool (b : bool) | JNum (n : N) | JFloat (f : f64) | JSingle (bits : N) | JText (s : bytes)
| JList (l : list json) | JObject (l : list (bytes * json)).

(** Composition of readers that may fail. *)
Definition obind {A B} (x : option A) (f : A -> option B) : option B := match x with Some a => f a | None => None end.
Notation "x <<- r ;; q" := (obind r (fun x => q)) (at level 61, r at next level, right associativity).
Notation "' pat <<- r ;; q" := (obind r (fun x => match x with pat => q end)) (at level 61, pat pattern, r at next level, right associativity).
Fixpoint all_of {A B} (f : A -> option B) (l : list A) : option (list B) :=
  match l with [] => Some [] | a :: l' => b <<- f a ;; bs <<- all_of f l' ;; Some (b :: bs) end.

(** serde's [u8], [u16], [u32]: an integer in range.  [bool], [String], [Vec], arrays. *)
Definition de_num (bound : N) (j : json) : option N := match j with JNum n => if n <? bound then Some n else None | _ => None end.
Definition de_bool (j : json) : option bool := match j with JBool b => Some b | _ => None end.
Definition de_text (j : json) : option bytes := match j with JText s => Some s | _ => None end.
Definition de_list {A} (f : json -> option A) (j : json) : option (list A) := match j with JList l => all_of f l | _ => None end.
Definition de_array {A} (n : nat) (f : json -> option A) (j : json) : option (list A) :=
  l <<- de_list f j ;; if Nat.eqb (length l) n then Some l else None.
(** [f64]: any number. *)
Definition de_f64 (j : json) : option f64 := match j with JNum n => Some (f64_of_N n) | JFloat f => Some f | _ => None end.
(** [Option]: null is [None]. *)
Definition de_option {A} (f : json -> option A) (j : json) : option (option A) :=
  match j with JNull => Some None | _ => a <<- f j ;; Some (Some a) end.
(** Derived readers of structures: every known field at most once, other fields ignored. *)
Definition key_count (k : bytes) (l : list (bytes * json)) : nat := length (List.filter (fun p => bytes_eqb (fst p) k) l).
Definition de_object (names : list string) (j : json) : option (list (bytes * json)) :=
  match j with
  | JObject l => if forallb (fun k => Nat.leb (key_count (str k) l) 1) names then Some l else None
  | _ => None
  end.
Fixpoint jget (k : bytes) (l : list (bytes * json)) : option json :=
  match l with [] => None | (k', j) :: l' => if bytes_eqb k' k then Some j else jget k l' end.
Definition field {A} (k : string) (f : json -> option A) (l : list (bytes * json)) : option A := j <<- jget (str k) l ;; f j.
(** An [Option] field may be absent. *)
Definition opt_field {A} (k : string) (f : json -> option A) (l : list (bytes * json)) : option (option A) :=
  match jget (str k) l with None => Some None | Some j => de_option f j end.
(** Externally tagged variants: a text, or an object with one key. *)
Definition de_tag (j : json) : option (bytes * json) := match j with JObject [(k, v)] => Some (k, v) | _ => None end.
Definition jopt {A} (f : A -> json) (o : option A) : json := match o with Some a => f a | None => JNull end.
Definition jobj (l : list (string * json)) : json := JObject (map (fun p => (str (fst p), snd p)) l).
(** asn.rs:34-36 [Asn]: as [u32]. *)
Definition ser_asn (a : asn) : json := JNum a.
Definition de_asn : json -> option asn := de_num (2 ^ 32).
Definition ser_bytes (b : bytes) : json := JList (map JNum b).
Definition de_byte : json -> option N := de_num 256.

(** * AS paths (aspath.rs:823-1052). *)
(** aspath.rs:831-868 [SegmentType], [VerboseSegment], [Serialize for AsPathSegment]. *)
Definition kind_name (k : skind) : string :=
  match k with KSeq => "AS_SEQUENCE" | KSet => "AS_SET" | KCSeq => "AS_CONFED_SEQUENCE" | KCSet => "AS_CONFED_SET" end.
Definition ser_seg (s : seg) : json := jobj [("ty"%string, JText (str (kind_name (s_kind s)))); ("values"%string, JList (map ser_asn (s_asns s)))].
(** aspath.rs:870-886 [Deserialize for AsPathSegment]. *)
Definition de_kind (j : json) : option skind :=
  s <<- de_text j ;; find (fun k => bytes_eqb s (str (kind_name k))) [KSet; KSeq; KCSeq; KCSet].
Definition de_seg (j : json) : option seg :=
  l <<- de_object ["ty"; "values"]%string j ;; k <<- field "ty" de_kind l ;; v <<- field "values" (de_list de_asn) l ;; Some (Seg k v).
(** aspath.rs:888-910 [simplified_format_len]: whether it is [Some]. *)
Fixpoint simplified (prev_seq : bool) (p : aspath) : bool :=
  match p with
  | [] => true
  | Seg KSeq _ :: p' => negb prev_seq && simplified true p'
  | Seg KSet _ :: p' => simplified false p'
  | _ => false
  end.
(** aspath.rs:958-986 [Serialize for AsPath]; the [unreachable!] arm gives no elements here. *)
Definition ser_items (s : seg) : list json :=
  match s_kind s with KSeq => map ser_asn (s_asns s) | KSet => [JList (map ser_asn (s_asns s))] | _ => [] end.
Definition ser_path (p : aspath) : json :=
  if simplified false p then JList (flat_map ser_items p) else JList (map ser_seg p).
(** aspath.rs:1001-1007 [PathElement], untagged: the first of the three that fits. *)
Inductive path_element := PEAsn (a : asn) | PESet (l : list asn) | PESeg (s : seg).
Definition de_element (j : json) : option path_element :=
  match de_asn j with
  | Some a => Some (PEAsn a)
  | None => match de_list de_asn j with
            | Some l => Some (PESet l)
            | None => s <<- de_seg j ;; Some (PESeg s)
            end
  end.
(** aspath.rs:1009-1038: one turn of the loop of [visit_seq]; [append_new_sequence] is never
    set, so it is left out. *)
Fixpoint push_asn (p : aspath) (a : asn) : aspath :=
  match p with
  | [] => [Seg KSeq [a]]
  | [Seg KSeq l] => [Seg KSeq (l ++ [a])]
  | s :: p' => s :: push_asn p' a
  end.
Definition add_element (p : aspath) (e : path_element) : aspath :=
  match e with PEAsn a => push_asn p a | PESet l => p ++ [Seg KSet l] | PESeg s => p ++ [s] end.
(** aspath.rs:997-1052 [AsPathVisitor], [Deserialize for AsPath]. *)
Definition de_path (j : json) : option aspath :=
  l <<- de_list de_element j ;; Some (fold_left add_element l []).

(** * Elements. *)
(** Texts of addresses and prefixes ([Display] of std and ipnet). *)
Record texts := Texts { tx_ip : ip -> bytes; tx_net : ipnet -> bytes }.
Definition ser_ip (tx : texts) (i : ip) : json := JText (tx_ip tx i).
Definition de_ip (ps : parsers) (j : json) : option ip := s <<- de_text j ;; ps_ip ps s.
Definition ser_ip4 (tx : texts) (n : N) : json := JText (tx_ip tx (V4 n)).
Definition de_ip4 (ps : parsers) (j : json) : option N := s <<- de_text j ;; ps_ip4 ps s.
(** [Ipv6Addr::from_str] is [IpAddr::from_str] where that gives an IPv6 address. *)
Definition ser_ip6 (tx : texts) (n : N) : json := JText (tx_ip tx (V6 n)).
Definition de_ip6 (ps : parsers) (j : json) : option N :=
  match de_ip ps j with Some (V6 n) => Some n | _ => None end.
(** prefix.rs:102-148 [SerdeNetworkPrefixRepr]: a text, or an object with these two fields
    and no other. *)
Definition ser_prefix (tx : texts) (p : prefix) : json :=
  match p_id p with
  | None => JText (tx_net tx (p_net p))
  | Some i => jobj [("prefix"%string, JText (tx_net tx (p_net p))); ("path_id"%string, JNum i)]
  end.
Definition de_net (ps : parsers) (j : json) : option ipnet := s <<- de_text j ;; ps_net ps s.
Definition de_prefix (ps : parsers) (j : json) : option prefix :=
  match de_net ps j with
  | Some n => Some (Pfx n None)
  | None =>
      l <<- de_object ["prefix"; "path_id"]%string j ;;
      if forallb (fun p => bytes_eqb (fst p) (str "prefix") || bytes_eqb (fst p) (str "path_id")) l then
        n <<- field "prefix" (de_net ps) l ;; i <<- field "path_id" (de_num (2 ^ 32)) l ;; Some (Pfx n (Some i))
      else None
  end.
(** origin.rs:4-17 [Origin], elem.rs:41-47 [ElemType]: the names of the variants. *)
Definition origin_name (o : origin) : string := match o with IGP => "IGP" | EGP => "EGP" | INCOMPLETE => "INCOMPLETE" end.
Definition ser_origin (o : origin) : json := JText (str (origin_name o)).
Definition de_origin (j : json) : option origin :=
  s <<- de_text j ;; find (fun o => bytes_eqb s (str (origin_name o))) [IGP; EGP; INCOMPLETE].
Definition type_name (t : elem_type) : string := match t with Announce => "ANNOUNCE" | Withdraw => "WITHDRAW" end.
Definition ser_type (t : elem_type) : json := JText (str (type_name t)).
Definition de_type (j : json) : option elem_type :=
  s <<- de_text j ;; find (fun t => bytes_eqb s (str (type_name t))) [Announce; Withdraw].
(** community.rs:16-24 [Community]. *)
Definition ser_plain (c : community) : json :=
  match c with
  | CNoExport => JText (str "NoExport") | CNoAdvertise => JText (str "NoAdvertise")
  | CNoExportSubConfed => JText (str "NoExportSubConfed")
  | CCustom a v => jobj [("Custom"%string, JList [ser_asn a; JNum v])]
  end.
Definition de_plain (j : json) : option community :=
  match j with
  | JText s => if bytes_eqb s (str "NoExport") then Some CNoExport else if bytes_eqb s (str "NoAdvertise") then Some CNoAdvertise
               else if bytes_eqb s (str "NoExportSubConfed") then Some CNoExportSubConfed else None
  | _ => '(k, v) <<- de_tag j ;;
         if bytes_eqb k (str "Custom") then
           match v with JList [x; y] => a <<- de_asn x ;; n <<- de_num (2 ^ 16) y ;; Some (CCustom a n) | _ => None end
         else None
  end.
(** community.rs:26-38 [LargeCommunity]. *)
Definition ser_large (c : large_community) : json :=
  jobj [("global_admin"%string, JNum (lc_admin c)); ("local_data"%string, JList [JNum (lc_d0 c); JNum (lc_d1 c)])].
Definition de_large (j : json) : option large_community :=
  l <<- de_object ["global_admin"; "local_data"]%string j ;; a <<- field "global_admin" (de_num (2 ^ 32)) l ;;
  match field "local_data" (de_array 2 (de_num (2 ^ 32))) l with Some [x; y] => Some (Large a x y) | _ => None end.
(** [f32] values: the text of the value; infinities and NaN are written as null. *)
Definition f32_finite (bits : N) : bool := negb ((bits / 2 ^ 23) mod 256 =? 255).
Definition ser_f32 (bits : N) : json := if f32_finite bits then JSingle bits else JNull.
Definition de_f32 (j : json) : option N := match j with JSingle b => Some b | _ => None end.
(** community.rs:163-283: the payloads of extended communities. *)
Definition ser_sub {A} (st : N) (f : A -> json) (admin : A) (local : bytes) : json :=
  jobj [("subtype"%string, JNum st); ("global_admin"%string, f admin); ("local_admin"%string, ser_bytes local)].
Definition de_sub {A} (f : json -> option A) (n : nat) (j : json) : option (N * A * bytes) :=
  l <<- de_object ["subtype"; "global_admin"; "local_admin"]%string j ;; st <<- field "subtype" de_byte l ;;
  a <<- field "global_admin" f l ;; b <<- field "local_admin" (de_array n de_byte) l ;; Some (st, a, b).
(** community.rs:96-120 [ExtendedCommunity]. *)
Definition ser_ext (tx : texts) (x : ext_community) : json :=
  match x with
  | XTwoOctet t st a l => jobj [((if t then "TransitiveTwoOctetAs" else "NonTransitiveTwoOctetAs")%string, ser_sub st ser_asn a l)]
  | XIpv4 t st a l => jobj [((if t then "TransitiveIpv4Addr" else "NonTransitiveIpv4Addr")%string, ser_sub st (ser_ip4 tx) a l)]
  | XFourOctet t st a l => jobj [((if t then "TransitiveFourOctetAs" else "NonTransitiveFourOctetAs")%string, ser_sub st ser_asn a l)]
  | XOpaque t st v => jobj [((if t then "TransitiveOpaque" else "NonTransitiveOpaque")%string,
                             jobj [("subtype"%string, JNum st); ("value"%string, ser_bytes v)])]
  | XTrafficRate a r => jobj [("FlowSpecTrafficRate"%string, jobj [("as_number"%string, JNum a); ("rate_bytes_per_sec"%string, ser_f32 r)])]
  | XTrafficAction a t s => jobj [("FlowSpecTrafficAction"%string,
                                   jobj [("as_number"%string, JNum a); ("terminal"%string, JBool t); ("sample"%string, JBool s)])]
  | XRedirect st a l => jobj [("FlowSpecRedirect"%string, ser_sub st ser_asn a l)]
  | XTrafficMarking a d => jobj [("FlowSpecTrafficMarking"%string, jobj [("as_number"%string, JNum a); ("dscp"%string, JNum d)])]
  | XLinkBandwidth t a b => jobj [("LinkBandwidth"%string,
                                   jobj [("global_admin"%string, JNum a); ("bandwidth"%string, ser_f32 b); ("transitive"%string, JBool t)])]
  | XRaw b => jobj [("Raw"%string, ser_bytes b)]
  end.
Definition de_opaque (j : json) : option (N * bytes) :=
  l <<- de_object ["subtype"; "value"]%string j ;; st <<- field "subtype" de_byte l ;; b <<- field "value" (de_array 6 de_byte) l ;; Some (st, b).
Definition de_ext (ps : parsers) (j : json) : option ext_community :=
  '(k, v) <<- de_tag j ;;
  let is s := bytes_eqb k (str s) in
  if is "TransitiveTwoOctetAs"%string then '(st, a, b) <<- de_sub de_asn 4 v ;; Some (XTwoOctet true st a b)
  else if is "TransitiveIpv4Addr"%string then '(st, a, b) <<- de_sub (de_ip4 ps) 2 v ;; Some (XIpv4 true st a b)
  else if is "TransitiveFourOctetAs"%string then '(st, a, b) <<- de_sub de_asn 2 v ;; Some (XFourOctet true st a b)
  else if is "TransitiveOpaque"%string then '(st, b) <<- de_opaque v ;; Some (XOpaque true st b)
  else if is "NonTransitiveTwoOctetAs"%string then '(st, a, b) <<- de_sub de_asn 4 v ;; Some (XTwoOctet false st a b)
  else if is "NonTransitiveIpv4Addr"%string then '(st, a, b) <<- de_sub (de_ip4 ps) 2 v ;; Some (XIpv4 false st a b)
  else if is "NonTransitiveFourOctetAs"%string then '(st, a, b) <<- de_sub de_asn 2 v ;; Some (XFourOctet false st a b)
  else if is "NonTransitiveOpaque"%string then '(st, b) <<- de_opaque v ;; Some (XOpaque false st b)
  else if is "FlowSpecTrafficRate"%string then
    l <<- de_object ["as_number"; "rate_bytes_per_sec"]%string v ;; a <<- field "as_number" (de_num (2 ^ 16)) l ;;
    r <<- field "rate_bytes_per_sec" de_f32 l ;; Some (XTrafficRate a r)
  else if is "FlowSpecTrafficAction"%string then
    l <<- de_object ["as_number"; "terminal"; "sample"]%string v ;; a <<- field "as_number" (de_num (2 ^ 16)) l ;;
    t <<- field "terminal" de_bool l ;; s <<- field "sample" de_bool l ;; Some (XTrafficAction a t s)
  else if is "FlowSpecRedirect"%string then '(st, a, b) <<- de_sub de_asn 4 v ;; Some (XRedirect st a b)
  else if is "FlowSpecTrafficMarking"%string then
    l <<- de_object ["as_number"; "dscp"]%string v ;; a <<- field "as_number" (de_num (2 ^ 16)) l ;;
    d <<- field "dscp" de_byte l ;; Some (XTrafficMarking a d)
  else if is "LinkBandwidth"%string then
    l <<- de_object ["global_admin"; "bandwidth"; "transitive"]%string v ;; a <<- field "global_admin" (de_num (2 ^ 16)) l ;;
    b <<- field "bandwidth" de_f32 l ;; t <<- field "transitive" de_bool l ;; Some (XLinkBandwidth t a b)
  else if is "Raw"%string then b <<- de_array 8 de_byte v ;; Some (XRaw b)
  else None.
(** community.rs:48-68 [ExtendedCommunityType]. *)
Definition ect_name (t : ect) : option string :=
  match t with
  | TTwoOctetAs => Some "TransitiveTwoOctetAs" | TIpv4Addr => Some "TransitiveIpv4Addr" | TFourOctetAs => Some "TransitiveFourOctetAs"
  | TOpaque => Some "TransitiveOpaque" | NTwoOctetAs => Some "NonTransitiveTwoOctetAs" | NIpv4Addr => Some "NonTransitiveIpv4Addr"
  | NFourOctetAs => Some "NonTransitiveFourOctetAs" | NOpaque => Some "NonTransitiveOpaque" | TUnknown _ => None
  end%string.
Definition ser_ect (t : ect) : json :=
  match t with
  | TUnknown n => jobj [("Unknown"%string, JNum n)]
  | _ => match ect_name t with Some s => JText (str s) | None => JNull end
  end.
Definition de_ect (j : json) : option ect :=
  match j with
  | JText s => find (fun t => match ect_name t with Some x => bytes_eqb s (str x) | None => false end)
                 [TTwoOctetAs; TIpv4Addr; TFourOctetAs; TOpaque; NTwoOctetAs; NIpv4Addr; NFourOctetAs; NOpaque]
  | _ => '(k, v) <<- de_tag j ;; if bytes_eqb k (str "Unknown") then n <<- de_byte v ;; Some (TUnknown n) else None
  end.
(** community.rs:150-161 [Ipv6AddrExtCommunity]. *)
Definition ser_ipv6_ext (tx : texts) (c : ipv6_ext) : json :=
  jobj [("community_type"%string, ser_ect (ie_type c)); ("subtype"%string, JNum (ie_subtype c));
        ("global_admin"%string, ser_ip6 tx (ie_admin c)); ("local_admin"%string, JList [JNum (ie_l0 c); JNum (ie_l1 c)])].
Definition de_ipv6_ext (ps : parsers) (j : json) : option ipv6_ext :=
  l <<- de_object ["community_type"; "subtype"; "global_admin"; "local_admin"]%string j ;; t <<- field "community_type" de_ect l ;;
  st <<- field "subtype" de_byte l ;; a <<- field "global_admin" (de_ip6 ps) l ;; 
  match field "local_admin" (de_array 2 de_byte) l with Some [x; y] => Some (Ipv6Ext t st a x y) | _ => None end.
(** community.rs:6-14 [MetaCommunity], untagged: the first that fits. *)
Definition ser_meta (tx : texts) (m : meta_community) : json :=
  match m with MPlain c => ser_plain c | MExtended x => ser_ext tx x | MIpv6Extended c => ser_ipv6_ext tx c | MLarge c => ser_large c end.
Definition de_meta (ps : parsers) (j : json) : option meta_community :=
  match de_plain j with
  | Some c => Some (MPlain c)
  | None => match de_ext ps j with
            | Some x => Some (MExtended x)
            | None => match de_ipv6_ext ps j with
                      | Some c => Some (MIpv6Extended c)
                      | None => c <<- de_large j ;; Some (MLarge c)
                      end
            end
  end.
(** attributes/mod.rs:917-925 [AttrRaw]; [Bytes] is an array of numbers. *)
Definition ser_raw (r : N * bytes) : json := jobj [("code"%string, JNum (fst r)); ("bytes"%string, ser_bytes (snd r))].
Definition de_raw (j : json) : option (N * bytes) :=
  l <<- de_object ["code"; "bytes"]%string j ;; t <<- field "code" de_byte l ;; b <<- field "bytes" (de_list de_byte) l ;; Some (t, b).
(** [f64] values: infinities and NaN are written as null. *)
Definition ser_f64 (f : f64) : json := match f with S754_nan | S754_infinity _ => JNull | _ => JFloat f end.
(** elem.rs:98-158 [BgpElem]. *)
Definition elem_fields : list string :=
  ["timestamp"; "type"; "peer_ip"; "peer_asn"; "peer_bgp_id"; "prefix"; "next_hop"; "as_path"; "origin_asns"; "origin"; "local_pref"; "med";
   "communities"; "atomic"; "aggr_asn"; "aggr_ip"; "only_to_customer"; "unknown"; "deprecated"]%string.
Definition ser_elem (tx : texts) (e : elem) : json :=
  jobj [("timestamp"%string, ser_f64 (e_time e)); ("type"%string, ser_type (e_type e)); ("peer_ip"%string, ser_ip tx (e_peer e));
        ("peer_asn"%string, ser_asn (e_asn e)); ("peer_bgp_id"%string, jopt (ser_ip4 tx) (e_id e)); ("prefix"%string, ser_prefix tx (e_prefix e));
        ("next_hop"%string, jopt (ser_ip tx) (e_hop e)); ("as_path"%string, jopt ser_path (e_path e));
        ("origin_asns"%string, jopt (fun l => JList (map ser_asn l)) (e_origins e)); ("origin"%string, jopt ser_origin (e_origin e));
        ("local_pref"%string, jopt JNum (e_pref e)); ("med"%string, jopt JNum (e_med e));
        ("communities"%string, jopt (fun l => JList (map (ser_meta tx) l)) (e_comms e)); ("atomic"%string, JBool (e_atomic e));
        ("aggr_asn"%string, jopt ser_asn (e_aggr_asn e)); ("aggr_ip"%string, jopt (ser_ip4 tx) (e_aggr_ip e));
        ("only_to_customer"%string, jopt ser_asn (e_otc e)); ("unknown"%string, jopt (fun l => JList (map ser_raw l)) (e_unknown e));
        ("deprecated"%string, jopt (fun l => JList (map ser_raw l)) (e_depr e))].
Definition de_elem (ps : parsers) (j : json) : option elem :=
  l <<- de_object elem_fields j ;;
  tm <<- field "timestamp" de_f64 l ;; ty <<- field "type" de_type l ;; pi <<- field "peer_ip" (de_ip ps) l ;; pa <<- field "peer_asn" de_asn l ;;
  bi <<- opt_field "peer_bgp_id" (de_ip4 ps) l ;; px <<- field "prefix" (de_prefix ps) l ;; nh <<- opt_field "next_hop" (de_ip ps) l ;;
  ap <<- opt_field "as_path" de_path l ;; oa <<- opt_field "origin_asns" (de_list de_asn) l ;; og <<- opt_field "origin" de_origin l ;;
  lp <<- opt_field "local_pref" (de_num (2 ^ 32)) l ;; md <<- opt_field "med" (de_num (2 ^ 32)) l ;;
  cs <<- opt_field "communities" (de_list (de_meta ps)) l ;; at_ <<- field "atomic" de_bool l ;; aa <<- opt_field "aggr_asn" de_asn l ;;
  ai <<- opt_field "aggr_ip" (de_ip4 ps) l ;; ot <<- opt_field "only_to_customer" de_asn l ;; un <<- opt_field "unknown" (de_list de_raw) l ;;
  de <<- opt_field "deprecated" (de_list de_raw) l ;;
  Some (Elem tm ty pi pa bi px nh ap oa og lp md cs at_ aa ai ot un de).
