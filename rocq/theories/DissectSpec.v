(** Vocabulary of the theorems about dissection. *)
From Verif Require Import Base Net Dissect.

(** The octets a node covers. *)
Definition under (all : bytes) (n : node) : bytes := sub all (nd_off n) (nd_len n).
Definition nd_end (n : node) : N := nd_off n + nd_len n.

(** Fields that show one number: the one their octets spell. *)
Definition number_fields : list string :=
  ["mrt.header.timestamp"; "mrt.header.type"; "mrt.header.subtype"; "mrt.header.length";
   "mrt.bgp4mp.peer_asn"; "mrt.bgp4mp.local_asn"; "mrt.bgp4mp.interface_index"; "mrt.bgp4mp.afi";
   "mrt.bgp4mp.old_state"; "mrt.bgp4mp.new_state";
   "bgp.header.length"; "bgp.header.type";
   "bgp.open.version"; "bgp.open.asn"; "bgp.open.hold_time"; "bgp.open.opt_params_len";
   "bgp.open.param.type"; "bgp.open.param.length"; "bgp.open.capability.code"; "bgp.open.capability.length";
   "bgp.attr.flags"; "bgp.attr.type"; "bgp.attr.length"; "bgp.attr.origin"; "bgp.attr.cluster_list.entry";
   "bgp.attr.mp_reach.afi"; "bgp.attr.mp_reach.safi"; "bgp.attr.mp_reach.next_hop_length";
   "bgp.attr.mp_unreach.afi"; "bgp.attr.mp_unreach.safi";
   "bgp.notification.code"; "bgp.notification.subcode";
   "bgp.route_refresh.afi"; "bgp.route_refresh.subtype"; "bgp.route_refresh.safi"]%string.
(** Fields that show their octets. *)
Definition octet_fields : list string :=
  ["mrt.bgp4mp.peer_ip"; "mrt.bgp4mp.local_ip"; "bgp.open.bgp_identifier"; "bgp.attr.aggregator.id"]%string.
(** Fields that show the type octet they start with. *)
Definition typed_fields : list string := ["bgp.open.param"; "bgp.open.capability"; "bgp.attr.aigp.entry"]%string.
Definition is_in (s : string) (l : list string) : bool := existsb (String.eqb s) l.
(** What an extended community shows of its six value octets, by its type. *)
Definition ext_value (t : N) (v : bytes) : list N :=
  match t mod 16 with
  | 0 => [be_val (sub v 0 2); be_val (sub v 2 4)]
  | 1 => sub v 0 4 ++ [be_val (sub v 4 2)]
  | 2 => [be_val (sub v 0 4); be_val (sub v 4 2)]
  | _ => v
  end.
(** [v] is what a field with octets [s] is to show.  A field cut short shows nothing. *)
Definition shows (f : field) (s : bytes) (v : list N) : Prop :=
  match f with
  | FAttr c => v = [c] /\ exists flags rest, s = flags :: c :: rest
  | F name =>
      if is_in name number_fields then v = [be_val s]
      else if is_in name octet_fields then v = s
      else if is_in name typed_fields then exists t rest, s = t :: rest /\ v = [t]
      else if String.eqb name "mrt.header.microsecond" then v = [be_val s] /\ nlen s = 4 \/ v = [] /\ nlen s < 4
      else if is_in name ["bgp.update.withdrawn_routes.length"; "bgp.update.path_attributes.length"]%string then
        v = [be_val s] /\ nlen s = 2 \/ v = [] /\ nlen s < 2
      else if String.eqb name "bgp.header.marker" then v = [if forallb (N.eqb 255) s then 1 else 0] /\ nlen s = 16
      else if String.eqb name "bgp.open.ext_params_len" then exists x, s = 255 :: x /\ v = [be_val x] /\ nlen x = 2
      else if is_in name ["bgp.attr.next_hop"; "bgp.attr.originator_id"]%string then 4 <= nlen s /\ v = sub s 0 4
      else if String.eqb name "bgp.attr.u32" then 4 <= nlen s /\ v = [be_val (sub s 0 4)]
      else if String.eqb name "bgp.attr.aggregator.asn" then nlen s = 2 \/ nlen s = 4 -> v = [be_val s]
      else if String.eqb name "bgp.attr.communities.entry" then nlen s = 4 /\ v = [be_val (sub s 0 2); be_val (sub s 2 2)]
      else if String.eqb name "bgp.attr.large_communities.entry" then nlen s = 12 /\ v = [be_val (sub s 0 4); be_val (sub s 4 4); be_val (sub s 8 4)]
      else if String.eqb name "bgp.attr.ext_communities.entry" then exists t u x, s = t :: u :: x /\ nlen x = 6 /\ v = t :: u :: ext_value t x
      else if String.eqb name "bgp.attr.ipv6_ext_communities.entry" then nlen s = 20 /\ v = []
      else if String.eqb name "bgp.attr.as_path.segment" then
        exists w t count l, (w = 2 \/ w = 4) /\ s = t :: count :: concat l /\ nlen l = count /\ Forall (fun a => nlen a = w) l /\
          v = known_segment t :: map be_val l
      else if String.eqb name "bgp.nlri.prefix" then
        exists id plen o (v4 : bool), s = id ++ plen :: o /\ (id = [] \/ nlen id = 4) /\ nlen o = (plen + 7) / 8 /\
          v = sub (o ++ repeat 0 16) 0 (if v4 then 4 else 16) ++ [plen]
      else True
  end.

(** The nodes lie one after the other between [lo] and [hi]. *)
Fixpoint in_order (lo hi : N) (l : list node) : Prop :=
  match l with [] => lo <= hi | n :: l' => lo <= nd_off n /\ in_order (nd_end n) hi l' end.
(** They leave no gap. *)
Fixpoint tiles (lo hi : N) (l : list node) : Prop :=
  match l with [] => lo = hi | n :: l' => lo = nd_off n /\ tiles (nd_end n) hi l' end.
(** A message that declares more or fewer octets than there are has a remark on it after its
    end: the missing part, without octets, or the octets left over. *)
Definition aside_field (f : field) : bool := field_eqb f (F "bgp.trailing") || field_eqb f (F "bgp.truncated").
Definition is_aside (n : node) : bool := aside_field (nd_field n).
Definition proper (ks : list node) : list node := filter (fun k => negb (is_aside k)) ks.
(** Fields whose parts, if they have any, leave no gap; of a path attribute that is cut short
    only the flags are a part. *)
Definition full_fields : list string := ["mrt"; "mrt.header"; "bgp.header"; "bgp.update"; "bgp.notification"; "bgp.route_refresh"]%string.
Definition is_full (n : node) : bool :=
  match nd_field n with F s => is_in s full_fields && (0 <? nlen (nd_kids n)) | FAttr _ => 1 <? nlen (nd_kids n) end.
(** Every node of the tree. *)
Fixpoint all_nodes (P : node -> Prop) (n : node) : Prop :=
  P n /\ (fix go ks := match ks with [] => True | k :: ks' => all_nodes P k /\ go ks' end) (nd_kids n).
(** The nodes in tree order. *)
Fixpoint preorder (n : node) : list node := n :: (fix go ks := match ks with [] => [] | k :: ks' => preorder k ++ go ks' end) (nd_kids n).
(** What holds of each node: it lies within the input, shows its octets, and its parts lie in
    it one after the other, but for the remarks, which come after its end. *)
Definition node_ok (all : bytes) (n : node) : Prop :=
  nd_end n <= nlen all /\ shows (nd_field n) (under all n) (nd_shown n) /\
  in_order (nd_off n) (nd_end n) (proper (nd_kids n)) /\
  Forall (fun k => is_aside k = true -> nd_field n = F "bgp" /\ nd_off k = nd_end n /\ nd_kids k = [] /\ (nd_field k = F "bgp.truncated" -> nd_len k = 0)) (nd_kids n) /\
  (is_full n = true -> tiles (nd_off n) (nd_end n) (nd_kids n)).

(** ** What an UPDATE message is made of *)
(** The octets of a prefix: with a path id if there are several paths. *)
Definition is_prefix (ap : bool) (p : bytes) : Prop :=
  exists id plen o, p = id ++ plen :: o /\ nlen id = (if ap then 4 else 0) /\ nlen o = (plen + 7) / 8.
(** A path attribute; the flag 0x10 says that its length is spelled in two octets. *)
Record part := { p_flags : N; p_code : N; p_value : bytes }.
Definition long_form (a : part) : bool := N.testbit (p_flags a) 4.
Definition part_octets (a : part) : bytes :=
  [p_flags a; p_code a] ++ be (if long_form a then 2 else 1) (nlen (p_value a)) ++ p_value a.
Definition is_part (a : part) : Prop := nlen (p_value a) < (if long_form a then 65536 else 256).
Definition update_octets (w : list bytes) (attrs : list part) (n : list bytes) : bytes :=
  be 2 (nlen (concat w)) ++ concat w ++ be 2 (nlen (concat (map part_octets attrs))) ++ concat (map part_octets attrs) ++ concat n.
(** A BGP message, and whatever comes after it. *)
Definition message_octets (marker : bytes) (ty : N) (body extra : bytes) : bytes := marker ++ be 2 (19 + nlen body) ++ [ty] ++ body ++ extra.
(** An AS path segment with AS numbers of [w] octets. *)
Definition is_segment (w : N) (s : bytes) : Prop :=
  exists t l, s = t :: nlen l :: concat l /\ Forall (fun a : bytes => nlen a = w) l.
(** The value of an attribute is made of these items, in fields of this name. *)
Inductive made_of (al : asn_len) (ap : bool) : N -> bytes -> string -> list bytes -> Prop :=
| mo_path items : Forall (is_segment (match al with Bits16 => 2 | Bits32 => 4 end)) items -> made_of al ap 2 (concat items) "bgp.attr.as_path.segment" items
| mo_path4 items : Forall (is_segment 4) items -> made_of al ap 17 (concat items) "bgp.attr.as_path.segment" items
| mo_communities items : Forall (fun i => nlen i = 4) items -> made_of al ap 8 (concat items) "bgp.attr.communities.entry" items
| mo_clusters items : Forall (fun i => nlen i = 4) items -> made_of al ap 10 (concat items) "bgp.attr.cluster_list.entry" items
| mo_ext items : Forall (fun i => nlen i = 8) items -> made_of al ap 16 (concat items) "bgp.attr.ext_communities.entry" items
| mo_ext6 items : Forall (fun i => nlen i = 20) items -> made_of al ap 25 (concat items) "bgp.attr.ipv6_ext_communities.entry" items
| mo_large items : Forall (fun i => nlen i = 12) items -> made_of al ap 32 (concat items) "bgp.attr.large_communities.entry" items
| mo_reach afi safi nh reserved items : Forall (is_prefix ap) items -> nlen nh < 256 ->
    made_of al ap 14 (be 2 afi ++ [safi; nlen nh] ++ nh ++ [reserved] ++ concat items) "bgp.nlri.prefix" items
| mo_unreach afi safi items : Forall (is_prefix ap) items -> made_of al ap 15 (be 2 afi ++ [safi] ++ concat items) "bgp.nlri.prefix" items.
(** The nodes of path attributes, and the octets of the nodes of one name inside those of
    another. *)
Definition attr_nodes (t : node) : list node := filter (fun n => match nd_field n with FAttr _ => true | F _ => false end) (preorder t).
Definition named (f : field) (t : node) : list node := filter (fun n => field_eqb (nd_field n) f) (preorder t).
Definition octets_in (all : bytes) (outer inner : string) (t : node) : list bytes :=
  map (under all) (flat_map (named (F inner)) (named (F outer) t)).
(** The subtypes of BGP4MP with AS numbers of four octets, and those with path ids. *)
Definition as4_subtype (st : N) : bool := existsb (N.eqb st) [4; 5; 7; 9; 11].
Definition path_subtype (st : N) : bool := (8 <=? st) && (st <=? 11).
