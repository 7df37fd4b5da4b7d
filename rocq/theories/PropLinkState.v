(** C50: the BGP-LS attribute and the Link-State NLRI. *)
From Coq Require Import Lia Sorting.Permutation.
From Verif Require Import Base BaseFacts Reader Net Tlv TlvSpec TlvFacts LinkState LinkStateSpec LinkStateFacts.

(** Parsing keeps exactly what the TLVs describe: the octets are a list of TLVs and a
    tail of fewer than four octets, each recognised type has the value of its last
    occurrence, the rest are kept in order; and nothing else is accepted. *)
Theorem C50_attr_exact s a : bytes_ok s ->
  (parse_link_state s = Ok a <->
   exists l t, s = flat_map (tlv_wire 2 2) l ++ t /\ (length t < 4)%nat /\ Forall (tlv_ok 2 2) l /\ ls_view l a).
Proof. exact (ls_parse_iff s a). Qed.
Print Assumptions C50_attr_exact.

(** Encoding and parsing back, whatever order the three hash maps are iterated in. *)
Theorem C50_roundtrip a ns ls ps : ls_ok a ->
  Permutation ns (la_node a) -> Permutation ls (la_link a) -> Permutation ps (la_prefix a) ->
  exists b, encode_link_state_in ns ls ps a = Ok b /\ parse_link_state b = Ok a.
Proof. exact (ls_roundtrip a ns ls ps). Qed.
Print Assumptions C50_roundtrip.

Definition ex_ls : ls_attr :=
  LsAttr [(1026, [114; 49]); (1028, [10; 0; 0; 1])] [(1088, [0; 0; 0; 5]); (1095, [0; 0; 10])]
         [(1155, [0; 0; 0; 7])] [Tlv 4000 [1; 2; 3]].
Example C50_roundtrip_case : ls_ok ex_ls /\
  encode_link_state_in [(1028, [10; 0; 0; 1]); (1026, [114; 49])] (la_link ex_ls) (la_prefix ex_ls) ex_ls <>
  encode_link_state ex_ls.
Proof.
  split; [|discriminate].
  unfold ls_ok, ex_ls, map_ok. cbn [la_node la_link la_prefix la_unknown increasing_keys].
  assert (B : forall l, bytes_okb l = true -> bytes_ok l) by (intros l; apply bytes_okb_spec).
  assert (M : forall types (kv : N * bytes), existsb (N.eqb (fst kv)) types = true -> (nlen (snd kv) <? 65536) = true ->
    bytes_okb (snd kv) = true -> In (fst kv) types /\ nlen (snd kv) < 65536 /\ bytes_ok (snd kv)).
  { intros types kv H1 H2 H3. split; [apply existsb_eqb; exact H1|]. split; [apply N.ltb_lt; exact H2|apply B; exact H3]. }
  split; [split; [repeat constructor|repeat (constructor; [apply M; reflexivity|]); constructor]|].
  split; [split; [repeat constructor|repeat (constructor; [apply M; reflexivity|]); constructor]|].
  split; [split; [repeat constructor|repeat (constructor; [apply M; reflexivity|]); constructor]|].
  constructor; [|constructor]. split; [|reflexivity]. split; [reflexivity|]. split; [reflexivity|apply B; reflexivity].
Qed.
Example C50_last_wins :
  option_map (fun a => (get_igp_metric a, la_unknown a))
    (match parse_link_state ([4; 71; 0; 1; 9] ++ [15; 160; 0; 0] ++ [4; 71; 0; 2; 1; 0] ++ [255]) with Ok a => Some a | _ => None end) =
  Some (Some 256, [Tlv 4000 []]).
Proof. reflexivity. Qed.

(** The numeric accessors read the last TLV of their type: 1-3 octet metrics, 24-bit
    delays without the flag octet. *)
Theorem C50_accessors l a : ls_view l a ->
  (forall b r, last_value 1024 l = Some (b :: r) -> get_node_flags a = Some b) /\
  (forall w m, (1 <= w <= 3)%nat -> m < 256 ^ N.of_nat w -> last_value 1095 l = Some (be w m) -> get_igp_metric a = Some m) /\
  (forall m r, m < 2 ^ 32 -> last_value 1088 l = Some (be 4 m ++ r) -> get_admin_group a = Some m) /\
  (forall m r, m < 2 ^ 32 -> last_value 1155 l = Some (be 4 m ++ r) -> get_prefix_metric a = Some m) /\
  (forall f m r, f < 256 -> m < 2 ^ 24 -> last_value 1114 l = Some (be 1 f ++ be 3 m ++ r) -> get_link_delay a = Some m) /\
  (forall f m g n r, f < 256 -> m < 2 ^ 24 -> g < 256 -> n < 2 ^ 24 ->
     last_value 1115 l = Some (be 1 f ++ be 3 m ++ be 1 g ++ be 3 n ++ r) -> get_min_max_delay a = Some (m, n)) /\
  (forall f m r, f < 256 -> m < 2 ^ 24 -> last_value 1116 l = Some (be 1 f ++ be 3 m ++ r) -> get_delay_variation a = Some m).
Proof. exact (accessors l a). Qed.
Print Assumptions C50_accessors.

(** The NLRI list is framed by type and length, and accepted exactly when each of
    its NLRIs is. *)
Theorem C50_nlri_framing s ns : bytes_ok s ->
  (parse_ls_nlris s = Ok ns <->
   exists ts t, s = flat_map (tlv_wire 2 2) ts ++ t /\ (length t < 4)%nat /\ Forall (tlv_ok 2 2) ts /\
     Forall2 (fun x n => parse_single_ls (t_type x) (t_value x) = Ok n) ts ns).
Proof.
  intros Hs. split; [apply ls_nlris_inv; auto|]. intros (ts & t & -> & Ht & F & F2). apply ls_nlris_ok; auto.
Qed.
Print Assumptions C50_nlri_framing.

(** Node, link and prefix NLRIs: protocol, identifier, and descriptors holding the last
    sub-TLV of each type that has the right length. *)
Theorem C50_node_nlri ty p i l t r :
  nlri_type_of ty <> 2 -> nlri_type_of ty <> 3 -> nlri_type_of ty <> 4 ->
  p < 256 -> i < 2 ^ 64 -> desc_ok l t ->
  exists d, parse_single_ls ty (be 1 p ++ be 8 i ++ desc_wire l t ++ r) =
    Ok (LsNlri (nlri_type_of ty) (protocol_of p) i d None None None) /\ node_of l d.
Proof. exact (single_node ty p i l t r). Qed.
Print Assumptions C50_node_nlri.
Theorem C50_link_nlri p i l t l2 t2 l3 t3 r :
  p < 256 -> i < 2 ^ 64 -> desc_ok l t -> desc_ok l2 t2 -> desc_ok l3 t3 ->
  exists d e k, parse_single_ls 2 (be 1 p ++ be 8 i ++ desc_wire l t ++ desc_wire l2 t2 ++ desc_wire l3 t3 ++ r) =
    Ok (LsNlri 2 (protocol_of p) i d (Some e) (Some k) None) /\ node_of l d /\ node_of l2 e /\ link_of l3 k.
Proof. exact (single_link p i l t l2 t2 l3 t3 r). Qed.
Print Assumptions C50_link_nlri.
Theorem C50_prefix_nlri ty p i l t l2 t2 r :
  ty = 3 \/ ty = 4 -> p < 256 -> i < 2 ^ 64 -> desc_ok l t -> desc_ok l2 t2 ->
  exists d x, parse_single_ls ty (be 1 p ++ be 8 i ++ desc_wire l t ++ desc_wire l2 t2 ++ r) =
    Ok (LsNlri ty (protocol_of p) i d None None (Some x)) /\ node_of l d /\ prefix_of l2 x.
Proof. exact (single_prefix ty p i l t l2 t2 r). Qed.
Print Assumptions C50_prefix_nlri.
(** Every octet string is sub-TLVs and a cut-off end, so the descriptor theorems cover
    every descriptor. *)
Theorem C50_desc_cover d : bytes_ok d ->
  exists l t, d = flat_map (tlv_wire 2 2) l ++ t /\ Forall (tlv_ok 2 2) l /\ cut t.
Proof. intros H. exact (desc_tlvs_total (length d) d H (le_n _)). Qed.
Print Assumptions C50_desc_cover.
Example C50_node_case : desc_ok [Tlv 512 [0; 0; 253; 232]; Tlv 512 [1]; Tlv 600 []] [9; 9] /\
  exists d, parse_single_ls 1 ([2] ++ be 8 77 ++ desc_wire [Tlv 512 [0; 0; 253; 232]; Tlv 512 [1]; Tlv 600 []] [9; 9]) =
    Ok (LsNlri 1 2 77 d None None None) /\ nd_as d = Some 65000 /\ nd_unknown d = [Tlv 600 []].
Proof.
  split; [|eexists; split; [reflexivity|auto]].
  split; [|split; [left; cbn; lia|reflexivity]].
  repeat constructor; cbn [t_type t_value]; unfold bytes_ok; repeat constructor; reflexivity.
Qed.

(** No octet string makes either parser panic. *)
Theorem C50_no_panic s : parse_link_state s <> Panic /\ parse_ls_nlris s <> Panic.
Proof. exact (conj (ls_parse_np s) (ls_nlris_np s)). Qed.
Print Assumptions C50_no_panic.

(** Findings.  A link attribute may be built with the router-id types 1028-1031, which
    the library lists as link attributes too; they do not survive a round trip. *)
Theorem C50_link_router_id_refuted :
  exists a b, encode_link_state a = Ok b /\ parse_link_state b <> Ok a /\ la_link a = [(1028, [10; 0; 0; 1])].
Proof.
  exists (LsAttr [] [(1028, [10; 0; 0; 1])] [] []). eexists. split; [reflexivity|]. split; [discriminate|reflexivity].
Qed.
Print Assumptions C50_link_router_id_refuted.
(** RFC 7752 section 3.2: a node NLRI whose local node descriptor is the TLV 256 is
    refused, since the type of the TLV is read as the length of the descriptor. *)
Theorem C50_rfc7752_node_refuted :
  exists d, parse_ls_nlris (be 2 1 ++ be 2 (nlen d) ++ d) = Err ETrunc /\
    d = [2] ++ be 8 0 ++ tlv_wire 2 2 (Tlv 256 (tlv_wire 2 2 (Tlv 512 [0; 0; 253; 232]))).
Proof. eexists. split; [|reflexivity]. vm_compute. reflexivity. Qed.
Print Assumptions C50_rfc7752_node_refuted.
(** An IPv6 prefix NLRI (type 4) for 2001:db8::/32 is reported as the IPv4 prefix
    32.1.13.184/32. *)
Theorem C50_ipv6_short_refuted :
  exists n x, parse_single_ls 4 ([2] ++ be 8 0 ++ be 2 0 ++ desc_wire [Tlv 265 [32; 32; 1; 13; 184]] []) = Ok n /\
    ln_prefix n = Some x /\ pd_reach x = Some (Net (V4 (be_val [32; 1; 13; 184])) 32).
Proof. do 2 eexists. split; [vm_compute; reflexivity|]. split; reflexivity. Qed.
Print Assumptions C50_ipv6_short_refuted.
