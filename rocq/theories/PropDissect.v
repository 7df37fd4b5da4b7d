(** Property C73: the tree of fields of a message. *)
From Coq Require Import Lia.
From Verif Require Import Base Net Framing Dissect DissectSpec DissectFacts DissectWhole.

(** C73: for every octets of less than 4 GiB, the dissection of an MRT record does not panic
    or fail; its root covers them all, and every node of the tree lies in them, shows what its
    octets say, and holds its parts one after the other. *)
Theorem C73_mrt : forall data, nlen data < 4294967296 ->
  exists t, dissect_mrt_bytes data = Ok t /\ nd_field t = F "mrt" /\ nd_off t = 0 /\ nd_len t = nlen data /\ all_nodes (node_ok data) t.
Proof.
  intros data Sm. destruct (mrt_node data Sm) as (t & E & Ef & Eo & Ee & K). exists t. unfold nd_end in Ee. rewrite Eo in Ee. repeat split; auto.
Qed.
(** The same of a record as a reader of records took it from its input: of the octets it had. *)
Theorem C73_record : forall r, nlen (raw_bytes r) < 4294967296 ->
  exists t, dissect_mrt_record r = Ok t /\ nd_field t = F "mrt" /\ nd_off t = 0 /\ nd_len t = nlen (raw_bytes r) /\ all_nodes (node_ok (raw_bytes r)) t.
Proof. intros r. exact (C73_mrt (raw_bytes r)). Qed.
(** C73: the same of a BGP message, which ends where it says or where the octets end. *)
Theorem C73_bgp : forall data al ap, nlen data < 4294967296 ->
  exists t, dissect_bgp data 0 al ap = Ok t /\ nd_field t = F "bgp" /\ nd_off t = 0 /\ all_nodes (node_ok data) t /\
    nd_len t = (if nlen data <? 19 then nlen data else N.min (N.max 19 (be_val (sub data 16 2))) (nlen data)).
Proof.
  intros data al ap Sm. destruct (bgp_node data 0 data al ap Sm (at_self data)) as (t & E & Ef & Eo & Ee & K). exists t. unfold nd_end in Ee. rewrite Eo in Ee.
  repeat split; auto. rewrite N.add_0_l in Ee. rewrite Ee. unfold bgp_end. destruct (nlen data <? 19) eqn:L; [reflexivity|]. apply N.ltb_ge in L. lia.
Qed.
(** C73: searching for a field gives all the nodes with that name, in tree order, or the first. *)
Theorem C73_find_all : forall f t, find_all f t = named f t.
Proof. exact find_all_eq. Qed.
Theorem C73_find : forall f t, find_node f t = hd_error (named f t).
Proof. exact find_eq. Qed.
(** C73: nothing is left out.  In the tree of an UPDATE message made of these withdrawn
    prefixes, attributes and announced prefixes the nodes of each of them are there, in order
    and over its octets; and so are the items that the values of the attributes are made of. *)
Theorem C73_update : forall al ap marker w attrs n extra data,
  nlen marker = 16 -> Forall (is_prefix ap) w -> Forall (is_prefix ap) n -> Forall is_part attrs -> nlen (update_octets w attrs n) < 65517 ->
  data = message_octets marker 2 (update_octets w attrs n) extra -> nlen data < 4294967296 ->
  exists t, dissect_bgp data 0 al ap = Ok t /\
    octets_in data "bgp.update.withdrawn_routes" "bgp.nlri.prefix" t = w /\ octets_in data "bgp.update.nlri" "bgp.nlri.prefix" t = n /\
    Forall2 (fun a k => nd_field k = FAttr (p_code a) /\ under data k = part_octets a /\
               forall name items, made_of al ap (p_code a) (p_value a) name items -> map (under data) (named (F name) k) = items) attrs (attr_nodes t).
Proof.
  intros al ap marker w attrs n extra data Lm Kw Kn Ka Lb Ed Sm.
  destruct (message_whole data 0 al ap marker w attrs n extra data (at_self data) Lm Kw Kn Ka Lb Ed Sm) as (t & E & O1 & O2 & R). exists t. repeat (split; [auto; fail|]).
  clear - R. induction R as [|a k attrs l (H1 & H2 & _ & _ & _ & H3) _ IH]; constructor; auto.
Qed.
(** C73: the same in an MRT record with the message; the subtype of the record says how wide
    the AS numbers are and whether prefixes have path ids. *)
Theorem C73_mrt_update : forall ts ln us ty st pas las ifi afi pip lip marker w attrs n extra data,
  let asz := if as4_subtype st then 4 else 2 in let ipl := if afi =? 1 then 4 else 16 in
  let al := if as4_subtype st then Bits32 else Bits16 in let ap := path_subtype st in
  data = ts ++ be 2 ty ++ be 2 st ++ ln ++ us ++ pas ++ las ++ ifi ++ be 2 afi ++ pip ++ lip ++ message_octets marker 2 (update_octets w attrs n) extra ->
  nlen ts = 4 -> nlen ln = 4 -> nlen us = (if ty =? 17 then 4 else 0) -> (ty = 16 \/ ty = 17) -> st < 65536 -> st <> 0 -> st <> 5 ->
  nlen pas = asz -> nlen las = asz -> nlen ifi = 2 -> (afi = 1 \/ afi = 2) -> nlen pip = ipl -> nlen lip = ipl -> nlen marker = 16 ->
  Forall (is_prefix ap) w -> Forall (is_prefix ap) n -> Forall is_part attrs -> nlen (update_octets w attrs n) < 65517 -> nlen data < 4294967296 ->
  exists t, dissect_mrt_bytes data = Ok t /\
    octets_in data "bgp.update.withdrawn_routes" "bgp.nlri.prefix" t = w /\ octets_in data "bgp.update.nlri" "bgp.nlri.prefix" t = n /\
    Forall2 (fun a k => nd_field k = FAttr (p_code a) /\ under data k = part_octets a /\
               forall name items, made_of al ap (p_code a) (p_value a) name items -> map (under data) (named (F name) k) = items) attrs (attr_nodes t).
Proof.
  intros ts ln us ty st pas las ifi afi pip lip marker w attrs n extra data asz ipl al ap Ed L1 L2 L3 H1 H2 H3 H4 L4 L5 L6 H5 L7 L8 Lm Kw Kn Ka Lb Sm.
  destruct (mrt_whole ts ln us ty st pas las ifi afi pip lip marker w attrs n extra data Ed L1 L2 L3 H1 H2 H3 H4 L4 L5 L6 H5 L7 L8 Lm Kw Kn Ka Lb Sm) as (t & E & O1 & O2 & R).
  exists t. repeat (split; [auto; fail|]). clear - R. induction R as [|a k attrs l (X1 & X2 & _ & _ & _ & X3) _ IH]; constructor; auto.
Qed.
Print Assumptions C73_mrt.
Print Assumptions C73_bgp.
Print Assumptions C73_find_all.
Print Assumptions C73_find.
Print Assumptions C73_update.
Print Assumptions C73_mrt_update.

(** An update that withdraws one prefix and announces two with three attributes. *)
Definition ex_attrs : list part :=
  [{| p_flags := 64; p_code := 1; p_value := [0] |};
   {| p_flags := 0x50; p_code := 2; p_value := [2; 2; 0; 0; 251; 240; 0; 0; 251; 241; 1; 1; 0; 0; 0; 7] |};
   {| p_flags := 192; p_code := 8; p_value := [0; 1; 0; 2; 0; 3; 0; 4] |}].
Definition ex_w : list bytes := [[16; 10; 1]].
Definition ex_n : list bytes := [[24; 192; 0; 2]; [0]].
Definition ex_message : bytes := message_octets (repeat 255 16) 2 (update_octets ex_w ex_attrs ex_n) [9; 9].
Definition brief (t : node) : list (field * list N * N * N) := map (fun n => (nd_field n, nd_shown n, nd_off n, nd_len n)) (preorder t).
Example C73_ex_holds : Forall (is_prefix false) ex_w /\ Forall (is_prefix false) ex_n /\ Forall is_part ex_attrs /\
  made_of Bits32 false 2 [2; 2; 0; 0; 251; 240; 0; 0; 251; 241; 1; 1; 0; 0; 0; 7] "bgp.attr.as_path.segment" [[2; 2; 0; 0; 251; 240; 0; 0; 251; 241]; [1; 1; 0; 0; 0; 7]] /\
  made_of Bits32 false 8 [0; 1; 0; 2; 0; 3; 0; 4] "bgp.attr.communities.entry" [[0; 1; 0; 2]; [0; 3; 0; 4]].
Proof.
  split. { constructor; [|constructor]. exists [], 16, [10; 1]. repeat split. }
  split. { constructor; [|constructor; [|constructor]]; [exists [], 24, [192; 0; 2]|exists [], 0, []]; repeat split. }
  split. { repeat (constructor; [reflexivity|]). constructor. }
  split.
  - apply (mo_path Bits32 false [[2; 2; 0; 0; 251; 240; 0; 0; 251; 241]; [1; 1; 0; 0; 0; 7]]). constructor; [|constructor; [|constructor]].
    + exists 2, [[0; 0; 251; 240]; [0; 0; 251; 241]]. split; [reflexivity|]. repeat (constructor; [reflexivity|]). constructor.
    + exists 1, [[0; 0; 0; 7]]. split; [reflexivity|]. repeat (constructor; [reflexivity|]). constructor.
  - apply (mo_communities Bits32 false [[0; 1; 0; 2]; [0; 3; 0; 4]]). repeat (constructor; [reflexivity|]). constructor.
Qed.
Example C73_ex : exists t, dissect_bgp ex_message 0 Bits32 false = Ok t /\ brief t =
  [(F "bgp", [], 0, 66); (F "bgp.header", [], 0, 19); (F "bgp.header.marker", [1], 0, 16); (F "bgp.header.length", [66], 16, 2); (F "bgp.header.type", [2], 18, 1);
   (F "bgp.update", [], 19, 47); (F "bgp.update.withdrawn_routes.length", [3], 19, 2); (F "bgp.update.withdrawn_routes", [], 21, 3); (F "bgp.nlri.prefix", [10; 1; 0; 0; 16], 21, 3);
   (F "bgp.update.path_attributes.length", [35], 24, 2)] ++ skipn 10 (brief t) /\
  map nd_shown (find_all (F "bgp.attr.as_path.segment") t) = [[2; 64496; 64497]; [1; 7]] /\
  map nd_shown (find_all (F "bgp.attr.communities.entry") t) = [[1; 2]; [3; 4]] /\
  map nd_shown (find_all (F "bgp.nlri.prefix") t) = [[10; 1; 0; 0; 16]; [192; 0; 2; 0; 24]; [0; 0; 0; 0; 0]] /\
  option_map (fun n => (nd_off n, nd_len n)) (find_node (F "bgp.trailing") t) = Some (66, 2).
Proof. eexists. split; [vm_compute; reflexivity|]. vm_compute. repeat split. Qed.
Definition ex_mrt : bytes :=
  [0; 0; 0; 1] ++ be 2 16 ++ be 2 4 ++ [0; 0; 0; 88] ++ [] ++ [0; 0; 251; 240] ++ [0; 0; 251; 241] ++ [0; 0] ++ be 2 1 ++ [10; 0; 0; 1] ++ [10; 0; 0; 2] ++ ex_message.
Example C73_ex_mrt : exists t, dissect_mrt_bytes ex_mrt = Ok t /\ map nd_field (attr_nodes t) = [FAttr 1; FAttr 2; FAttr 8] /\ map (fun n => (nd_off n, nd_len n)) (attr_nodes t) = [(58, 4); (62, 20); (82, 11)] /\
  map nd_shown (find_all (F "mrt.bgp4mp.peer_asn") t) = [[64496]] /\ map nd_shown (find_all (F "mrt.bgp4mp.peer_ip") t) = [[10; 0; 0; 1]].
Proof. eexists. split; [vm_compute; reflexivity|]. vm_compute. repeat split. Qed.

(** ** Findings *)
(** Parts do not always lie in the node that holds them: octets after the end of a BGP message
    are a part of the message's node, which ends before them. *)
Theorem C73_trailing_refuted : exists data t k, dissect_bgp data 0 Bits32 false = Ok t /\ In k (nd_kids t) /\ nd_end t < nd_end k.
Proof. eexists ex_message, _, _. split; [vm_compute; reflexivity|]. split; [right; right; left; reflexivity|reflexivity]. Qed.
(** Parts are not always in the order of their octets: the remark that a message is cut short
    stands at its end but comes before its body. *)
Theorem C73_order_refuted : exists data t a b, dissect_bgp data 0 Bits32 false = Ok t /\ (exists pre post, nd_kids t = pre ++ a :: b :: post) /\ nd_off b < nd_off a.
Proof.
  exists (repeat 255 16 ++ [0; 30; 2; 0; 0; 0; 0]). eexists _, _, _. split; [vm_compute; reflexivity|]. split; [eexists [_], []; reflexivity|reflexivity].
Qed.
(** The AS number shown of an AGGREGATOR of five octets is not that of its one octet: it
    reaches into the router id. *)
Theorem C73_aggregator_refuted : exists data t k, dissect_bgp data 0 Bits32 false = Ok t /\ In k (named (F "bgp.attr.aggregator.asn") t) /\ nd_shown k <> [be_val (under data k)].
Proof.
  eexists (message_octets (repeat 255 16) 2 (update_octets [] [{| p_flags := 192; p_code := 7; p_value := [1; 2; 3; 4; 5] |}] []) []), _, _.
  split; [vm_compute; reflexivity|]. split; [vm_compute; left; reflexivity|]. vm_compute. discriminate.
Qed.
(** Not every octet of a message lies under a part: a KEEPALIVE with a body has none for it. *)
Theorem C73_gap_refuted : exists data t, dissect_bgp data 0 Bits32 false = Ok t /\ nd_len t = 21 /\ map nd_end (nd_kids t) = [19].
Proof. exists (repeat 255 16 ++ [0; 21; 4; 7; 7]). eexists. split; [vm_compute; reflexivity|]. split; reflexivity. Qed.
