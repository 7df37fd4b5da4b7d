(** Byte-level dissection (/repo/src/models/dissection.rs, /repo/src/parser/bgp/dissect.rs,
    /repo/src/parser/mrt/dissect.rs). *)
From Coq Require Export String List.
From Verif Require Import Base Net AsPath Framing.
Open Scope N_scope.

(** A field name; [FAttr c] is ["bgp.attr.{c}"], whose decimal suffix sets it apart from the
    other names. *)
Inductive field := F (name : string) | FAttr (code : N).
(** dissection.rs:41-50 [DissectionNode]: of the label only the numbers read from the input
    that it renders are kept, in their order; its words and byte counts are left out. *)
Inductive node := Node (f : field) (shown : list N) (off len : N) (kids : list node).
Definition nd_field (n : node) := let 'Node f _ _ _ _ := n in f.
Definition nd_shown (n : node) := let 'Node _ v _ _ _ := n in v.
Definition nd_off (n : node) := let 'Node _ _ o _ _ := n in o.
Definition nd_len (n : node) := let 'Node _ _ _ l _ := n in l.
Definition nd_kids (n : node) := let 'Node _ _ _ _ k := n in k.
Definition field_eqb (a b : field) : bool :=
  match a, b with F x, F y => String.eqb x y | FAttr c, FAttr d => c =? d | _, _ => false end.
(** dissection.rs:75-80 [find]. *)
Fixpoint find_node (f : field) (n : node) : option node :=
  let 'Node g v o l kids := n in
  if field_eqb g f then Some (Node g v o l kids)
  else (fix go ks := match ks with [] => None | k :: ks' => match find_node f k with Some x => Some x | None => go ks' end end) kids.
(** dissection.rs:83-90 [find_all]. *)
Fixpoint find_all (f : field) (n : node) : list node :=
  let 'Node g v o l kids := n in
  (if field_eqb g f then [Node g v o l kids] else []) ++ (fix go ks := match ks with [] => [] | k :: ks' => find_all f k ++ go ks' end) kids.

(** Indexing and slicing that panic, [slice::get], and the reads of
    bgp/dissect.rs:50-59. *)
Definition idx (data : bytes) (i : N) : res N := match nth_error data (N.to_nat i) with Some b => Ok b | None => Panic end.
Definition get (data : bytes) (i : N) : option N := nth_error data (N.to_nat i).
Definition sub (data : bytes) (a n : N) : bytes := firstn (N.to_nat n) (skipn (N.to_nat a) data).
Definition slice (data : bytes) (a b : N) : res bytes := if (a <=? b) && (b <=? nlen data) then Ok (sub data a (b - a)) else Panic.
Definition rd16 (data : bytes) (p : N) : option N := match get data p, get data (p + 1) with Some h, Some l => Some (h * 256 + l) | _, _ => None end.
Definition rd32 (data : bytes) (p : N) : option N := if p + 4 <=? nlen data then Some (be_val (sub data p 4)) else None.
Definition or0 (o : option N) : N := match o with Some v => v | None => 0 end.
(** [u16::from_be_bytes], [u32::from_be_bytes] of indexed octets. *)
Definition word (k : N) (data : bytes) (p : N) : res N := s <~ slice data p (p + k) ;; Ok (be_val s).
(** dissection.rs:53-66 [new], at [base + pos as u32] with length [len as u32]; the addition
    panics when it overflows.  Sums handed on as the next [base] are not checked here again:
    they do not exceed the end of the input. *)
Definition node_at (f : field) (v : list N) (base pos len : N) (kids : list node) : res node :=
  if base + u32 pos <? 4294967296 then Ok (Node f v (base + u32 pos) (u32 len) kids) else Panic.
(** [children.push] and [children.extend]. *)
Definition one (r : res node) : res (list node) := x <~ r ;; Ok [x].
Definition cat (a b : res (list node)) : res (list node) := x <~ a ;; y <~ b ;; Ok (x ++ y).
Infix "+++" := cat (at level 60, right associativity).
Definition leaf (f : string) (v : list N) (base pos len : N) : res (list node) := one (node_at (F f) v base pos len []).

(** bgp/dissect.rs:61-83 [render_prefix]: the octets, cut or filled to the width of an
    address, and the length. *)
Definition resize (n : nat) (l : bytes) : bytes := firstn n (l ++ repeat 0 n).
Definition render_prefix (v4 : bool) (plen : N) (o : bytes) : list N := resize (if v4 then 4 else 16) o ++ [plen].
(** bgp/dissect.rs:796-826 [dissect_nlri]. *)
Fixpoint nlri_loop (fuel : nat) (data : bytes) (base : N) (v4 ap : bool) (pos : N) : res (list node) :=
  match fuel with
  | O => Panic
  | S f =>
      if pos <? nlen data then
        if ap && (nlen data <? pos + 5) then Ok [] else
        let p := if ap then pos + 4 else pos in
        match get data p with
        | None => Ok []
        | Some plen =>
            let oc := (plen + 7) / 8 in
            if nlen data <? p + 1 + oc then Ok [] else
            o <~ slice data (p + 1) (p + 1 + oc) ;;
            leaf "bgp.nlri.prefix" (render_prefix v4 plen o) base pos (p + 1 + oc - pos) +++
            nlri_loop f data base v4 ap (p + 1 + oc)
        end
      else Ok []
  end.
Definition dissect_nlri (data : bytes) (base : N) (v4 ap : bool) : res (list node) := nlri_loop (S (length data)) data base v4 ap 0.

(** bgp/dissect.rs:764-792 [render_ext_community]. *)
Definition render_ext (e : bytes) : res (list N) :=
  t <~ idx e 0 ;; st <~ idx e 1 ;; v <~ slice e 2 8 ;;
  match N.land t 15 with
  | 0 => a <~ word 2 v 0 ;; b <~ word 4 v 2 ;; Ok [t; st; a; b]
  | 1 => i <~ slice v 0 4 ;; b <~ word 2 v 4 ;; Ok ([t; st] ++ i ++ [b])
  | 2 => a <~ word 4 v 0 ;; b <~ word 2 v 4 ;; Ok [t; st; a; b]
  | _ => Ok ([t; st] ++ v)
  end.
(** bgp/dissect.rs:554-570, 581-596, 689-706, 707-721, 741-758 of [dissect_attr_value]: the
    loops over entries of [w] octets. *)
Fixpoint entries (fuel : nat) (w : N) (f : string) (show : bytes -> N -> res (list N)) (value : bytes) (base pos : N) : res (list node) :=
  match fuel with
  | O => Panic
  | S g =>
      if pos + w <=? nlen value then
        v <~ show value pos ;; leaf f v base pos w +++ entries g w f show value base (pos + w)
      else Ok []
  end.
Definition show_community (value : bytes) (pos : N) : res (list N) := Ok [or0 (rd16 value pos); or0 (rd16 value (pos + 2))].
Definition show_u32 (value : bytes) (pos : N) : res (list N) := Ok [or0 (rd32 value pos)].
Definition show_large (value : bytes) (pos : N) : res (list N) := Ok [or0 (rd32 value pos); or0 (rd32 value (pos + 4)); or0 (rd32 value (pos + 8))].
Definition show_ext (value : bytes) (pos : N) : res (list N) := e <~ slice value pos (pos + 8) ;; render_ext e.
Definition show_none (value : bytes) (pos : N) : res (list N) := Ok [].
(** The segment types that have a name; the others are shown alike. *)
Definition known_segment (t : N) : N := match t with 1 | 2 | 3 | 4 => t | _ => 0 end.
(** bgp/dissect.rs:460-498, the loop over the segments of AS_PATH and AS4_PATH. *)
Fixpoint segments (fuel : nat) (asz : N) (value : bytes) (base pos : N) : res (list node) :=
  match fuel with
  | O => Panic
  | S f =>
      if pos + 2 <=? nlen value then
        t <~ idx value pos ;; count <~ idx value (pos + 1) ;;
        let sl := 2 + count * asz in
        if nlen value <? pos + sl then Ok [] else
        let asns := map (fun i => let p := pos + 2 + N.of_nat i * asz in if asz =? 2 then or0 (rd16 value p) else or0 (rd32 value p)) (seq 0 (N.to_nat count)) in
        leaf "bgp.attr.as_path.segment" (known_segment t :: asns) base pos sl +++ segments f asz value base (pos + sl)
      else Ok []
  end.
(** bgp/dissect.rs:722-740, the loop over AIGP TLVs. *)
Fixpoint aigp_loop (fuel : nat) (value : bytes) (base pos : N) : res (list node) :=
  match fuel with
  | O => Panic
  | S f =>
      if pos + 3 <=? nlen value then
        t <~ idx value pos ;;
        let tl := or0 (rd16 value (pos + 1)) in
        if (tl <? 3) || (nlen value <? pos + tl) then Ok [] else
        leaf "bgp.attr.aigp.entry" [t] base pos tl +++ aigp_loop f value base (pos + tl)
      else Ok []
  end.
(** bgp/dissect.rs:597-669, MP_REACH_NLRI. *)
Definition dissect_mp_reach (value : bytes) (base : N) (ap : bool) : res (list node) :=
  if nlen value <? 4 then Ok [] else
  let afi := or0 (rd16 value 0) in
  leaf "bgp.attr.mp_reach.afi" [afi] base 0 2 +++
  (s <~ idx value 2 ;; leaf "bgp.attr.mp_reach.safi" [s] base 2 1) +++
  (nh <~ idx value 3 ;;
   leaf "bgp.attr.mp_reach.next_hop_length" [nh] base 3 1 +++
   (if (0 <? nh) && (nlen value <? 4 + nh) then leaf "bgp.attr.mp_reach.next_hop" [] base 4 (nlen value - 4)
    else
      (if 0 <? nh then leaf "bgp.attr.mp_reach.next_hop" [] base 4 nh else Ok []) +++
      (let p := if 0 <? nh then 4 + nh else 4 in
       (if p <? nlen value then leaf "bgp.attr.mp_reach.reserved" [] base p 1 else Ok []) +++
       (let q := if p <? nlen value then p + 1 else p in
        if q <? nlen value then s <~ slice value q (nlen value) ;; dissect_nlri s (base + u32 q) (afi =? 1) ap else Ok [])))).
(** bgp/dissect.rs:670-688, MP_UNREACH_NLRI. *)
Definition dissect_mp_unreach (value : bytes) (base : N) (ap : bool) : res (list node) :=
  if nlen value <? 3 then Ok [] else
  let afi := or0 (rd16 value 0) in
  leaf "bgp.attr.mp_unreach.afi" [afi] base 0 2 +++
  (s <~ idx value 2 ;; leaf "bgp.attr.mp_unreach.safi" [s] base 2 1) +++
  (s <~ slice value 3 (nlen value) ;; dissect_nlri s (base + 3) (afi =? 1) ap).
(** bgp/dissect.rs:525-553, AGGREGATOR and AS4_AGGREGATOR. *)
Definition dissect_aggregator (value : bytes) (base : N) : res (list node) :=
  if nlen value <=? 4 then Ok [] else
  let n := nlen value - 4 in
  leaf "bgp.attr.aggregator.asn" [if n =? 4 then or0 (rd32 value 0) else or0 (rd16 value 0)] base 0 n +++
  (i <~ slice value n (n + 4) ;; leaf "bgp.attr.aggregator.id" i base n 4).
(** bgp/dissect.rs:434-762 [dissect_attr_value]. *)
Definition dissect_attr_value (code : N) (value : bytes) (base asz : N) (ap : bool) : res (list node) :=
  let fuel := S (length value) in
  match code with
  | 1 => match get value 0 with Some v => leaf "bgp.attr.origin" [v] base 0 1 | None => Ok [] end
  | 2 => segments fuel asz value base 0
  | 17 => segments fuel 4 value base 0
  | 3 => if 4 <=? nlen value then leaf "bgp.attr.next_hop" (sub value 0 4) base 0 (nlen value) else Ok []
  | 4 | 5 | 35 => match rd32 value 0 with Some v => leaf "bgp.attr.u32" [v] base 0 (nlen value) | None => Ok [] end
  | 7 | 18 => dissect_aggregator value base
  | 8 => entries fuel 4 "bgp.attr.communities.entry" show_community value base 0
  | 9 => if 4 <=? nlen value then leaf "bgp.attr.originator_id" (sub value 0 4) base 0 (nlen value) else Ok []
  | 10 => entries fuel 4 "bgp.attr.cluster_list.entry" show_u32 value base 0
  | 14 => dissect_mp_reach value base ap
  | 15 => dissect_mp_unreach value base ap
  | 16 => entries fuel 8 "bgp.attr.ext_communities.entry" show_ext value base 0
  | 25 => entries fuel 20 "bgp.attr.ipv6_ext_communities.entry" show_none value base 0
  | 26 => aigp_loop fuel value base 0
  | 32 => entries fuel 12 "bgp.attr.large_communities.entry" show_large value base 0
  | _ => Ok []
  end.
(** bgp/dissect.rs:326-429 [dissect_attributes]. *)
Fixpoint attrs_loop (fuel : nat) (data : bytes) (base asz : N) (ap : bool) (pos : N) : res (list node) :=
  match fuel with
  | O => Panic
  | S f =>
      if pos + 3 <=? nlen data then
        flags <~ idx data pos ;; code <~ idx data (pos + 1) ;;
        let ext := negb (N.land flags 16 =? 0) in
        let hl := if ext then 4 else 3 in
        if nlen data <? pos + hl then Ok [] else
        o <~ (if ext then Ok (rd16 data (pos + 2)) else v <~ idx data (pos + 2) ;; Ok (Some v)) ;;
        match o with
        | None => Ok []
        | Some vl =>
            let vs := pos + hl in
            let ve := vs + vl in
            if nlen data <? ve then
              one (ks <~ leaf "bgp.attr.flags" [flags] base pos 1 ;; node_at (FAttr code) [code] base pos (nlen data - pos) ks)
            else
              one (ks <~ (leaf "bgp.attr.flags" [flags] base pos 1 +++ leaf "bgp.attr.type" [code] base (pos + 1) 1 +++
                          leaf "bgp.attr.length" [vl] base (pos + 2) (hl - 2) +++
                          one (v <~ slice data vs ve ;; vks <~ dissect_attr_value code v (base + u32 vs) asz ap ;;
                               node_at (F "bgp.attr.value") [] base vs vl vks)) ;;
                   node_at (FAttr code) [code] base pos (hl + vl) ks) +++
              attrs_loop f data base asz ap ve
        end
      else Ok []
  end.
Definition dissect_attributes (data : bytes) (base : N) (al : asn_len) (ap : bool) : res (list node) :=
  attrs_loop (S (length data)) data base (match al with Bits16 => 2 | Bits32 => 4 end) ap 0.

(** bgp/dissect.rs:218-323 [dissect_update]. *)
Definition dissect_update (data : bytes) (base : N) (al : asn_len) (ap : bool) : res node :=
  let n := nlen data in
  ks <~ (if n <? 2 then if n =? 0 then Ok [] else leaf "bgp.update.withdrawn_routes.length" [] base 0 n
         else
           wl <~ word 2 data 0 ;;
           leaf "bgp.update.withdrawn_routes.length" [wl] base 0 2 +++
           (if n <? 2 + wl then leaf "bgp.update.withdrawn_routes" [] base 2 (n - 2)
            else
              (if 0 <? wl then
                 one (s <~ slice data 2 (2 + wl) ;; ks <~ dissect_nlri s (base + 2) true ap ;;
                      node_at (F "bgp.update.withdrawn_routes") [] base 2 wl ks)
               else Ok []) +++
              (let p := 2 + wl in
               if n <? p + 2 then if p <? n then leaf "bgp.update.path_attributes.length" [] base p (n - p) else Ok []
               else
                 tl <~ word 2 data p ;;
                 leaf "bgp.update.path_attributes.length" [tl] base p 2 +++
                 (let q := p + 2 in
                  let e := N.min (q + tl) n in
                  (if q <? e then
                     one (s <~ slice data q e ;; ks <~ dissect_attributes s (base + u32 q) al ap ;;
                          node_at (F "bgp.update.path_attributes") [] base q (e - q) ks)
                   else if 0 <? tl then leaf "bgp.update.path_attributes" [] base q 0 else Ok []) +++
                  (if e <? n then
                     one (s <~ slice data e n ;; ks <~ dissect_nlri s (base + u32 e) true ap ;;
                          node_at (F "bgp.update.nlri") [] base e (n - e) ks)
                   else Ok []))))) ;;
  node_at (F "bgp.update") [] base 0 n ks.

(** bgp/dissect.rs:946-976, the capabilities in a parameter. *)
Fixpoint caps_loop (fuel : nat) (value : bytes) (base pos : N) : res (list node) :=
  match fuel with
  | O => Panic
  | S f =>
      if pos + 2 <=? nlen value then
        c <~ idx value pos ;; cl <~ idx value (pos + 1) ;;
        if nlen value <? pos + 2 + cl then Ok [] else
        one (ks <~ (leaf "bgp.open.capability.code" [c] base pos 1 +++ leaf "bgp.open.capability.length" [cl] base (pos + 1) 1) ;;
             node_at (F "bgp.open.capability") [c] base pos (2 + cl) ks) +++
        caps_loop f value base (pos + 2 + cl)
      else Ok []
  end.
(** bgp/dissect.rs:879-987, the loop over the optional parameters of [dissect_open]. *)
Fixpoint params_loop (fuel : nat) (data : bytes) (base ol : N) (extended first : bool) (pos : N) : res (list node) :=
  match fuel with
  | O => Panic
  | S f =>
      if pos + 2 <=? nlen data then
        t <~ idx data pos ;;
        if first && (t =? 255) && negb (ol =? 0) then
          if nlen data <? pos + 3 then Ok [] else
          let xl := or0 (rd16 data (pos + 1)) in
          leaf "bgp.open.ext_params_len" [xl] base pos 3 +++
          (if xl =? 0 then Ok [] else params_loop f data base ol true false (pos + 3))
        else
          let ls := if extended then 2 else 1 in
          match (if extended then rd16 data (pos + 1) else Some (or0 (get data (pos + 1)))) with
          | None => Ok []
          | Some vl =>
              let hl := 1 + ls in
              if nlen data <? pos + hl + vl then Ok [] else
              one (v <~ slice data (pos + hl) (pos + hl + vl) ;;
                   ks <~ (leaf "bgp.open.param.type" [t] base pos 1 +++ leaf "bgp.open.param.length" [vl] base (pos + 1) ls +++
                          (if t =? 2 then caps_loop (S (length v)) v (base + u32 (pos + hl)) 0
                           else leaf "bgp.open.param.value" [] base (pos + hl) vl)) ;;
                   node_at (F "bgp.open.param") [t] base pos (hl + vl) ks) +++
              params_loop f data base ol extended false (pos + hl + vl)
          end
      else Ok []
  end.
(** bgp/dissect.rs:828-990 [dissect_open]. *)
Definition dissect_open (data : bytes) (base : N) : res node :=
  let n := nlen data in
  ks <~ (if n <? 10 then if n =? 0 then Ok [] else leaf "bgp.open.truncated" [] base 0 n
         else
           (v <~ idx data 0 ;; leaf "bgp.open.version" [v] base 0 1) +++
           (a <~ word 2 data 1 ;; leaf "bgp.open.asn" [a] base 1 2) +++
           (h <~ word 2 data 3 ;; leaf "bgp.open.hold_time" [h] base 3 2) +++
           (i <~ slice data 5 9 ;; leaf "bgp.open.bgp_identifier" i base 5 4) +++
           (ol <~ idx data 9 ;; leaf "bgp.open.opt_params_len" [ol] base 9 1 +++
            params_loop (S (length data)) data base ol false true 10)) ;;
  node_at (F "bgp.open") [] base 0 n ks.
(** bgp/dissect.rs:1009-1037 [dissect_notification]. *)
Definition dissect_notification (data : bytes) (base : N) : res node :=
  ks <~ (match get data 0 with Some c => leaf "bgp.notification.code" [c] base 0 1 | None => Ok [] end +++
         (if 2 <=? nlen data then s <~ idx data 1 ;; leaf "bgp.notification.subcode" [s] base 1 1 else Ok []) +++
         (if 2 <? nlen data then leaf "bgp.notification.data" [] base 2 (nlen data - 2) else Ok [])) ;;
  node_at (F "bgp.notification") [] base 0 (nlen data) ks.
(** bgp/dissect.rs:1039-1076 [dissect_route_refresh]. *)
Definition dissect_route_refresh (data : bytes) (base : N) : res node :=
  ks <~ ((if 4 <=? nlen data then
            leaf "bgp.route_refresh.afi" [or0 (rd16 data 0)] base 0 2 +++
            (s <~ idx data 2 ;; leaf "bgp.route_refresh.subtype" [s] base 2 1) +++
            (s <~ idx data 3 ;; leaf "bgp.route_refresh.safi" [s] base 3 1)
          else Ok []) +++
         (if 4 <? nlen data then leaf "bgp.route_refresh.data" [] base 4 (nlen data - 4) else Ok [])) ;;
  node_at (F "bgp.route_refresh") [] base 0 (nlen data) ks.
(** bgp/dissect.rs:90-216 [dissect_bgp_message], [dissect_bgp_message_base]. *)
Definition dissect_bgp (data : bytes) (base : N) (al : asn_len) (ap : bool) : res node :=
  let n := nlen data in
  if n <? 19 then
    ks <~ (if n =? 0 then Ok [] else leaf "bgp.header" [] base 0 n) ;; node_at (F "bgp") [] base 0 n ks
  else
    ln <~ word 2 data 16 ;; ty <~ idx data 18 ;;
    let declared := ln - 19 in
    let avail := n - 19 in
    let bl := N.min declared avail in
    let ml := 19 + bl in
    m <~ slice data 0 16 ;;
    body <~ slice data 19 (19 + bl) ;;
    let bb := base + 19 in
    ks <~ (one (ks <~ (leaf "bgp.header.marker" [if forallb (N.eqb 255) m then 1 else 0] base 0 16 +++
                       leaf "bgp.header.length" [ln] base 16 2 +++ leaf "bgp.header.type" [ty] base 18 1) ;;
                node_at (F "bgp.header") [] base 0 19 ks) +++
           (if avail <? declared then leaf "bgp.truncated" [ln] base ml 0 else Ok []) +++
           (match ty with
            | 1 => one (dissect_open body bb)
            | 2 => one (dissect_update body bb al ap)
            | 3 => one (dissect_notification body bb)
            | 4 => Ok []
            | 5 => one (dissect_route_refresh body bb)
            | _ => leaf "bgp.body" [] bb 0 (nlen body)
            end) +++
           (if bl <? avail then leaf "bgp.trailing" [] base ml (avail - bl) else Ok [])) ;;
    node_at (F "bgp") [] base 0 ml ks.

(** mrt/dissect.rs:394-405 [read_asn]. *)
Definition read_asn (data : bytes) (pos asz : N) : N :=
  if asz =? 4 then be_val [or0 (get data pos); or0 (get data (pos + 1)); or0 (get data (pos + 2)); or0 (get data (pos + 3))]
  else or0 (rd16 data pos).
(** mrt/dissect.rs:308-379 [walk_bgp4mp_addresses]: the nodes, and where the walk goes on. *)
Definition walk_addresses (data : bytes) (base pos : N) : res (list node * option N) :=
  let n := nlen data in
  if n <? pos + 4 then ks <~ leaf "mrt.bgp4mp.truncated" [] base pos (n - pos) ;; Ok (ks, None) else
  let afi := or0 (rd16 data (pos + 2)) in
  hd <~ (leaf "mrt.bgp4mp.interface_index" [or0 (rd16 data pos)] base pos 2 +++ leaf "mrt.bgp4mp.afi" [afi] base (pos + 2) 2) ;;
  let p := pos + 4 in
  match (match afi with 1 => Some 4 | 2 => Some 16 | _ => None end) with
  | None => ks <~ leaf "mrt.bgp4mp.addresses" [afi] base p (n - p) ;; Ok (hd ++ ks, None)
  | Some al =>
      if n <? p + 2 * al then ks <~ leaf "mrt.bgp4mp.truncated" [] base p (n - p) ;; Ok (hd ++ ks, None) else
      a <~ slice data p (p + al) ;; b <~ slice data (p + al) (p + al + al) ;;
      ks <~ (leaf "mrt.bgp4mp.peer_ip" a base p al +++ leaf "mrt.bgp4mp.local_ip" b base (p + al) al) ;;
      Ok (hd ++ ks, Some (p + al + al))
  end.
(** The two states of a state change. *)
Definition states (data : bytes) (base pos : N) : res (list node) :=
  leaf "mrt.bgp4mp.old_state" [or0 (rd16 data pos)] base pos 2 +++ leaf "mrt.bgp4mp.new_state" [or0 (rd16 data (pos + 2))] base (pos + 2) 2.
(** mrt/dissect.rs:158-302 [dissect_bgp4mp]. *)
Definition dissect_bgp4mp (data : bytes) (base sub_type : N) : res node :=
  let n := nlen data in
  let as4 := existsb (N.eqb sub_type) [4; 5; 7; 9; 11] in
  let asz := if as4 then 4 else 2 in
  let ap := (8 <=? sub_type) && (sub_type <=? 11) in
  let al := if as4 then Bits32 else Bits16 in
  let msg := negb ((sub_type =? 0) || (sub_type =? 5)) in
  ks <~ (if n <? 2 * asz then leaf "mrt.bgp4mp.truncated" [] base 0 n
         else
           leaf "mrt.bgp4mp.peer_asn" [read_asn data 0 asz] base 0 asz +++
           leaf "mrt.bgp4mp.local_asn" [read_asn data asz asz] base asz asz +++
           (let p := 2 * asz in
            rest <~ slice data p n ;;
            m <~ (if 16 <=? nlen rest then s <~ slice rest 0 16 ;; Ok (forallb (N.eqb 255) s) else Ok false) ;;
            if (m : bool) then
              leaf "mrt.bgp4mp.zebra_compat" [] base p 0 +++ one (dissect_bgp rest (base + u32 p) al ap)
            else if negb msg && (asz =? 2) && (n =? 8) then states data base p
            else
              '(ks, o) <~ walk_addresses data base p ;;
              match o with
              | None => Ok ks
              | Some q =>
                  Ok ks +++
                  (if msg then s <~ slice data q n ;; one (dissect_bgp s (base + u32 q) al ap)
                   else if n <? q + 4 then leaf "mrt.bgp4mp.truncated" [] base q (n - q)
                   else states data base q)
              end)) ;;
  node_at (F "mrt.bgp4mp") [sub_type] base 0 n ks.
(** mrt/dissect.rs:43-148 [dissect_mrt_bytes]. *)
Definition dissect_mrt_bytes (data : bytes) : res node :=
  let n := nlen data in
  ks <~ (if n <? 12 then if n =? 0 then Ok [] else leaf "mrt.header" [] 0 0 n
         else
           let ty := or0 (rd16 data 4) in
           let st := or0 (rd16 data 6) in
           let et := (ty =? 17) || (ty =? 33) || (ty =? 49) in
           let hl := if et then 16 else 12 in
           ts <~ word 4 data 0 ;; ln <~ word 4 data 8 ;;
           hs <~ (leaf "mrt.header.timestamp" [ts] 0 0 4 +++ leaf "mrt.header.type" [ty] 0 4 2 +++
                  leaf "mrt.header.subtype" [st] 0 6 2 +++ leaf "mrt.header.length" [ln] 0 8 4 +++
                  (if et then
                     if 16 <=? n then us <~ word 4 data 12 ;; leaf "mrt.header.microsecond" [us] 0 12 4
                     else leaf "mrt.header.microsecond" [] 0 12 (n - 12)
                   else Ok [])) ;;
           one (node_at (F "mrt.header") [] 0 0 (N.min hl n) hs) +++
           (if et && (n <? 16) then Ok []
            else
              body <~ slice data hl n ;;
              if nlen body =? 0 then Ok []
              else if (ty =? 16) || (ty =? 17) then one (dissect_bgp4mp body hl st)
              else leaf "mrt.body" [] hl 0 (nlen body))) ;;
  node_at (F "mrt") [] 0 0 n ks.
(** mrt/dissect.rs:32-37 [dissect_mrt_record]. *)
Definition dissect_mrt_record (r : raw) : res node := dissect_mrt_bytes (raw_bytes r).
