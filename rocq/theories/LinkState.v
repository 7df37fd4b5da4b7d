(** BGP Link-State: the attribute and the NLRI
    (/repo/src/parser/bgp/attributes/attr_29_linkstate.rs,
    /repo/src/models/bgp/linkstate.rs). *)
From Verif Require Import Base Reader Net AsPath Mpls Tlv.

(** linkstate.rs:297-299: [HashMap] from a type code to octets, as the list of its
    entries in increasing key order, so that equal maps are equal lists.  [insert]
    overwrites.  The iteration order of the real map is arbitrary: the encoder
    below takes it as an argument. *)
Definition kmap := list (N * bytes).
Fixpoint kget (k : N) (m : kmap) : option bytes :=
  match m with
  | [] => None
  | (k', v) :: m' => if k =? k' then Some v else kget k m'
  end.
Fixpoint kinsert (k : N) (v : bytes) (m : kmap) : kmap :=
  match m with
  | [] => [(k, v)]
  | (k', v') :: m' => if k <? k' then (k, v) :: m
                      else if k =? k' then (k, v) :: m'
                      else (k', v') :: kinsert k v m'
  end.

(** linkstate.rs:82-99, 101-146, 148-172: the codes with a variant (an enum value is
    its discriminant; any other code converts to [Reserved = 0]). *)
Definition node_attr_of (n : N) : N :=
  if ((1024 <=? n) && (n <=? 1029)) || ((1034 <=? n) && (n <=? 1037)) then n else 0.
Definition link_attr_of (n : N) : N :=
  if ((1028 <=? n) && (n <=? 1031)) || ((1088 <=? n) && (n <=? 1103))
     || ((1114 <=? n) && (n <=? 1120)) || (n =? 1122) || (n =? 1172) then n else 0.
Definition prefix_attr_of (n : N) : N :=
  if ((1152 <=? n) && (n <=? 1159)) || ((1161 <=? n) && (n <=? 1163))
     || (n =? 1170) || (n =? 1171) || (n =? 1174) then n else 0.

(** linkstate.rs:292-301 [LinkStateAttribute]. *)
Record ls_attr := LsAttr {
  la_node : kmap; la_link : kmap; la_prefix : kmap; la_unknown : list tlv }.
Definition ls_empty : ls_attr := LsAttr [] [] [] [].
(** linkstate.rs:308-322 [add_node_attribute], ..., [add_unknown_attribute]. *)
Definition add_node (a : ls_attr) (k : N) (v : bytes) : ls_attr :=
  LsAttr (kinsert k v (la_node a)) (la_link a) (la_prefix a) (la_unknown a).
Definition add_link (a : ls_attr) (k : N) (v : bytes) : ls_attr :=
  LsAttr (la_node a) (kinsert k v (la_link a)) (la_prefix a) (la_unknown a).
Definition add_prefix (a : ls_attr) (k : N) (v : bytes) : ls_attr :=
  LsAttr (la_node a) (la_link a) (kinsert k v (la_prefix a)) (la_unknown a).
Definition add_unknown (a : ls_attr) (t : tlv) : ls_attr :=
  LsAttr (la_node a) (la_link a) (la_prefix a) (la_unknown a ++ [t]).

(** attr_29_linkstate.rs:30-80: file one TLV. *)
Definition add_ls_tlv (a : ls_attr) (t : tlv) : ls_attr :=
  let n := t_type t in
  let v := t_value t in
  if (1024 <=? n) && (n <=? 1039) then
    let k := node_attr_of n in if k =? 0 then add_unknown a t else add_node a k v
  else if (1088 <=? n) && (n <=? 1103) then
    let k := link_attr_of n in if k =? 0 then add_unknown a t else add_link a k v
  else if ((1114 <=? n) && (n <=? 1120)) || (n =? 1122) then
    let k := link_attr_of n in if k =? 0 then add_unknown a t else add_link a k v
  else if n =? 1172 then
    let k := link_attr_of n in if k =? 0 then add_unknown a t else add_link a k v
  else if ((1152 <=? n) && (n <=? 1163)) || ((1170 <=? n) && (n <=? 1171)) || (n =? 1174) then
    let k := prefix_attr_of n in if k =? 0 then add_unknown a t else add_prefix a k v
  else add_unknown a t.
(** attr_29_linkstate.rs:16-27: one TLV. *)
Definition read_ls_tlv : P tlv :=
  t <- read_u16 ;; n <- read_u16 ;;
  need (N.to_nat n) ETrunc ;;;
  v <- read_n_bytes n ;; ret (Tlv t v).
(** attr_29_linkstate.rs:11-84 [parse_link_state_attribute]. *)
Definition parse_link_state (s : bytes) : res ls_attr :=
  l <~ many_min 4 (length s) read_ls_tlv s ;; Ok (fold_left add_ls_tlv l ls_empty).
(** attr_29_linkstate.rs:435-467 [encode_link_state_attribute]; [ns], [ls], [ps] are
    the entries of the three maps in the order the maps iterate. *)
Definition entries (m : kmap) : list tlv := map (fun kv => Tlv (fst kv) (snd kv)) m.
Definition encode_link_state_in (ns ls ps : kmap) (a : ls_attr) : res bytes :=
  encode_tlvs 2 2 (entries ns ++ entries ls ++ entries ps ++ la_unknown a).
(** The same in key order. *)
Definition encode_link_state (a : ls_attr) : res bytes :=
  encode_link_state_in (la_node a) (la_link a) (la_prefix a) a.

(** linkstate.rs:336-433: numeric accessors (the [f32] and string ones are in
    LsRates.v). *)
Definition get_node_flags (a : ls_attr) : option N :=
  match kget 1024 (la_node a) with Some (b :: _) => Some b | _ => None end.
Definition get_admin_group (a : ls_attr) : option N := first_be 4 (kget 1088 (la_link a)).
Definition get_igp_metric (a : ls_attr) : option N :=
  match kget 1095 (la_link a) with
  | Some v => if (length v =? 1)%nat || (length v =? 2)%nat || (length v =? 3)%nat
              then Some (be_val v) else None
  | None => None
  end.
Definition get_prefix_metric (a : ls_attr) : option N := first_be 4 (kget 1155 (la_prefix a)).
Definition low24 (v : option N) : option N := option_map (fun n => n mod 2 ^ 24) v.
Definition get_link_delay (a : ls_attr) : option N := low24 (first_be 4 (kget 1114 (la_link a))).
Definition get_delay_variation (a : ls_attr) : option N := low24 (first_be 4 (kget 1116 (la_link a))).
Definition get_min_max_delay (a : ls_attr) : option (N * N) :=
  match kget 1115 (la_link a) with
  | Some v => if (8 <=? length v)%nat
              then Some (be_val (firstn 4 v) mod 2 ^ 24, be_val (firstn 4 (skipn 4 v)) mod 2 ^ 24)
              else None
  | None => None
  end.

(** linkstate.rs:188-223: the descriptors. *)
Record node_desc := NodeDesc {
  nd_as : option N; nd_ls_id : option N; nd_area : option N;
  nd_router : option bytes; nd_unknown : list tlv }.
Record link_desc := LinkDesc {
  ld_ids : option (N * N); ld_if4 : option N; ld_nb4 : option N;
  ld_if6 : option N; ld_nb6 : option N; ld_mt : option N; ld_unknown : list tlv }.
Record prefix_desc := PrefixDesc {
  pd_mt : option N; pd_ospf : option N; pd_reach : option ipnet; pd_unknown : list tlv }.

(** attr_29_linkstate.rs:205-235: one node descriptor sub-TLV.  A known type of a
    wrong length is skipped. *)
Definition add_node_desc (d : node_desc) (t : tlv) : node_desc :=
  let v := t_value t in
  if t_type t =? 512 then
    if (length v =? 4)%nat then NodeDesc (Some (be_val v)) (nd_ls_id d) (nd_area d) (nd_router d) (nd_unknown d) else d
  else if t_type t =? 513 then
    if (length v =? 4)%nat then NodeDesc (nd_as d) (Some (be_val v)) (nd_area d) (nd_router d) (nd_unknown d) else d
  else if t_type t =? 514 then
    if (length v =? 4)%nat then NodeDesc (nd_as d) (nd_ls_id d) (Some (be_val v)) (nd_router d) (nd_unknown d) else d
  else if t_type t =? 515 then NodeDesc (nd_as d) (nd_ls_id d) (nd_area d) (Some v) (nd_unknown d)
  else NodeDesc (nd_as d) (nd_ls_id d) (nd_area d) (nd_router d) (nd_unknown d ++ [t]).
(** attr_29_linkstate.rs:271-321: one link descriptor sub-TLV. *)
Definition add_link_desc (d : link_desc) (t : tlv) : link_desc :=
  let v := t_value t in
  if t_type t =? 258 then
    if (length v =? 8)%nat
    then LinkDesc (Some (be_val (firstn 4 v), be_val (skipn 4 v))) (ld_if4 d) (ld_nb4 d) (ld_if6 d) (ld_nb6 d) (ld_mt d) (ld_unknown d) else d
  else if t_type t =? 259 then
    if (length v =? 4)%nat then LinkDesc (ld_ids d) (Some (be_val v)) (ld_nb4 d) (ld_if6 d) (ld_nb6 d) (ld_mt d) (ld_unknown d) else d
  else if t_type t =? 260 then
    if (length v =? 4)%nat then LinkDesc (ld_ids d) (ld_if4 d) (Some (be_val v)) (ld_if6 d) (ld_nb6 d) (ld_mt d) (ld_unknown d) else d
  else if t_type t =? 261 then
    if (length v =? 16)%nat then LinkDesc (ld_ids d) (ld_if4 d) (ld_nb4 d) (Some (be_val v)) (ld_nb6 d) (ld_mt d) (ld_unknown d) else d
  else if t_type t =? 262 then
    if (length v =? 16)%nat then LinkDesc (ld_ids d) (ld_if4 d) (ld_nb4 d) (ld_if6 d) (Some (be_val v)) (ld_mt d) (ld_unknown d) else d
  else if t_type t =? 263 then
    if (length v =? 2)%nat then LinkDesc (ld_ids d) (ld_if4 d) (ld_nb4 d) (ld_if6 d) (ld_nb6 d) (Some (be_val v)) (ld_unknown d) else d
  else LinkDesc (ld_ids d) (ld_if4 d) (ld_nb4 d) (ld_if6 d) (ld_nb6 d) (ld_mt d) (ld_unknown d ++ [t]).
(** attr_29_linkstate.rs:387-433 [parse_ip_prefix_from_bytes]: the family is guessed
    from the length; the octets are copied to a zeroed array ([Ipv6Net::new] refuses
    lengths above 128). *)
Definition parse_ip_prefix (d : bytes) : res ipnet :=
  match d with
  | [] => Err ETrunc
  | n :: r =>
      if n <=? 32 then
        let k := N.to_nat (byte_len n) in
        if (length r <? k)%nat then Err ETrunc
        else Ok (Net (V4 (be_val (firstn k r ++ repeat 0 (4 - k)))) n)
      else
        let k := N.to_nat (byte_len n) in
        if (length r <? k)%nat then Err ETrunc
        else if 128 <? n then Err EParse
        else Ok (Net (V6 (be_val (firstn k r ++ repeat 0 (16 - k)))) n)
  end.
(** attr_29_linkstate.rs:357-381: one prefix descriptor sub-TLV. *)
Definition add_prefix_desc (d : prefix_desc) (t : tlv) : prefix_desc :=
  let v := t_value t in
  if t_type t =? 263 then
    if (length v =? 2)%nat then PrefixDesc (Some (be_val v)) (pd_ospf d) (pd_reach d) (pd_unknown d) else d
  else if t_type t =? 264 then
    if (length v =? 1)%nat then PrefixDesc (pd_mt d) (Some (be_val v)) (pd_reach d) (pd_unknown d) else d
  else if t_type t =? 265 then
    match parse_ip_prefix v with
    | Ok p => PrefixDesc (pd_mt d) (pd_ospf d) (Some p) (pd_unknown d)
    | _ => d
    end
  else PrefixDesc (pd_mt d) (pd_ospf d) (pd_reach d) (pd_unknown d ++ [t]).

(** attr_29_linkstate.rs:196-204, 261-269, 347-355: the sub-TLVs of a descriptor; a
    sub-TLV running past the end stops the loop. *)
Fixpoint desc_tlvs (fuel : nat) (s : bytes) : res (list tlv) :=
  if (length s <? 4)%nat then Ok [] else
  match fuel with
  | O => Panic
  | S f =>
      '(h, r) <~ (t <- read_u16 ;; n <- read_u16 ;; ret (t, n)) s ;;
      if nlen r <? snd h then Ok [] else
      '(v, r') <~ split_to (N.to_nat (snd h)) r ;;
      l <~ desc_tlvs f r' ;; Ok (Tlv (fst h) v :: l)
  end.
(** The common frame of attr_29_linkstate.rs:177-239, 242-325 and 328-385: a missing
    length means an empty descriptor. *)
Definition read_desc {D} (add : D -> tlv -> D) (empty : D) : P D :=
  k <- remaining ;;
  if (k <? 2)%nat then ret empty else
  n <- read_u16 ;;
  need (N.to_nat n) ETrunc ;;;
  d <- read_n_bytes n ;;
  l <- lift (desc_tlvs (length d) d) ;;
  ret (fold_left add l empty).
Definition read_node_desc : P node_desc := read_desc add_node_desc (NodeDesc None None None None []).
Definition read_link_desc : P link_desc := read_desc add_link_desc (LinkDesc None None None None None None []).
Definition read_prefix_desc : P prefix_desc := read_desc add_prefix_desc (PrefixDesc None None None []).

(** linkstate.rs:8-40: [NlriType] and [ProtocolId] by discriminant. *)
Definition nlri_type_of (n : N) : N := if n <=? 7 then n else 0.
Definition protocol_of (n : N) : N := if n <=? 9 then n else 0.
(** linkstate.rs:225-236 [LinkStateNlri]. *)
Record ls_nlri := LsNlri {
  ln_type : N; ln_proto : N; ln_id : N; ln_local : node_desc;
  ln_remote : option node_desc; ln_link : option link_desc; ln_prefix : option prefix_desc }.
(** attr_29_linkstate.rs:122-174 [parse_single_link_state_nlri]. *)
Definition parse_single_ls (ty : N) (d : bytes) : res ls_nlri :=
  let t := nlri_type_of ty in
  run (need 9 ETrunc ;;;
       p <- read_u8 ;; i <- read_u64 ;;
       if t =? 2 then
         l <- read_node_desc ;; r <- read_node_desc ;; k <- read_link_desc ;;
         ret (LsNlri t (protocol_of p) i l (Some r) (Some k) None)
       else if (t =? 3) || (t =? 4) then
         l <- read_node_desc ;; x <- read_prefix_desc ;;
         ret (LsNlri t (protocol_of p) i l None None (Some x))
       else
         l <- read_node_desc ;; ret (LsNlri t (protocol_of p) i l None None None)) d.
(** attr_29_linkstate.rs:97-110: one NLRI. *)
Definition read_ls_nlri : P ls_nlri :=
  t <- read_u16 ;; n <- read_u16 ;;
  need (N.to_nat n) ETrunc ;;;
  d <- read_n_bytes n ;;
  lift (parse_single_ls t d).
(** attr_29_linkstate.rs:87-120 [parse_link_state_nlri]: the list; the [Nlri] around
    it is built by the caller (attr_14_15_nlri.rs:78-80 keeps only the list). *)
Definition parse_ls_nlris (s : bytes) : res (list ls_nlri) := many_min 4 (length s) read_ls_nlri s.
