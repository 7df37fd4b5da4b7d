(** Specification of the BGP-LS attribute and descriptors. *)
From Coq Require Import Sorting.Permutation.
From Verif Require Import Base Tlv TlvSpec LinkState.

(** The value of the last TLV of a type, and the last one satisfying a test. *)
Definition last_such (f : tlv -> bool) (l : list tlv) : option bytes :=
  option_map t_value (find f (rev l)).
Definition last_value (k : N) (l : list tlv) : option bytes := last_such (fun t => t_type t =? k) l.

(** The TLV types filed as node, link and prefix attributes (IANA BGP-LS registry). *)
Definition node_types : list N := [1024; 1025; 1026; 1027; 1028; 1029; 1034; 1035; 1036; 1037].
Definition link_types : list N :=
  [1088; 1089; 1090; 1091; 1092; 1093; 1094; 1095; 1096; 1097; 1098; 1099; 1100; 1101; 1102; 1103;
   1114; 1115; 1116; 1117; 1118; 1119; 1120; 1122; 1172].
Definition prefix_types : list N :=
  [1152; 1153; 1154; 1155; 1156; 1157; 1158; 1159; 1161; 1162; 1163; 1170; 1171; 1174].
Definition recognised (k : N) : bool :=
  existsb (N.eqb k) (node_types ++ link_types ++ prefix_types).

(** Entries of a map: increasing keys taken from [types], values that fit. *)
Fixpoint increasing_keys (m : kmap) : Prop :=
  match m with
  | [] => True
  | (k, _) :: m' => Forall (fun kv => k < fst kv) m' /\ increasing_keys m'
  end.
Definition map_ok (types : list N) (m : kmap) : Prop :=
  increasing_keys m /\
  Forall (fun kv => In (fst kv) types /\ nlen (snd kv) < 65536 /\ bytes_ok (snd kv)) m.
Definition ls_ok (a : ls_attr) : Prop :=
  map_ok node_types (la_node a) /\ map_ok link_types (la_link a) /\ map_ok prefix_types (la_prefix a) /\
  Forall (fun t => tlv_ok 2 2 t /\ recognised (t_type t) = false) (la_unknown a).

(** What may follow the sub-TLVs of a descriptor: fewer than four octets, or a
    sub-TLV whose length runs past the end. *)
Definition cut (t : bytes) : Prop :=
  (length t < 4)%nat \/
  exists ty n r, t = be 2 ty ++ be 2 n ++ r /\ ty < 65536 /\ n < 65536 /\ nlen r < n.
(** The last sub-TLV of a type that has the right length, as a number. *)
Definition last_num (k : N) (w : nat) (l : list tlv) : option N :=
  option_map be_val (last_such (fun t => (t_type t =? k) && (length (t_value t) =? w)%nat) l).
(** The value of the last two-number sub-TLV of a type. *)
Definition last_pair (k : N) (l : list tlv) : option (N * N) :=
  option_map (fun v => (be_val (firstn 4 v), be_val (skipn 4 v)))
    (last_such (fun t => (t_type t =? k) && (length (t_value t) =? 8)%nat) l).

(** The attribute that a list of TLVs describes: per recognised type the value of the
    last TLV of that type, filed with its kind; all other TLVs, in order. *)
Definition ls_view (l : list tlv) (a : ls_attr) : Prop :=
  increasing_keys (la_node a) /\ increasing_keys (la_link a) /\ increasing_keys (la_prefix a) /\
  (forall k, kget k (la_node a) = if existsb (N.eqb k) node_types then last_value k l else None) /\
  (forall k, kget k (la_link a) = if existsb (N.eqb k) link_types then last_value k l else None) /\
  (forall k, kget k (la_prefix a) = if existsb (N.eqb k) prefix_types then last_value k l else None) /\
  la_unknown a = filter (fun t => negb (recognised (t_type t))) l.
(** A descriptor on the wire: its length, then its sub-TLVs and what is cut off. *)
Definition desc_wire (l : list tlv) (t : bytes) : bytes :=
  be 2 (nlen (flat_map (tlv_wire 2 2) l ++ t)) ++ flat_map (tlv_wire 2 2) l ++ t.
Definition desc_ok (l : list tlv) (t : bytes) : Prop :=
  Forall (tlv_ok 2 2) l /\ cut t /\ nlen (flat_map (tlv_wire 2 2) l ++ t) < 65536.
(** What each descriptor must hold after its sub-TLVs [l]. *)
Definition node_of (l : list tlv) (d : node_desc) : Prop :=
  nd_as d = last_num 512 4 l /\ nd_ls_id d = last_num 513 4 l /\ nd_area d = last_num 514 4 l /\
  nd_router d = last_value 515 l /\
  nd_unknown d = filter (fun t => negb ((512 <=? t_type t) && (t_type t <=? 515))) l.
Definition link_of (l : list tlv) (d : link_desc) : Prop :=
  ld_ids d = last_pair 258 l /\ ld_if4 d = last_num 259 4 l /\ ld_nb4 d = last_num 260 4 l /\
  ld_if6 d = last_num 261 16 l /\ ld_nb6 d = last_num 262 16 l /\ ld_mt d = last_num 263 2 l /\
  ld_unknown d = filter (fun t => negb ((258 <=? t_type t) && (t_type t <=? 263))) l.
Definition prefix_of (l : list tlv) (d : prefix_desc) : Prop :=
  pd_mt d = last_num 263 2 l /\ pd_ospf d = last_num 264 1 l /\
  pd_unknown d = filter (fun t => negb ((263 <=? t_type t) && (t_type t <=? 265))) l.
