(** Names and rates of a link-state attribute. *)
From Coq Require Import ZArith Reals Floats.SpecFloat.
From Verif Require Import Base Utf8 TableDumpSpec TableDumpFacts Tlv TlvSpec LinkState LinkStateSpec LinkStateFacts LsRates LsRatesSpec LsRatesFacts.

(** A name is reported exactly when the last TLV of its type holds UTF-8, and then it is
    that text. *)
Theorem C95_names l a s : ls_view l a ->
  (get_node_name a = Some s <-> last_value 1026 l = Some s /\ utf8 s) /\
  (get_link_name a = Some s <-> last_value 1098 l = Some s /\ utf8 s).
Proof. exact (names l a s). Qed.
Print Assumptions C95_names.

(** A bandwidth is the IEEE 754 number in the first four octets of the last TLV of its type... *)
Theorem C95_bandwidths l a : ls_view l a -> forall s e f r, e < 256 -> f < 2 ^ 23 ->
  (last_value 1089 l = Some (be 4 (ieee_bits s e f) ++ r) -> exists x, get_max_bandwidth a = Some x /\ ieee s e f x) /\
  (last_value 1118 l = Some (be 4 (ieee_bits s e f) ++ r) -> exists x, get_residual_bandwidth a = Some x /\ ieee s e f x) /\
  (last_value 1119 l = Some (be 4 (ieee_bits s e f) ++ r) -> exists x, get_available_bandwidth a = Some x /\ ieee s e f x) /\
  (last_value 1120 l = Some (be 4 (ieee_bits s e f) ++ r) -> exists x, get_utilized_bandwidth a = Some x /\ ieee s e f x).
Proof. exact (bandwidths l a). Qed.
Print Assumptions C95_bandwidths.
(** ... and nothing else is reported. *)
Theorem C95_bandwidths_only l a x : ls_view l a -> Forall (fun t => bytes_ok (t_value t)) l ->
  (get_max_bandwidth a = Some x -> exists s e f r, e < 256 /\ f < 2 ^ 23 /\ last_value 1089 l = Some (be 4 (ieee_bits s e f) ++ r) /\ ieee s e f x) /\
  (get_residual_bandwidth a = Some x -> exists s e f r, e < 256 /\ f < 2 ^ 23 /\ last_value 1118 l = Some (be 4 (ieee_bits s e f) ++ r) /\ ieee s e f x) /\
  (get_available_bandwidth a = Some x -> exists s e f r, e < 256 /\ f < 2 ^ 23 /\ last_value 1119 l = Some (be 4 (ieee_bits s e f) ++ r) /\ ieee s e f x) /\
  (get_utilized_bandwidth a = Some x -> exists s e f r, e < 256 /\ f < 2 ^ 23 /\ last_value 1120 l = Some (be 4 (ieee_bits s e f) ++ r) /\ ieee s e f x).
Proof. exact (bandwidths_only l a x). Qed.
Print Assumptions C95_bandwidths_only.

(** The loss is 0.000003 per cent times the 24-bit number after the flags, up to one part in
    2 ^ 22... *)
Theorem C95_loss l a f n r : ls_view l a -> f < 256 -> n < 2 ^ 24 -> last_value 1117 l = Some (be 1 f ++ be 3 n ++ r) ->
  exists x v, get_link_loss a = Some x /\ number x v /\ (Rabs (v - IZR (Z.of_N n) * 3 / 1000000) <= IZR (Z.of_N n) * 3 / 1000000 / 2 ^ 22)%R.
Proof. exact (loss l a f n r). Qed.
Print Assumptions C95_loss.
(** ... it is reported only then... *)
Theorem C95_loss_only l a x : ls_view l a -> Forall (fun t => bytes_ok (t_value t)) l -> get_link_loss a = Some x ->
  exists f n r, f < 256 /\ n < 2 ^ 24 /\ last_value 1117 l = Some (be 1 f ++ be 3 n ++ r).
Proof. exact (loss_only l a x). Qed.
Print Assumptions C95_loss_only.
(** ... and keeps the order of the numbers. *)
Theorem C95_loss_order l a f n r l' a' f' n' r' x v x' v' : ls_view l a -> ls_view l' a' -> f < 256 -> f' < 256 -> n <= n' -> n' < 2 ^ 24 ->
  last_value 1117 l = Some (be 1 f ++ be 3 n ++ r) -> last_value 1117 l' = Some (be 1 f' ++ be 3 n' ++ r') ->
  get_link_loss a = Some x -> get_link_loss a' = Some x' -> number x v -> number x' v' -> (v <= v')%R.
Proof. exact (loss_order l a f n r l' a' f' n' r' x v x' v'). Qed.
Print Assumptions C95_loss_order.

(** The numeric accessors of [C50_accessors] report nothing else. *)
Theorem C50_accessors_only l a : ls_view l a -> Forall (fun t => bytes_ok (t_value t)) l ->
  (forall b, get_node_flags a = Some b -> exists r, last_value 1024 l = Some (b :: r)) /\
  (forall m, get_igp_metric a = Some m -> exists w, (1 <= w <= 3)%nat /\ m < 256 ^ N.of_nat w /\ last_value 1095 l = Some (be w m)) /\
  (forall m, get_admin_group a = Some m -> m < 2 ^ 32 /\ exists r, last_value 1088 l = Some (be 4 m ++ r)) /\
  (forall m, get_prefix_metric a = Some m -> m < 2 ^ 32 /\ exists r, last_value 1155 l = Some (be 4 m ++ r)) /\
  (forall m, get_link_delay a = Some m -> m < 2 ^ 24 /\ exists f r, f < 256 /\ last_value 1114 l = Some (be 1 f ++ be 3 m ++ r)) /\
  (forall m n, get_min_max_delay a = Some (m, n) -> m < 2 ^ 24 /\ n < 2 ^ 24 /\
     exists f g r, f < 256 /\ g < 256 /\ last_value 1115 l = Some (be 1 f ++ be 3 m ++ be 1 g ++ be 3 n ++ r)) /\
  (forall m, get_delay_variation a = Some m -> m < 2 ^ 24 /\ exists f r, f < 256 /\ last_value 1116 l = Some (be 1 f ++ be 3 m ++ r)).
Proof. exact (accessors_only l a). Qed.
Print Assumptions C50_accessors_only.

(** Nor do those of a tunnel. *)
Theorem C48_tunnel_accessors_only t n : Forall (fun x => bytes_ok (t_value x)) (tn_subs t) ->
  (get_endpoint t = Some (Net.V4 n) -> n < 2 ^ 32 /\ first_value 6 (tn_subs t) (be 4 n)) /\
  (get_endpoint t = Some (Net.V6 n) -> n < 2 ^ 128 /\ first_value 6 (tn_subs t) (be 16 n)) /\
  (get_color t = Some n -> n < 2 ^ 32 /\ exists r, first_value 4 (tn_subs t) (be 4 n ++ r)) /\
  (get_udp_port t = Some n -> n < 2 ^ 16 /\ exists r, first_value 8 (tn_subs t) (be 2 n ++ r)) /\
  (get_preference t = Some n -> n < 2 ^ 32 /\ exists r, first_value 12 (tn_subs t) (be 4 n ++ r)).
Proof. exact (tunnel_accessors_only t n). Qed.
Print Assumptions C48_tunnel_accessors_only.
(** The tunnels of a type: all of them, in order. *)
Theorem C48_tunnels_by_type l k : part_of (tunnels_by_type l k) l /\
  (forall t, In t (tunnels_by_type l k) <-> In t l /\ tn_type t = k) /\
  (forall s, part_of s l -> Forall (fun t => tn_type t = k) s -> (length s <= length (tunnels_by_type l k))%nat) /\
  (has_tunnel_type l k = true <-> exists t, In t l /\ tn_type t = k).
Proof. exact (by_type l k). Qed.
Print Assumptions C48_tunnels_by_type.
(** A tunnel is added behind the others, in what is found and in what is written. *)
Theorem C48_added_tunnel l t : (forall k, tunnels_by_type (add_tunnel_tlv l t) k = tunnels_by_type l k ++ tunnels_by_type [t] k) /\
  (forall a b, encode_tunnel_encap l = Ok a -> encode_tunnel t = Ok b -> encode_tunnel_encap (add_tunnel_tlv l t) = Ok (a ++ b)).
Proof. exact (added_tunnel l t). Qed.
Print Assumptions C48_added_tunnel.
(** A sub-TLV is added behind the others: it is found only where there was none of its type. *)
Theorem C48_added_sub t x : tn_type (add_sub_tlv t x) = tn_type t /\
  (forall k v, first_value k (tn_subs t) v -> first_value k (tn_subs (add_sub_tlv t x)) v) /\
  (Forall (fun y => t_type y <> t_type x) (tn_subs t) -> first_value (t_type x) (tn_subs (add_sub_tlv t x)) (t_value x)).
Proof. exact (added_sub t x). Qed.
Print Assumptions C48_added_sub.
Example C48_ex_added : let t := Tunnel 8 [Tlv 4 [0; 0; 0; 7]] in
  get_color (add_sub_tlv t (Tlv 4 [0; 0; 0; 9])) = Some 7 /\ get_udp_port (add_sub_tlv t (Tlv 8 [18; 181])) = Some 4789 /\
  tunnels_by_type (add_tunnel_tlv [t] (Tunnel 8 [])) 8 = [t; Tunnel 8 []].
Proof. repeat split; reflexivity. Qed.

(** An attribute with a name, a bandwidth of 1.25e9 octets per second, a loss with its flag
    set, and one with a name that is not UTF-8. *)
Definition ex_rates : list tlv :=
  [Tlv 1026 [114; 195; 169]; Tlv 1089 [78; 149; 2; 249]; Tlv 1117 [128; 15; 66; 64]; Tlv 1098 [255]; Tlv 1118 [127; 192; 0; 0]; Tlv 1119 [0; 0; 0]].
Example C95_ex : let a := fold_left add_ls_tlv ex_rates ls_empty in ls_view ex_rates a /\ Forall (fun t => bytes_ok (t_value t)) ex_rates /\
  get_node_name a = Some [114; 195; 169] /\ get_link_name a = None /\ get_max_bandwidth a = Some (S754_finite false 9765625 7) /\
  get_residual_bandwidth a = Some S754_nan /\ get_available_bandwidth a = None /\ get_utilized_bandwidth a = None /\
  get_link_loss a = Some (S754_finite false 12582912 (-22)).
Proof.
  cbv zeta. split; [apply fold_view|]. split; [repeat constructor|]. repeat split; vm_compute; reflexivity.
Qed.

(** Finding: near 50 per cent different losses on the wire are the same number. *)
Theorem C95_loss_distinct_refuted : exists n m a b x, n <> m /\ n < 2 ^ 24 /\ m < 2 ^ 24 /\
  a = fold_left add_ls_tlv [Tlv 1117 (0 :: be 3 n)] ls_empty /\ b = fold_left add_ls_tlv [Tlv 1117 (0 :: be 3 m)] ls_empty /\
  get_link_loss a = Some x /\ get_link_loss b = Some x.
Proof.
  exists 16777214, 16777213. do 3 eexists. split; [discriminate|]. split; [reflexivity|]. split; [reflexivity|]. split; [reflexivity|]. split; [reflexivity|].
  split; vm_compute; reflexivity.
Qed.
Print Assumptions C95_loss_distinct_refuted.
