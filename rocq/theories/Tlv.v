(** Attributes that are lists of type-length-value items: AIGP, SFP, BFD
    discriminator, Prefix-SID, BIER, tunnel encapsulation; and the fixed-layout
    traffic engineering attribute. *)
From Verif Require Import Base Reader Net AsPath Mpls.

(** /repo/src/encoder/sink.rs:55-64 [put_u8_len_slice] ([w = 1]) and 70-79
    [put_u16_len_slice] ([w = 2]).  What was already in the buffer is dropped on
    an error: every caller returns the error. *)
Definition put_len_slice (w : nat) (v : bytes) : res bytes :=
  _ <~ check_max (nlen v) (256 ^ N.of_nat w - 1) ;; Ok (be w (nlen v) ++ v).
(** sink.rs:18-30 [with_u8_len] and 37-49 [with_u16_len]: encode the body, then
    patch the length in front of it. *)
Definition with_len (w : nat) (body : res bytes) : res bytes :=
  b <~ body ;; put_len_slice w b.

(** [while data.remaining() >= m { items.push(p()?) }]: what is left below [m]
    octets is ignored.  [fuel] as in [many_p]. *)
Fixpoint many_min {A} (m fuel : nat) (p : P A) (s : bytes) : res (list A) :=
  if (length s <? m)%nat then Ok [] else
  match fuel with
  | O => Panic
  | S f => '(a, s') <~ p s ;; l <~ many_min m f p s' ;; Ok (a :: l)
  end.

(** /repo/src/models/bgp/attributes/mod.rs:594-616 [RawTlv8], [RawTlv8Ext],
    [RawTlv16]; linkstate.rs:174-186 [Tlv]: one record for all four. *)
Record tlv := Tlv { t_type : N; t_value : bytes }.

(** The loop bodies of attr_37_sfp.rs:12-26 ([tw = 1], [lw = 2]),
    attr_40_bgp_prefix_sid.rs:12-26 ([1], [2]), attr_41_bier.rs:12-26 ([2], [2])
    and attr_38_bfd_discriminator.rs:20-34 ([1], [1]). *)
Definition read_tlv (tw lw : nat) : P tlv :=
  need (tw + lw) ETrunc ;;;
  t <- read_be tw ;;
  n <- read_be lw ;;
  need (N.to_nat n) ETrunc ;;;
  v <- split_to (N.to_nat n) ;;
  ret (Tlv t v).
(** The loop bodies of the encoders: attr_37_sfp.rs:33-36,
    attr_40_bgp_prefix_sid.rs:36-39, attr_41_bier.rs:33-36,
    attr_38_bfd_discriminator.rs:52-55. *)
Definition encode_tlv (tw lw : nat) (t : tlv) : res bytes :=
  b <~ put_len_slice lw (t_value t) ;; Ok (be tw (t_type t) ++ b).
Definition encode_tlvs (tw lw : nat) (l : list tlv) : res bytes :=
  bs <~ rmap (encode_tlv tw lw) l ;; Ok (concat bs).

(** attr_37_sfp.rs:8-38. *)
Definition parse_sfp (s : bytes) : res (list tlv) := many_p (length s) (read_tlv 1 2) s.
Definition encode_sfp (l : list tlv) : res bytes := encode_tlvs 1 2 l.
(** attr_40_bgp_prefix_sid.rs:8-41. *)
Definition parse_prefix_sid (s : bytes) : res (list tlv) := many_p (length s) (read_tlv 1 2) s.
Definition encode_prefix_sid (l : list tlv) : res bytes := encode_tlvs 1 2 l.
(** attr_41_bier.rs:8-38. *)
Definition parse_bier (s : bytes) : res (list tlv) := many_p (length s) (read_tlv 2 2) s.
Definition encode_bier (l : list tlv) : res bytes := encode_tlvs 2 2 l.

(** attributes/mod.rs:619-626 [BfdDiscriminatorAttribute]. *)
Record bfd := Bfd { bfd_mode : N; bfd_disc : N; bfd_tlvs : list tlv }.
(** attr_38_bfd_discriminator.rs:8-44. *)
Definition parse_bfd (s : bytes) : res bfd :=
  '(m, d, r) <~ run (need 5 ETrunc ;;; m <- read_u8 ;; d <- read_u32 ;; r <- peek ;; ret (m, d, r)) s ;;
  l <~ many_p (length r) (read_tlv 1 1) r ;;
  Ok (Bfd m d l).
(** attr_38_bfd_discriminator.rs:46-57. *)
Definition encode_bfd (b : bfd) : res bytes :=
  l <~ encode_tlvs 1 1 (bfd_tlvs b) ;;
  Ok (be 1 (bfd_mode b) ++ be 4 (bfd_disc b) ++ l).

(** attributes/mod.rs:550-557 [AigpTlv]; the wire length field is kept. *)
Record aigp_tlv := AigpTlv { ai_type : N; ai_len : N; ai_value : bytes }.
(** attr_26_aigp.rs:10-39: one TLV. *)
Definition read_aigp_tlv : P aigp_tlv :=
  need 3 ETrunc ;;;
  t <- read_u8 ;;
  n <- read_u16 ;;
  if n <? 3 then fail EParse else
  need (N.to_nat (n - 3)) ETrunc ;;;
  v <- split_to (N.to_nat (n - 3)) ;;
  ret (AigpTlv t n v).
(** attr_26_aigp.rs:7-42. *)
Definition parse_aigp (s : bytes) : res (list aigp_tlv) := many_p (length s) read_aigp_tlv s.
(** attr_26_aigp.rs:44-57: a wrong length field is recomputed, [as u16]. *)
Definition encode_aigp_tlv (t : aigp_tlv) : bytes :=
  let n := if ai_len t =? nlen (ai_value t) + 3 then ai_len t else u16 (nlen (ai_value t) + 3) in
  be 1 (ai_type t) ++ be 2 n ++ ai_value t.
Definition encode_aigp (l : list aigp_tlv) : bytes := flat_map encode_aigp_tlv l.
(** attributes/mod.rs:569-591 [Aigp::accumulated_metric]. *)
Definition accumulated_metric (l : list aigp_tlv) : option N :=
  match find (fun t => ai_type t =? 1) l with
  | Some t => if (8 <=? length (ai_value t))%nat then Some (be_val (firstn 8 (ai_value t))) else None
  | None => None
  end.

(** attributes/mod.rs:649-670 [TrafficEngineering]; the eight [f32] are their bit
    patterns, on which the code's [PartialEq] (672-685) compares them. *)
Record traffic_eng := TE {
  te_cap : N; te_enc : N; te_reserved : N; te_bw : list N; te_specific : bytes }.
(** attr_24_traffic_engineering.rs:15-46. *)
Definition parse_traffic_eng (s : bytes) : res traffic_eng :=
  run (need 36 ETrunc ;;;
       c <- read_u8 ;; e <- read_u8 ;; r <- read_u16 ;;
       bw <- repeat_p 8 read_u32 ;;
       rest <- peek ;;
       ret (TE c e r bw rest)) s.
(** attr_24_traffic_engineering.rs:53-68. *)
Definition encode_traffic_eng (t : traffic_eng) : bytes :=
  be 1 (te_cap t) ++ be 1 (te_enc t) ++ be 2 (te_reserved t) ++
  flat_map (be 4) (te_bw t) ++ te_specific t.

(** /repo/src/models/bgp/tunnel_encap.rs:6-57 [TunnelType] and 59-110
    [SubTlvType]: the enums are represented by their discriminants; [from] maps
    every value without a variant to [Reserved = 0]. *)
Definition tunnel_type_of (n : N) : N := if n <=? 22 then n else 0.
Definition sub_type_of (n : N) : N :=
  if (n <=? 20) || (n =? 128) || (n =? 129) then n else 0.
(** tunnel_encap.rs:112-143 [SubTlv], [TunnelEncapTlv]. *)
Record tunnel := Tunnel { tn_type : N; tn_subs : list tlv }.
(** attr_23_tunnel_encap.rs:41-79: one sub-TLV; the length field has one octet for
    types below 128, two otherwise. *)
Definition read_sub_tlv : P tlv :=
  need 2 ETrunc ;;;
  t <- read_u8 ;;
  n <- (if t <? 128 then need 1 ETrunc ;;; read_u8 else need 2 ETrunc ;;; read_u16) ;;
  need (N.to_nat n) ETrunc ;;;
  v <- read_n_bytes n ;;
  ret (Tlv (sub_type_of t) v).
(** attr_23_tunnel_encap.rs:36-82 [parse_tunnel_tlv]. *)
Definition parse_tunnel_tlv (t : N) (d : bytes) : res tunnel :=
  l <~ many_p (length d) read_sub_tlv d ;; Ok (Tunnel (tunnel_type_of t) l).
(** attr_23_tunnel_encap.rs:17-30: one tunnel TLV. *)
Definition read_tunnel : P tunnel :=
  t <- read_u16 ;; n <- read_u16 ;;
  need (N.to_nat n) ETrunc ;;;
  d <- read_n_bytes n ;;
  lift (parse_tunnel_tlv t d).
(** attr_23_tunnel_encap.rs:11-34. *)
Definition parse_tunnel_encap (s : bytes) : res (list tunnel) := many_min 4 (length s) read_tunnel s.
(** attr_23_tunnel_encap.rs:95-106: one sub-TLV. *)
Definition encode_sub_tlv (t : tlv) : res bytes :=
  b <~ put_len_slice (if t_type t <? 128 then 1 else 2) (t_value t) ;;
  Ok (be 1 (t_type t) ++ b).
(** attr_23_tunnel_encap.rs:89-109: one tunnel TLV. *)
Definition encode_tunnel (t : tunnel) : res bytes :=
  b <~ with_len 2 (bs <~ rmap encode_sub_tlv (tn_subs t) ;; Ok (concat bs)) ;;
  Ok (be 2 (tn_type t) ++ b).
(** attr_23_tunnel_encap.rs:85-112. *)
Definition encode_tunnel_encap (l : list tunnel) : res bytes :=
  bs <~ rmap encode_tunnel l ;; Ok (concat bs).

(** tunnel_encap.rs:149-220: [get_tunnel_egress_endpoint], [get_color],
    [get_udp_destination_port], [get_preference]: the first sub-TLV of the type. *)
Definition find_sub (t : tunnel) (k : N) : option bytes :=
  option_map t_value (find (fun x => t_type x =? k) (tn_subs t)).
Definition first_be (k : nat) (v : option bytes) : option N :=
  match v with
  | Some b => if (k <=? length b)%nat then Some (be_val (firstn k b)) else None
  | None => None
  end.
Definition get_endpoint (t : tunnel) : option ip :=
  match find_sub t 6 with
  | Some b => if (length b =? 4)%nat then Some (V4 (be_val b))
              else if (length b =? 16)%nat then Some (V6 (be_val b)) else None
  | None => None
  end.
Definition get_color (t : tunnel) : option N := first_be 4 (find_sub t 4).
Definition get_udp_port (t : tunnel) : option N := first_be 2 (find_sub t 8).
Definition get_preference (t : tunnel) : option N := first_be 4 (find_sub t 12).
