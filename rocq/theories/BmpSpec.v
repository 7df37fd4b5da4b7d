(** Vocabulary for the properties of BMP messages: the layouts of RFC 7854, 8671 and 9069 and
    of OpenBMP, as they are accepted. *)
From Verif Require Import Base Net NetSpec Utf8 BgpMsg Elem Bmp.

(** A BMP message: version 3, the length of all of it, its type, its content. *)
Definition bmp_frame (t : N) (c : bytes) : bytes := [3] ++ be 4 (6 + nlen c) ++ [t] ++ c.
(** An address takes sixteen octets; IPv4 is at the end, what is before it is not looked at. *)
Definition addr16 (w : bytes) (i : ip) : Prop :=
  match i with
  | V4 n => n < 2 ^ 32 /\ exists z, length z = 12%nat /\ w = z ++ be 4 n
  | V6 n => n < 2 ^ 128 /\ w = be 16 n
  end.
(** An AS number takes four octets; of a 16-bit one the first two are not looked at. *)
Definition asn4 (w : bytes) (l : asn_len) (a : N) : Prop :=
  match l with
  | Bits16 => a < 2 ^ 16 /\ exists z, length z = 2%nat /\ w = z ++ be 2 a
  | Bits32 => a < 2 ^ 32 /\ w = be 4 a
  end.
(** The 42 octets of the per-peer header. The flag bits, from the top: IPv6, post-policy,
    16-bit AS numbers, Adj-RIB-Out.  For a local RIB (type 3) the address is not looked at. *)
Definition per_peer_octets (w : bytes) (h : per_peer) : Prop :=
  exists f a as_ s us,
    w = [pp_type h; f] ++ be 8 (pp_dist h) ++ a ++ as_ ++ be 4 (pp_id h) ++ be 4 s ++ be 4 us /\
    pp_type h <= 3 /\ f < 256 /\ pp_dist h < 2 ^ 64 /\ pp_id h < 2 ^ 32 /\ s < 2 ^ 32 /\ us < 2 ^ 32 /\
    pp_time h = bmp_time s us /\
    if pp_type h =? 3 then
      pp_flags h = LocalRibFlags f /\ length a = 16%nat /\ pp_ip h = V4 0 /\ asn4 as_ Bits32 (pp_asn h)
    else
      pp_flags h = PeerFlags f /\ addr16 a (pp_ip h) /\
      (match pp_ip h with V6 _ => 128 <= f | V4 _ => f < 128 end) /\
      asn4 as_ (if (f / 32) mod 2 =? 1 then Bits16 else Bits32) (pp_asn h).

(** Initiation: TLVs with text; an unfinished one at the end and a rest of up to four octets
    are passed over. *)
Inductive init_octets : bytes -> list bmp_tlv -> Prop :=
| io_end s : (length s <= 4)%nat -> init_octets s []
| io_cut t n v : t < 65536 -> n < 65536 -> v <> [] -> nlen v < n -> init_octets (be 2 t ++ be 2 n ++ v) []
| io_tlv t v r l : t < 65536 -> nlen v < 65536 -> v ++ r <> [] -> init_octets r l ->
    init_octets (be 2 t ++ be 2 (nlen v) ++ v ++ r) (BmpTlv t (nlen v) (latin1 v) :: l).
(** Termination: type 0 is text, type 1 a reason from 0 to 4 in two octets, whatever the length
    field says. *)
Inductive term_octets : bytes -> list term_tlv -> Prop :=
| to_end s : (length s <= 4)%nat -> term_octets s []
| to_cut t n v : t <= 1 -> n < 65536 -> v <> [] -> nlen v < n -> term_octets (be 2 t ++ be 2 n ++ v) []
| to_text v r l : nlen v < 65536 -> v ++ r <> [] -> term_octets r l ->
    term_octets (be 2 0 ++ be 2 (nlen v) ++ v ++ r) (TermTlv 0 (nlen v) (TermText (latin1 v)) :: l)
| to_reason n c r l : c <= 4 -> n < 65536 -> n <= 2 + nlen r -> term_octets r l ->
    term_octets (be 2 1 ++ be 2 n ++ be 2 c ++ r) (TermTlv 1 n (TermReason c) :: l).
(** Peer down: a reason from 0 to 6; 4 and 5 carry no data. *)
Definition down_octets (s : bytes) (m : peer_down) : Prop :=
  exists d, s = pd_reason m :: d /\ pd_reason m <= 6 /\
    match pd_data m with
    | None => pd_reason m = 4 \/ pd_reason m = 5 \/ pd_reason m = 0 /\ d = []
    | Some x => x = d /\ pd_reason m <> 4 /\ pd_reason m <> 5 /\ (pd_reason m = 0 -> d <> [])
    end.
(** One BGP message that fills [b] according to its own length field. *)
Definition bgp_block (al : asn_len) (b : bytes) (m : bgp_msg) : Prop :=
  (19 <= length b)%nat /\ firstn 2 (skipn 16 b) = be 2 (nlen b) /\ nlen b < 65536 /\
  exists r, parse_bgp_message false al b = Ok (m, r).
Definition text_tlv (w : bytes) (t : bmp_tlv) : Prop :=
  exists v, w = be 2 (bt_type t) ++ be 2 (bt_len t) ++ v /\ bt_type t < 65536 /\ bt_len t < 65536 /\
    nlen v = bt_len t /\ bt_info t = latin1 v.
(** Peer up: the local address, the ports, two messages, TLVs, less than four octets. *)
Definition up_octets (al : asn_len) (s : bytes) (m : peer_up) : Prop :=
  exists a b1 b2 ws t, s = a ++ be 2 (pu_lport m) ++ be 2 (pu_rport m) ++ b1 ++ b2 ++ concat ws ++ t /\
    addr16 a (pu_local m) /\ pu_lport m < 65536 /\ pu_rport m < 65536 /\
    bgp_block al b1 (pu_sent m) /\ bgp_block al b2 (pu_received m) /\
    Forall2 text_tlv ws (pu_tlvs m) /\ (length t < 4)%nat.
(** Route mirroring: messages (type 0) and information (type 1) of two octets, whatever the
    length field says; a rest of up to four octets is passed over. *)
Definition mirror_octets (al : asn_len) (w : bytes) (x : mirror_tlv) : Prop :=
  mi_len x < 65536 /\
  match mi_value x with
  | MirrorMsg m => exists b r, w = be 2 0 ++ be 2 (mi_len x) ++ b /\ nlen b = mi_len x /\ parse_bgp_message false al b = Ok (m, r)
  | MirrorInfo i => i <= 1 /\ w = be 2 1 ++ be 2 (mi_len x) ++ be 2 i
  end.
(** Statistics: a type, a length, and 4 octets for a counter, 8 for a gauge, 11 for a gauge of an
    address family. *)
Definition stat_octets (w : bytes) (x : stat) : Prop :=
  st_type x < 65536 /\ st_len x < 65536 /\
  exists d, w = be 2 (st_type x) ++ be 2 (st_len x) ++ d /\ nlen d = st_len x /\
  match st_data x with
  | StCounter n => n < 2 ^ 32 /\ d = be 4 n
  | StGauge n => n < 2 ^ 64 /\ d = be 8 n
  | StAfiSafi a s n => a < 2 ^ 16 /\ s < 2 ^ 8 /\ n < 2 ^ 64 /\ d = be 2 a ++ [s] ++ be 8 n
  | StUnknown b => b = d /\ ~ In (st_len x) [4; 8; 11]
  end.
(** The content [c] of a message of type [t]. *)
Definition bmp_content (t : N) (c : bytes) (p : option per_peer) (b : bmp_body) : Prop :=
  match p with
  | None =>
      match b with
      | BInitiation l => t = 4 /\ init_octets c l
      | BTermination l => t = 5 /\ term_octets c l
      | _ => False
      end
  | Some h => exists w r, c = w ++ r /\ per_peer_octets w h /\
      match b with
      | BMonitoring m => t = 0 /\ exists z, parse_bgp_message false (pp_asn_len h) r = Ok (m, z)
      | BStats n l => t = 1 /\ exists ws z, r = be 4 n ++ concat ws ++ z /\ n < 2 ^ 32 /\ nlen l = n /\ Forall2 stat_octets ws l
      | BPeerDown m => t = 2 /\ down_octets r m
      | BPeerUp m => t = 3 /\ up_octets (pp_asn_len h) r m /\ match pp_ip h, pu_local m with V4 _, V4 _ | V6 _, V6 _ => True | _, _ => False end
      | BMirroring l => t = 6 /\ exists ws z, r = concat ws ++ z /\ Forall2 (mirror_octets (pp_asn_len h)) ws l /\ (length z <= 4)%nat
      | _ => False
      end
  end.
(** Whoever reads a stream of messages from a buffer, going on after each. *)
Fixpoint read_all (fuel : nat) (s : bytes) : list (res bmp_msg) :=
  match fuel, s with
  | O, _ | _, [] => []
  | S f, _ => let '(m, r) := parse_bmp_msg s in m :: read_all f r
  end.

(** The OpenBMP header. *)
Definition openbmp_octets (w : bytes) (h : openbmp) : Prop :=
  exists f s us z1 ad z2 a gr,
    w = [79; 66; 77; 80; 1; 7] ++ be 2 (ob_hlen h) ++ be 4 (ob_mlen h) ++ [f; 12] ++ be 4 s ++ be 4 us ++ z1 ++
        be 2 (nlen ad) ++ ad ++ z2 ++ a ++ be 2 (nlen gr) ++ gr ++ be 4 1 /\
    ob_major h = 1 /\ ob_minor h = 7 /\ ob_type h = 12 /\ ob_hlen h < 2 ^ 16 /\ ob_mlen h < 2 ^ 32 /\
    128 <= f < 256 /\ s < 2 ^ 32 /\ us < 2 ^ 32 /\ ob_time h = bmp_time s us /\
    length z1 = 16%nat /\ nlen ad < 2 ^ 16 /\ ob_admin h = latin1 ad /\ length z2 = 16%nat /\
    nlen gr < 2 ^ 16 /\ ob_group h = latin1 gr /\
    match ob_router h with
    | V6 n => n < 2 ^ 128 /\ 64 <= f mod 128 /\ a = be 16 n
    | V4 n => n < 2 ^ 32 /\ f mod 128 < 64 /\ exists z, length z = 12%nat /\ a = be 4 n ++ z
    end.
