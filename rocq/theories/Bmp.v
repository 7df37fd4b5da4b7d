(** BMP and OpenBMP messages (/repo/src/parser/bmp). *)
From Coq Require Import Floats.SpecFloat.
From Verif Require Import Base Reader Net Utf8 BgpMsg Bgp4mp Stream Framing TableDump MrtRecord Elem.

(** bmp/error.rs:12-20 [ParserBmpError] is [perr]: its own variants are the constructors named
    [EBmp...]; any other constructor is [CorruptedBgpMessage] of that [ParserError], which is
    how [?] converts it (error.rs:59-63).  [TruncatedBmpMessage] is never raised. *)

(** A reader that moves a buffer also when it fails ([&mut Bytes]). *)
Definition SP (A : Type) := bytes -> res A * bytes.
Definition sbind {A B} (p : SP A) (k : A -> SP B) : SP B := fun s =>
  match p s with (Ok a, r) => k a r | (Err e, r) => (Err e, r) | (Panic, r) => (Panic, r) end.
(** The primitive reads take nothing when they fail. *)
Definition prim {A} (p : P A) : SP A := fun s =>
  match p s with Ok (a, r) => (Ok a, r) | Err e => (Err e, s) | Panic => (Panic, s) end.
Definition sret {A} (r : res A) : SP A := fun s => (r, s).

(** headers.rs:30-38 [BmpMsgType], 54-60 [BmpCommonHeader]; the type is its code. *)
Record bmp_header := BmpHdr { bh_version : N; bh_len : N; bh_type : N }.
(** headers.rs:62-77 [parse_bmp_common_header]. *)
Definition parse_bmp_common_header : SP bmp_header :=
  sbind (prim read_u8) (fun v =>
  if negb (v =? 3) then sret (Err EBmpCorrupt) else
  sbind (prim read_u32) (fun n =>
  sbind (prim read_u8) (fun t =>
  if 6 <? t then sret (Err EBmpHeader) else sret (Ok (BmpHdr v n t))))).

(** headers.rs:200-213 [BmpPeerType] as its code, [PerPeerFlags]; 110-120 [BmpPerPeerHeader]. *)
Inductive peer_flags := PeerFlags (f : N) | LocalRibFlags (f : N).
Record per_peer := PerPeer {
  pp_type : N; pp_flags : peer_flags; pp_dist : N; pp_ip : ip; pp_asn : asn; pp_id : N; pp_time : f64 }.
(** headers.rs:236-274: the bits of [PeerFlags]; [address_family], [asn_length],
    [is_adj_rib_out], [is_post_policy]; 281-292 [is_filtered]. *)
Definition flag_v6 (f : N) : bool := N.testbit f 7.
Definition flag_post (f : N) : bool := N.testbit f 6.
Definition flag_as2 (f : N) : bool := N.testbit f 5.
Definition flag_out (f : N) : bool := N.testbit f 4.
Definition flag_filtered (f : N) : bool := N.testbit f 7.
Definition flags_asn_len (f : N) : asn_len := if flag_as2 f then Bits16 else Bits32.
(** headers.rs:179-184 [asn_length]; 163-166 [afi] is [afi_of_ip]. *)
Definition pp_asn_len (h : per_peer) : asn_len :=
  match pp_flags h with PeerFlags f => flags_asn_len f | LocalRibFlags _ => Bits32 end.
(** headers.rs:346-348: seconds and microseconds as a float. *)
Definition bmp_time (s us : N) : f64 := f64_add (f64_of_N s) (f64_div (f64_of_N us) (f64_of_N 1000000)).
(** [data.has_n_remaining(n)?; data.advance(n)]. *)
Definition skip (n : N) : P unit := has_n n ;;; split_to (N.to_nat n) ;;; ret tt.
(** headers.rs:318-332: an address in sixteen octets. *)
Definition read_peer_addr (v6 : bool) : P ip :=
  if v6 then n <- read_be 16 ;; ret (V6 n) else skip 12 ;;; n <- read_u32 ;; ret (V4 n).
(** headers.rs:306-406 [parse_per_peer_header]; the address of a local RIB is read but not
    kept (logging is not modelled). *)
Definition parse_per_peer_header : P per_peer :=
  t <- read_u8 ;;
  if 3 <? t then fail EBmpCorrupt else
  if t =? 3 then
    f <- read_u8 ;; d <- read_u64 ;;
    has_n 16 ;;; split_to 16 ;;;
    a <- read_u32 ;; i <- read_u32 ;; s <- read_u32 ;; us <- read_u32 ;;
    ret (PerPeer t (LocalRibFlags f) d (V4 0) a i (bmp_time s us))
  else
    f <- read_u8 ;; d <- read_u64 ;;
    p <- read_peer_addr (flag_v6 f) ;;
    a <- (match flags_asn_len f with Bits16 => skip 2 ;;; read_u16 | Bits32 => read_u32 end) ;;
    i <- read_u32 ;; s <- read_u32 ;; us <- read_u32 ;;
    ret (PerPeer t (PeerFlags f) d p a i (bmp_time s us)).
(** headers.rs:168-176 [strip_timestamp], 136-146 [PartialEq]: [SFeqb] is [==] of floats. *)
Definition strip_timestamp (h : per_peer) : per_peer :=
  PerPeer (pp_type h) (pp_flags h) (pp_dist h) (pp_ip h) (pp_asn h) (pp_id h) (S754_zero false).

(** initiation_message.rs:14-18 [InitiationTlv], peer_up_notification.rs:48-52
    [PeerUpNotificationTlv]: the type as its code, the text in UTF-8. *)
Record bmp_tlv := BmpTlv { bt_type : N; bt_len : N; bt_info : bytes }.
(** initiation_message.rs:46-65 [parse_initiation_message]: the loop. *)
Fixpoint init_loop (fuel : nat) (s : bytes) : res (list bmp_tlv) :=
  match fuel with
  | O => Panic
  | S f =>
    if Nat.leb (length s) 4 then Ok [] else
    '(t, s1) <~ read_u16 s ;;
    '(n, s2) <~ read_u16 s1 ;;
    if nlen s2 <? n then Ok [] else
    '(v, s3) <~ read_n_bytes n s2 ;;
    l <~ init_loop f s3 ;; Ok (BmpTlv t n (latin1 v) :: l)
  end.
Definition parse_initiation (s : bytes) : res (list bmp_tlv) := init_loop (S (length s)) s.

(** termination_message.rs:13-37; the reason as its code (0 to 4). *)
Inductive term_value := TermText (s : bytes) | TermReason (r : N).
Record term_tlv := TermTlv { tt_type : N; tt_len : N; tt_value : term_value }.
(** termination_message.rs:60-69: the value. *)
Definition read_term_value (t n : N) : P term_value :=
  if t =? 0 then v <- read_n_bytes n ;; ret (TermText (latin1 v))
  else r <- read_u16 ;; if 4 <? r then fail EBmpTlvValue else ret (TermReason r).
(** termination_message.rs:50-78 [parse_termination_message]. *)
Fixpoint term_loop (fuel : nat) (s : bytes) : res (list term_tlv) :=
  match fuel with
  | O => Panic
  | S f =>
    if Nat.leb (length s) 4 then Ok [] else
    '(t, s1) <~ read_u16 s ;;
    if 1 <? t then Err EBmpTlvType else
    '(n, s2) <~ read_u16 s1 ;;
    if nlen s2 <? n then Ok [] else
    '(v, s3) <~ read_term_value t n s2 ;;
    l <~ term_loop f s3 ;; Ok (TermTlv t n v :: l)
  end.
Definition parse_termination (s : bytes) : res (list term_tlv) := term_loop (S (length s)) s.

(** peer_down_notification.rs:8-24; the reason as its code (0 to 6). *)
Record peer_down := PeerDown { pd_reason : N; pd_data : option bytes }.
(** peer_down_notification.rs:26-92 [parse_peer_down_notification]. *)
Definition parse_peer_down (s : bytes) : res peer_down :=
  run (r <- read_u8 ;;
       if 6 <? r then fail EBmpTlvValue else
       n <- remaining ;;
       if (r =? 4) || (r =? 5) || ((r =? 0) && Nat.eqb n 0) then ret (PeerDown r None)
       else d <- read_n_bytes (N.of_nat n) ;; ret (PeerDown r (Some d))) s.

(** peer_up_notification.rs:14-21 [PeerUpNotification]. *)
Record peer_up := PeerUp {
  pu_local : ip; pu_lport : N; pu_rport : N; pu_sent : bgp_msg; pu_received : bgp_msg; pu_tlvs : list bmp_tlv }.
(** peer_up_notification.rs:80-85, 87-92: a BGP message cut out by its own length field. *)
Definition read_embedded (al : asn_len) : P bgp_msg :=
  has_n 19 ;;; s <- peek ;;
  let n := be_val [nth 16 s 0; nth 17 s 0] in
  has_n n ;;; b <- split_to (N.to_nat n) ;;
  lift (run (parse_bgp_message false al) b).
(** peer_up_notification.rs:112-139: the loop. *)
Definition read_up_tlv : P bmp_tlv :=
  t <- read_u16 ;; n <- read_u16 ;; v <- read_n_bytes n ;; ret (BmpTlv t n (latin1 v)).
(** peer_up_notification.rs:54-155 [parse_peer_up_notification]; the checks for local RIBs
    only log and are not modelled. *)
Definition parse_peer_up (a : afi) (al : asn_len) (s : bytes) : res peer_up :=
  run (l <- (match a with
             | AIpv4 => read_peer_addr false
             | AIpv6 => read_peer_addr true
             | ALinkState => skip 12 ;;; ret (V4 0)
             end) ;;
       lp <- read_u16 ;; rp <- read_u16 ;;
       o1 <- read_embedded al ;; o2 <- read_embedded al ;;
       r <- peek ;;
       l2 <- lift (Tlv.many_min 4 (length r) read_up_tlv r) ;;
       ret (PeerUp l lp rp o1 o2 l2)) s.

(** route_mirroring.rs:12-36; the information as its code (0, 1). *)
Inductive mirror_value := MirrorMsg (m : bgp_msg) | MirrorInfo (i : N).
Record mirror_tlv := MirrorTlv { mi_len : N; mi_value : mirror_value }.
(** route_mirroring.rs:45-67: one turn of the loop. *)
Definition read_mirror (al : asn_len) : P mirror_tlv :=
  t <- read_u16 ;;
  match t with
  | 0 => n <- read_u16 ;; has_n n ;;; b <- split_to (N.to_nat n) ;;
         m <- lift (run (parse_bgp_message false al) b) ;; ret (MirrorTlv n (MirrorMsg m))
  | 1 => n <- read_u16 ;; i <- read_u16 ;; if 1 <? i then fail EBmpCorrupt else ret (MirrorTlv n (MirrorInfo i))
  | _ => fail EBmpCorrupt
  end.
(** route_mirroring.rs:38-70 [parse_route_mirroring]: while more than four octets remain. *)
Definition parse_mirroring (al : asn_len) (s : bytes) : res (list mirror_tlv) :=
  Tlv.many_min 5 (length s) (read_mirror al) s.

(** stats_report.rs:8-29; [StatType] as its code. *)
Inductive stat_data := StCounter (n : N) | StGauge (n : N) | StAfiSafi (a s n : N) | StUnknown (b : bytes).
Record stat := Stat { st_type : N; st_len : N; st_data : stat_data }.
(** stats_report.rs:88-110: one counter. *)
Definition read_stat : P stat :=
  t <- read_u16 ;; n <- read_u16 ;; has_n n ;;;
  d <- (match n with
        | 4 => x <- read_u32 ;; ret (StCounter x)
        | 8 => x <- read_u64 ;; ret (StGauge x)
        | 11 => a <- read_u16 ;; s <- read_u8 ;; x <- read_u64 ;; ret (StAfiSafi a s x)
        | _ => b <- split_to (N.to_nat n) ;; ret (StUnknown b)
        end) ;;
  ret (Stat t n d).
(** stats_report.rs:84-117 [parse_stats_report]. *)
Definition parse_stats (s : bytes) : res (N * list stat) :=
  run (n <- read_u32 ;; l <- repeat_p (N.to_nat n) read_stat ;; ret (n, l)) s.

(** messages/mod.rs:25-41 [BmpMessage], [BmpMessageBody]; route_monitoring.rs:10-12. *)
Inductive bmp_body :=
| BPeerUp (m : peer_up) | BPeerDown (m : peer_down) | BInitiation (l : list bmp_tlv)
| BTermination (l : list term_tlv) | BMonitoring (m : bgp_msg) | BMirroring (l : list mirror_tlv)
| BStats (n : N) (l : list stat).
Record bmp_msg := BmpMsg { bm_header : bmp_header; bm_peer : option per_peer; bm_body : bmp_body }.
(** bmp/mod.rs:36-111: the content by message type; route_monitoring.rs:14-30. *)
Definition parse_bmp_body (h : bmp_header) (c : bytes) : res bmp_msg :=
  let with_peer (k : per_peer -> bytes -> res bmp_body) :=
    '(p, r) <~ parse_per_peer_header c ;; b <~ k p r ;; Ok (BmpMsg h (Some p) b) in
  match bh_type h with
  | 0 => with_peer (fun p r => m <~ run (parse_bgp_message false (pp_asn_len p)) r ;; Ok (BMonitoring m))
  | 1 => with_peer (fun p r => '(n, l) <~ parse_stats r ;; Ok (BStats n l))
  | 2 => with_peer (fun p r => m <~ parse_peer_down r ;; Ok (BPeerDown m))
  | 3 => with_peer (fun p r => m <~ parse_peer_up (afi_of_ip (pp_ip p)) (pp_asn_len p) r ;; Ok (BPeerUp m))
  | 4 => l <~ parse_initiation c ;; Ok (BmpMsg h None (BInitiation l))
  | 5 => l <~ parse_termination c ;; Ok (BmpMsg h None (BTermination l))
  | _ => with_peer (fun p r => l <~ parse_mirroring (pp_asn_len p) r ;; Ok (BMirroring l))
  end.
(** bmp/mod.rs:25-112 [parse_bmp_msg]: the outcome and what is left in the buffer. *)
Definition parse_bmp_msg : SP bmp_msg :=
  sbind parse_bmp_common_header (fun h =>
  if bh_len h <? 6 then sret (Err EBmpCorrupt) else
  sbind (prim (has_n (bh_len h - 6))) (fun _ =>
  sbind (prim (split_to (N.to_nat (bh_len h - 6)))) (fun c =>
  sret (parse_bmp_body h c)))).

(** openbmp.rs:46-58 [OpenBmpHeader]; strings in UTF-8. *)
Record openbmp := OpenBmp {
  ob_major : N; ob_minor : N; ob_hlen : N; ob_mlen : N; ob_type : N; ob_time : f64;
  ob_admin : bytes; ob_router : ip; ob_group : bytes }.
(** openbmp.rs:60-141 [parse_openbmp_header]; the group is always [Some]. *)
Definition parse_openbmp_header : P openbmp :=
  m <- read_n_bytes 4 ;;
  if negb (bytes_eqb m [79; 66; 77; 80]) then fail EBmpHeader else
  v <- read_u8 ;; w <- read_u8 ;;
  if negb ((v =? 1) && (w =? 7)) then fail EBmpHeader else
  hl <- read_u16 ;; ml <- read_u32 ;;
  f <- read_u8 ;;
  if negb (N.testbit f 7) then fail EBmpUnsup else
  o <- read_u8 ;;
  if negb (o =? 12) then fail EBmpUnsup else
  s <- read_u32 ;; us <- read_u32 ;;
  skip 16 ;;;
  n <- read_u16 ;; ad <- read_n_bytes n ;;
  skip 16 ;;;
  i <- (if N.testbit f 6 then x <- read_be 16 ;; ret (V6 x) else x <- read_u32 ;; skip 12 ;;; ret (V4 x)) ;;
  g <- read_u16 ;; gr <- (if g =? 0 then ret [] else read_n_bytes g) ;;
  c <- read_u32 ;;
  if negb (c =? 1) then fail EBmpHeader else
  ret (OpenBmp v w hl ml o (bmp_time s us) (latin1 ad) i (latin1 gr)).
(** bmp/mod.rs:19-22 [parse_openbmp_msg]. *)
Definition parse_openbmp_msg (s : bytes) : res bmp_msg :=
  '(_, r) <~ parse_openbmp_header s ;; fst (parse_bmp_msg r).

(** [as u32] of a float: toward zero, saturating, zero for NaN. *)
Definition f64_trunc (x : f64) : Z :=
  match x with
  | S754_finite false m e => if (0 <=? e)%Z then Zpos m * 2 ^ e else Zpos m / 2 ^ (- e)
  | S754_infinity false => 2 ^ 1100
  | _ => 0%Z
  end.
Definition f64_to_u32 (x : f64) : N := N.min (Z.to_N (f64_trunc x)) (2 ^ 32 - 1).
(** utils.rs:402-406 [convert_timestamp]. *)
Definition convert_timestamp (t : f64) : N * N :=
  let s := f64_to_u32 t in
  (s, f64_to_u32 (SFmul 53 1024 (SFsub 53 1024 t (f64_of_N s)) (f64_of_N 1000000))).
(** mrt_record.rs:393-446 [TryFrom<&BmpMessage> for MrtRecord]; the two error texts of a
    wrong kind of message are [EUnsup]. *)
Definition mrt_of_bmp (b : bmp_msg) : res mrt_record :=
  match bm_body b, bm_peer b with
  | BMonitoring m, Some h =>
      let msg := MrtBgp4mp (MpMessage (MpMsg 4 (pp_asn h) 0 0 (pp_ip h) (match pp_ip h with V4 _ => V4 0 | V6 _ => V6 0 end) m)) in
      let '(s, us) := convert_timestamp (pp_time h) in
      e <~ encode_mrt_message 4 msg ;;
      Ok (MrtRecord (Hdr s (Some us) 17 4 (u32 (nlen e))) msg)
  | _, _ => Err EUnsup
  end.
