(** MRT BGP4MP and deprecated type-5 records (/repo/src/parser/mrt/messages/bgp4mp.rs,
    legacy_bgp.rs, /repo/src/models/mrt/bgp4mp.rs, legacy_bgp.rs). *)
From Verif Require Import Base Reader Net Tlv BgpMsg.

(** models/mrt/bgp4mp.rs:10-22 [BgpState] with the conversions [num_enum] derives. *)
Inductive bgp_state :=
| StIdle | StConnect | StActive | StOpenSent | StOpenConfirm | StEstablished | StClearing | StDeleted.
Definition state_code (s : bgp_state) : N :=
  match s with
  | StIdle => 1 | StConnect => 2 | StActive => 3 | StOpenSent => 4 | StOpenConfirm => 5
  | StEstablished => 6 | StClearing => 7 | StDeleted => 8
  end.
Definition state_of (n : N) : option bgp_state :=
  match n with
  | 1 => Some StIdle | 2 => Some StConnect | 3 => Some StActive | 4 => Some StOpenSent
  | 5 => Some StOpenConfirm | 6 => Some StEstablished | 7 => Some StClearing | 8 => Some StDeleted
  | _ => None
  end.
Definition read_state : P bgp_state := n <- read_u16 ;; lift (of_opt (state_of n)).

(** models/mrt/bgp4mp.rs:42-56 [Bgp4MpType], represented by its code: what
    [Bgp4MpType::try_from] accepts. *)
Definition mp_known (t : N) : bool := existsb (N.eqb t) [0; 1; 4; 5; 6; 7; 8; 9; 10; 11].

(** models/mrt/bgp4mp.rs:61-83 [Bgp4MpStateChange], [Bgp4MpMessage]; 27-30 [Bgp4MpEnum]. *)
Record mp_state_change := MpState {
  ms_type : N; ms_peer_as : asn; ms_local_as : asn; ms_ifindex : N; ms_peer : ip; ms_local : ip;
  ms_old : bgp_state; ms_new : bgp_state }.
Record mp_message := MpMsg {
  mm_type : N; mm_peer_as : asn; mm_local_as : asn; mm_ifindex : N; mm_peer : ip; mm_local : ip;
  mm_bgp : bgp_msg }.
Inductive bgp4mp := MpStateChange (m : mp_state_change) | MpMessage (m : mp_message).
(** models/mrt/bgp4mp.rs:33-38 [msg_type], 86-94 [is_local]. *)
Definition mp_type (m : bgp4mp) : N := match m with MpStateChange x => ms_type x | MpMessage x => mm_type x end.
Definition mm_is_local (m : mp_message) : bool := existsb (N.eqb (mm_type m)) [6; 7; 10; 11].

(** bgp4mp.rs:9-18 [is_short_zebra_open]: two AS numbers, then at once the marker and the
    header of an OPEN. *)
Definition is_short_zebra_open (s : bytes) (al : asn_len) : bool :=
  match al with
  | Bits32 => false
  | Bits16 => Nat.leb 23 (length s) && bytes_eqb (firstn 16 (skipn 4 s)) (repeat 255 16) && (nth 22 s 0 =? 1)
  end.
(** bgp4mp.rs:20-31 [uses_zebra_compat]. *)
Definition uses_zebra_compat (sub : N) (s : bytes) : bool :=
  match sub with
  | 0 => nlen s =? 8
  | 1 | 6 | 8 | 10 => is_short_zebra_open s Bits16
  | _ => false
  end.
(** bgp4mp.rs:114-121 [validate_bgp4mp_afi]. *)
Definition validate_mp_afi (a : afi) : res unit :=
  match a with AIpv4 | AIpv6 => Ok tt | ALinkState => Err EParse end.
(** bgp4mp.rs:123-146 [bgp4mp_message_payload_len]; [N] subtraction is saturating. *)
Definition mp_payload_len (a : afi) (al : asn_len) (total : N) : res N :=
  _ <~ validate_mp_afi a ;;
  Ok (total - 2 * N.of_nat (asn_width al) - 2 - 2 - match a with AIpv4 => 8 | _ => 32 end).
(** bgp4mp.rs:162-215 [parse_bgp4mp_message]. *)
Definition parse_mp_message (ap : bool) (al : asn_len) (t : N) (s : bytes) : res mp_message :=
  run (pa <- read_asn al ;; la <- read_asn al ;;
       if is_short_zebra_open s al then
         m <- parse_bgp_message ap al ;; ret (MpMsg t pa la 0 (V4 0) (V4 0) m)
       else
         i <- read_u16 ;; a <- read_afi ;; n <- lift (mp_payload_len a al (nlen s)) ;;
         pi <- read_address a ;; li <- read_address a ;;
         r <- remaining ;;
         if negb (n =? N.of_nat r) then fail ETrunc else
         m <- parse_bgp_message ap al ;; ret (MpMsg t pa la i pi li m)) s.
(** models/mrt/bgp4mp.rs:97-102 [address_family]. *)
Definition address_family (i : ip) : N := match i with V4 _ => 1 | V6 _ => 2 end.
(** bgp4mp.rs:217-229 [Bgp4MpMessage::encode]. *)
Definition encode_mp_message (al : asn_len) (m : mp_message) : res bytes :=
  b <~ encode_bgp_message al (mm_bgp m) ;;
  Ok (encode_asn al (mm_peer_as m) ++ encode_asn al (mm_local_as m) ++ be 2 (mm_ifindex m) ++
      be 2 (address_family (mm_peer m)) ++ octets (mm_peer m) ++ octets (mm_local m) ++ b).
(** bgp4mp.rs:262-305 [parse_bgp4mp_state_change]. *)
Definition parse_mp_state_change (al : asn_len) (t : N) (s : bytes) : res mp_state_change :=
  run (pa <- read_asn al ;; la <- read_asn al ;;
       if match al with Bits16 => nlen s =? 8 | Bits32 => false end then
         o <- read_state ;; n <- read_state ;; ret (MpState t pa la 0 (V4 0) (V4 0) o n)
       else
         i <- read_u16 ;; a <- read_afi ;; lift (validate_mp_afi a) ;;;
         pi <- read_address a ;; li <- read_address a ;;
         o <- read_state ;; n <- read_state ;; ret (MpState t pa la i pi li o n)) s.
(** bgp4mp.rs:307-320 [Bgp4MpStateChange::encode]. *)
Definition encode_mp_state_change (al : asn_len) (m : mp_state_change) : bytes :=
  encode_asn al (ms_peer_as m) ++ encode_asn al (ms_local_as m) ++ be 2 (ms_ifindex m) ++
  be 2 (address_family (ms_peer m)) ++ octets (ms_peer m) ++ octets (ms_local m) ++
  be 2 (state_code (ms_old m)) ++ be 2 (state_code (ms_new m)).
(** bgp4mp.rs:37-65 [parse_bgp4mp]. *)
Definition parse_bgp4mp (sub : N) (s : bytes) : res bgp4mp :=
  match sub with
  | 0 => m <~ parse_mp_state_change Bits16 0 s ;; Ok (MpStateChange m)
  | 5 => m <~ parse_mp_state_change Bits32 5 s ;; Ok (MpStateChange m)
  | 1 | 6 => m <~ parse_mp_message false Bits16 sub s ;; Ok (MpMessage m)
  | 4 | 7 => m <~ parse_mp_message false Bits32 sub s ;; Ok (MpMessage m)
  | 8 | 10 => m <~ parse_mp_message true Bits16 sub s ;; Ok (MpMessage m)
  | 9 | 11 => m <~ parse_mp_message true Bits32 sub s ;; Ok (MpMessage m)
  | _ => Err EParse
  end.
(** messages/mod.rs:30-60: [MrtMessage::encode] of a BGP4MP message; the subtype given, not
    that of the message, decides on the size of AS numbers. *)
Definition encode_bgp4mp (sub : N) (m : bgp4mp) : res bytes :=
  if negb (mp_known sub) then Err EUnenc else
  match m with
  | MpStateChange x => Ok (encode_mp_state_change (if sub =? 5 then Bits32 else Bits16) x)
  | MpMessage x => encode_mp_message (if existsb (N.eqb sub) [4; 9; 11; 7] then Bits32 else Bits16) x
  end.

(** models/mrt/legacy_bgp.rs [LegacyBgpMessage], [LegacyBgpStateChange], [LegacyBgp]. *)
Record legacy_message := LgMsg {
  lg_peer_as : asn; lg_peer : ip; lg_local_as : asn; lg_local : ip; lg_bgp : bgp_msg }.
Record legacy_state_change := LgState {
  ls_peer_as : asn; ls_peer : ip; ls_old : bgp_state; ls_new : bgp_state }.
Inductive legacy := LgMessage (m : legacy_message) | LgStateChange (m : legacy_state_change).

(** legacy_bgp.rs:36-52: the payload. *)
Definition parse_legacy_payload (sub : N) (s : bytes) : res bgp_msg :=
  match sub with
  | 1 => m <~ parse_update false Bits16 s ;; Ok (MUpdate m)
  | 5 => m <~ parse_open s ;; Ok (MOpen m)
  | 6 => m <~ parse_notif s ;; Ok (MNotif m)
  | _ => match s with [] => Ok MKeepAlive | _ => Err EParse end
  end.
(** legacy_bgp.rs:28-84 [parse_legacy_bgp]. *)
Definition parse_legacy (sub : N) (s : bytes) : res legacy :=
  match sub with
  | 1 | 5 | 6 | 7 =>
      run (pa <- read_u16 ;; pi <- read_ipv4 ;; la <- read_u16 ;; li <- read_ipv4 ;;
           r <- peek ;; m <- lift (parse_legacy_payload sub r) ;;
           ret (LgMessage (LgMsg pa (V4 pi) la (V4 li) m))) s
  | 3 =>
      run (pa <- read_u16 ;; pi <- read_ipv4 ;; o <- read_state ;; n <- read_state ;;
           r <- peek ;;
           match r with
           | [] => ret (LgStateChange (LgState pa (V4 pi) o n))
           | _ => fail EParse
           end) s
  | _ => Err EUnsup
  end.
(** legacy_bgp.rs:165-179 [asn16], [ipv4]. *)
Definition asn16 (a : asn) : res bytes := if a <=? 65535 then Ok (be 2 a) else Err EEncTooLarge.
Definition only_ipv4 (i : ip) : res bytes := match i with V4 n => Ok (be 4 n) | V6 _ => Err EUnenc end.
(** legacy_bgp.rs:154-163 [encode_peer_envelope]. *)
Definition encode_envelope (m : legacy_message) : res bytes :=
  a <~ asn16 (lg_peer_as m) ;; b <~ only_ipv4 (lg_peer m) ;;
  c <~ asn16 (lg_local_as m) ;; d <~ only_ipv4 (lg_local m) ;; Ok (a ++ b ++ c ++ d).
(** legacy_bgp.rs:89-137: the payload. *)
Definition encode_legacy_payload (sub : N) (m : bgp_msg) : res bytes :=
  match sub, m with
  | 1, MUpdate u => encode_update Bits16 u
  | 5, MOpen o => encode_open o
  | 6, MNotif n => Ok (encode_notif n)
  | 7, MKeepAlive => Ok []
  | _, _ => Err EUnenc
  end.
(** legacy_bgp.rs:86-152 [encode_legacy_bgp]. *)
Definition encode_legacy (sub : N) (m : legacy) : res bytes :=
  match m with
  | LgMessage x =>
      if existsb (N.eqb sub) [1; 5; 6; 7] then
        e <~ encode_envelope x ;; p <~ encode_legacy_payload sub (lg_bgp x) ;; Ok (e ++ p)
      else Err EUnenc
  | LgStateChange x =>
      if sub =? 3 then
        a <~ asn16 (ls_peer_as x) ;; b <~ only_ipv4 (ls_peer x) ;;
        Ok (a ++ b ++ be 2 (state_code (ls_old x)) ++ be 2 (state_code (ls_new x)))
      else Err EUnenc
  end.
