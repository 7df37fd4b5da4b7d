(** BGP messages (/repo/src/parser/bgp/messages.rs, /repo/src/models/bgp/mod.rs). *)
From Verif Require Import Base Reader Net AsPath Mpls Tlv Nlri Attr Cap BgpError.

(** models/bgp/mod.rs:152-180. *)
Inductive param_value := PvRaw (b : bytes) | PvCaps (l : list capability).
Record opt_param := Param { op_type : N; op_value : param_value }.
Record open_msg := Open {
  o_version : N; o_asn : asn; o_hold : N; o_id : N; o_extended : bool; o_params : list opt_param }.
(** models/bgp/mod.rs:219-257 [BgpUpdateMessage]. *)
Record update_msg := Update { u_withdrawn : list prefix; u_attrs : attributes; u_announced : list prefix }.
(** models/bgp/mod.rs:259-264 [BgpNotificationMessage]. *)
Record notif_msg := Notif { nt_error : bgp_error; nt_data : bytes }.
(** models/bgp/mod.rs:79-89 [BgpRouteRefreshMessage]. *)
Record refresh_msg := Refresh { rf_afi : N; rf_subtype : N; rf_safi : N; rf_data : bytes }.
(** models/bgp/mod.rs:47-54 [BgpMessage]; 56-66 [msg_type] with 35-43 [BgpMessageType]. *)
Inductive bgp_msg :=
| MOpen (m : open_msg) | MUpdate (m : update_msg) | MNotif (m : notif_msg) | MKeepAlive
| MRefresh (m : refresh_msg).
Definition msg_type (m : bgp_msg) : N :=
  match m with MOpen _ => 1 | MUpdate _ => 2 | MNotif _ => 3 | MKeepAlive => 4 | MRefresh _ => 5 end.

(** models/bgp/mod.rs:92-128: typed accessors and validation of a ROUTE-REFRESH. *)
Definition refresh_afi (m : refresh_msg) : option afi := afi_of_code (rf_afi m).
Definition refresh_safi (m : refresh_msg) : option safi := safi_of_code (rf_safi m).
Definition refresh_warnings (m : refresh_msg) : list warning :=
  match rf_subtype m with
  | 0 => []
  | 1 | 2 => match rf_data m with [] => [] | d => [WRefreshLength (rf_subtype m) (4 + nlen d)] end
  | n => [WRefreshSubtype n]
  end.

(** messages.rs:179-195 [parse_bgp_route_refresh_message], 198-208. *)
Definition parse_refresh (s : bytes) : res refresh_msg :=
  run (has_n 4 ;;; a <- read_u16 ;; t <- read_u8 ;; sf <- read_u8 ;; d <- peek ;;
       ret (Refresh a t sf d)) s.
Definition encode_refresh (m : refresh_msg) : bytes :=
  be 2 (rf_afi m) ++ be 1 (rf_subtype m) ++ be 1 (rf_safi m) ++ rf_data m.
(** messages.rs:217-227 [parse_bgp_notification_message], 230-237. *)
Definition parse_notif (s : bytes) : res notif_msg :=
  run (c <- read_u8 ;; u <- read_u8 ;; d <- peek ;; ret (Notif (error_of c u) d)) s.
Definition encode_notif (m : notif_msg) : bytes :=
  be 1 (fst (error_codes (nt_error m))) ++ be 1 (snd (error_codes (nt_error m))) ++ nt_data m.

(** messages.rs:339-425: one optional parameter after its type. *)
Definition read_param_body (ext : bool) (t : N) : P opt_param :=
  n <- (if ext then read_u16 else read_u8) ;;
  if t =? 2 then
    has_n n ;;; d <- split_to (N.to_nat n) ;;
    l <- lift (many_min 2 (length d) read_cap d) ;; ret (Param t (PvCaps l))
  else b <- read_n_bytes n ;; ret (Param t (PvRaw b)).
Definition read_param (ext : bool) : P opt_param := t <- read_u8 ;; read_param_body ext t.
(** messages.rs:284-426: the loop, with its first round separated.  The length of the
    parameters ([opl], or the extended one) is compared with zero only. *)
Definition open_params (opl : N) (s : bytes) : res (bool * list opt_param) :=
  if Nat.ltb (length s) 2 then Ok (false, []) else
  '(t, s1) <~ read_u8 s ;;
  if t =? 255 then
    if opl =? 0 then Err EParse else
    '(n, s2) <~ read_u16 s1 ;;
    if n =? 0 then Ok (true, []) else
    '(t', s3) <~ read_u8 s2 ;;
    '(p, s4) <~ read_param_body true t' s3 ;;
    l <~ many_min 2 (length s4) (read_param true) s4 ;;
    Ok (true, p :: l)
  else
    '(p, s2) <~ read_param_body false t s1 ;;
    l <~ many_min 2 (length s2) (read_param false) s2 ;;
    Ok (false, p :: l).
(** messages.rs:270-436 [parse_bgp_open_message]. *)
Definition parse_open (s : bytes) : res open_msg :=
  '(h, r) <~ (has_n 10 ;;; v <- read_u8 ;; a <- read_u16 ;; h <- read_u16 ;; i <- read_u32 ;;
              o <- read_u8 ;; ret (v, a, h, i, o)) s ;;
  let '(v, a, h, i, o) := h in
  '(ext, ps) <~ open_params o r ;;
  Ok (Open v a h i ext ps).

(** messages.rs:438-461 [encode_bgp_open_param_value]. *)
Definition encode_param_value (p : opt_param) : res bytes :=
  match op_value p with
  | PvCaps l => bs <~ rmap encode_cap l ;; Ok (concat bs)
  | PvRaw b => Ok b
  end.
(** messages.rs:468-480. *)
Definition encode_param (p : opt_param) : res (N * bytes) :=
  if op_type p =? 255 then Err EUnenc else v <~ encode_param_value p ;; Ok (op_type p, v).
(** messages.rs:463-537 [BgpOpenMessage::encode]; the AS number is truncated to 16 bits
    (asn.rs:247-252). *)
Definition encode_open (m : open_msg) : res bytes :=
  ps <~ rmap encode_param (o_params m) ;;
  let n := nlen ps in
  let values := nlen (concat (map snd ps)) in
  let ext := o_extended m || (255 <? 2 * n + values) in
  let len := (if ext then 3 else 2) * n + values in
  let head := be 1 (o_version m) ++ be 2 (o_asn m) ++ be 2 (o_hold m) ++ be 4 (o_id m) ++
              be 1 (if ext then 255 else len) in
  agg <~ (if ext then _ <~ check_max len 65535 ;; Ok ([255] ++ be 2 len) else Ok []) ;;
  Ok (head ++ agg ++
      flat_map (fun p => be 1 (fst p) ++ be (if ext then 2 else 1) (nlen (snd p)) ++ snd p) ps).

(** messages.rs:545-560 [read_nlri]. *)
Definition read_nlri (s : bytes) (ap : bool) : res (list prefix) :=
  match s with
  | [] => Ok []
  | [b] => if b =? 0 then parse_nlri_list s ap AIpv4 else Err EParse
  | _ => parse_nlri_list s ap AIpv4
  end.
(** messages.rs:584-595 and 611-622: the prefixes and the warning of one section. *)
Definition nlri_section (announced : bool) (ap : bool) (s : bytes) : res (list prefix * list warning) :=
  match read_nlri s ap with
  | Ok l => Ok (l, [])
  | Err e => Ok ([], [WMalformedNlri announced e s])
  | Panic => Panic
  end.
(** messages.rs:571-647 [parse_bgp_update_message]. *)
Definition parse_update (ap : bool) (al : asn_len) (s : bytes) : res update_msg :=
  run (n <- read_u16 ;; has_n n ;;; w <- split_to (N.to_nat n) ;;
       '(wd, ww) <- lift (nlri_section false ap w) ;;
       k <- read_u16 ;; has_n k ;;; a <- split_to (N.to_nat k) ;;
       at0 <- lift (parse_attributes (ACfg al ap None None None) a) ;;
       r <- peek ;;
       '(an, aw) <- lift (nlri_section true ap r) ;;
       let present := match r with [] => false | _ => true end in
       let at1 := check_mandatory at0 (present || has_attr at0 14) present in
       ret (Update wd (fold_left add_warning (ww ++ aw) at1) an)) s.
(** messages.rs:650-668 [BgpUpdateMessage::encode]. *)
Definition encode_update (al : asn_len) (m : update_msg) : res bytes :=
  w <~ put_len_slice 2 (encode_nlri_prefixes (u_withdrawn m)) ;;
  a <~ with_len 2 (encode_attributes al (at_inner (u_attrs m))) ;;
  Ok (w ++ a ++ encode_nlri_prefixes (u_announced m)).
(** messages.rs:674-710 [is_end_of_rib]. *)
Definition is_end_of_rib (m : update_msg) : bool :=
  match u_announced m, u_withdrawn m with
  | [], [] =>
      match at_inner (u_attrs m) with
      | [] => true
      | [a] => match a_value a with
               | AMpUnreach n => match nl_prefixes n with [] => true | _ => false end
               | _ => false
               end
      | _ => false
      end
  | _, _ => false
  end.

(** messages.rs:159-171. *)
Definition parse_body (ap : bool) (al : asn_len) (t : N) (d : bytes) : res bgp_msg :=
  match t with
  | 1 => m <~ parse_open d ;; Ok (MOpen m)
  | 2 => m <~ parse_update ap al d ;; Ok (MUpdate m)
  | 3 => m <~ parse_notif d ;; Ok (MNotif m)
  | 4 => Ok MKeepAlive
  | _ => m <~ parse_refresh d ;; Ok (MRefresh m)
  end.
(** messages.rs:45-55 [read_and_validate_bgp_marker] (a wrong marker is only logged) and
    75-172 [parse_bgp_message]: a length field above the octets at hand is taken as
    their number. *)
Definition parse_bgp_message (ap : bool) (al : asn_len) : P bgp_msg := fun s =>
  let total := nlen s in
  (has_n 19 ;;; has_n 16 ;;; split_to 16 ;;;
   len <- read_u16 ;;
   if len <? 19 then fail EParse else
   let n := (if total <? len then total else len) - 19 in
   t <- read_u8 ;;
   if (t <? 1) || (5 <? t) then fail EParse else
   if ((t =? 1) || (t =? 4)) && (4096 <? len) then fail EParse else
   has_n n ;;; d <- split_to (N.to_nat n) ;;
   lift (parse_body ap al t d)) s.
(** messages.rs:713-737 [BgpMessage::encode]. *)
Definition encode_body (al : asn_len) (m : bgp_msg) : res bytes :=
  match m with
  | MOpen m => encode_open m
  | MUpdate m => encode_update al m
  | MNotif m => Ok (encode_notif m)
  | MKeepAlive => Ok []
  | MRefresh m => Ok (encode_refresh m)
  end.
Definition encode_bgp_message (al : asn_len) (m : bgp_msg) : res bytes :=
  b <~ encode_body al m ;;
  let total := nlen b + 19 in
  _ <~ check_max total 65535 ;;
  Ok (repeat 255 16 ++ be 2 total ++ be 1 (msg_type m) ++ b).
