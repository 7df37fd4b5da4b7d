(** BGP capabilities and roles (/repo/src/models/bgp/capabilities.rs, role.rs). *)
From Verif Require Import Base Reader Net Mpls Tlv.

(** capabilities.rs:571-600 and role.rs:9-15 [BgpRole] (two identical enums) and its
    [TryFrom<u8>]. *)
Inductive role := RProvider | RServer | RServerClient | RCustomer | RPeer.
Definition role_code (r : role) : N :=
  match r with RProvider => 0 | RServer => 1 | RServerClient => 2 | RCustomer => 3 | RPeer => 4 end.
Definition role_of (n : N) : option role :=
  match n with
  | 0 => Some RProvider | 1 => Some RServer | 2 => Some RServerClient | 3 => Some RCustomer
  | 4 => Some RPeer | _ => None
  end.
(** role.rs:31-64 [validate_role_pairs]. *)
Definition validate_role_pairs (local remote : role) : bool :=
  match local with
  | RProvider => match remote with RCustomer => true | _ => false end
  | RServer => match remote with RServerClient => true | _ => false end
  | RServerClient => match remote with RServer => true | _ => false end
  | RCustomer => match remote with RProvider => true | _ => false end
  | RPeer => match remote with RPeer => true | _ => false end
  end.

(** capabilities.rs:35-57 [BgpCapabilityType] is its code ([Unknown(n)] for a code that
    has a name is the same number and is never produced by [from]); 59-74. *)
Definition cap_deprecated (c : N) : bool :=
  (c =? 4) || (c =? 66) || ((128 <=? c) && (c <=? 131)) || (c =? 184) || (c =? 185).
Definition cap_reserved (c : N) : bool := (c =? 0) || (c =? 255).
Definition cap_experimental (c : N) : bool := (239 <=? c) && (c <=? 254).

(** capabilities.rs:80-96, 178-183, 228-247, 342-369. *)
Record enh_entry := Enh { en_afi : afi; en_safi : safi; en_next : afi }.
Record gr_family := GrF { gr_afi : afi; gr_safi : safi; gr_fwd : bool }.
Record restart := Gr { gr_state : bool; gr_time : N; gr_families : list gr_family }.
Inductive ap_mode := APReceive | APSend | APBoth.
Record ap_family := ApF { ap_afi : afi; ap_safi : safi; ap_mode_ : ap_mode }.
(** capabilities.rs:371-385 [TryFrom<u8> for AddPathSendReceive]. *)
Definition mode_code (m : ap_mode) : N := match m with APReceive => 1 | APSend => 2 | APBoth => 3 end.
Definition mode_of (n : N) : option ap_mode :=
  match n with 1 => Some APReceive | 2 => Some APSend | 3 => Some APBoth | _ => None end.

(** capabilities.rs:105-120 [supports], [supported_nlri_for_nexthop]. *)
Definition enh_supports (l : list enh_entry) (a : afi) (sf : safi) (n : afi) : bool :=
  existsb (fun e => afi_eqb (en_afi e) a && safi_eqb (en_safi e) sf && afi_eqb (en_next e) n) l.
Definition enh_for_nexthop (l : list enh_entry) (n : afi) : list (afi * safi) :=
  map (fun e => (en_afi e, en_safi e)) (filter (fun e => afi_eqb (en_next e) n) l).

(** The entry loops: an exact multiple of [m] octets. *)
Definition parse_entries {A} (m : nat) (p : P A) (s : bytes) : res (list A) :=
  if Nat.eqb (Nat.modulo (length s) m) 0 then many_min m (length s) p s else Err EParse.
(** capabilities.rs:140-154: one entry; only the low octet of the SAFI is looked at. *)
Definition read_enh : P enh_entry :=
  a <- read_afi ;; s <- read_u16 ;; sf <- lift (of_opt (safi_of_code (u8 s))) ;;
  n <- read_afi ;; ret (Enh a sf n).
(** capabilities.rs:129-157, 161-171. *)
Definition parse_enh (s : bytes) : res (list enh_entry) := parse_entries 6 read_enh s.
Definition encode_enh (l : list enh_entry) : bytes :=
  flat_map (fun e => be 2 (afi_code (en_afi e)) ++ be 2 (safi_code (en_safi e)) ++ be 2 (afi_code (en_next e))) l.
(** capabilities.rs:198-211, 215-222: exactly four octets; the reserved one is ignored. *)
Definition parse_mp (s : bytes) : res (afi * safi) :=
  if Nat.eqb (length s) 4 then
    run (a <- read_u16 ;; read_u8 ;;; sf <- read_u8 ;;
         a <- lift (of_opt (afi_of_code a)) ;; sf <- lift (of_opt (safi_of_code sf)) ;; ret (a, sf)) s
  else Err EParse.
Definition encode_mp (a : afi) (sf : safi) : bytes := be 2 (afi_code a) ++ [0] ++ be 1 (safi_code sf).
(** capabilities.rs:292-305: one address family of a graceful restart capability. *)
Definition read_gr_family : P gr_family :=
  a <- read_afi ;; sf <- read_safi ;; f <- read_u8 ;; ret (GrF a sf (N.testbit f 7)).
(** capabilities.rs:269-312, 316-336. *)
Definition parse_restart (s : bytes) : res restart :=
  if Nat.ltb (length s) 2 then Err EParse else
  '(w, r) <~ read_u16 s ;;
  l <~ parse_entries 4 read_gr_family r ;;
  Ok (Gr (N.testbit w 15) (N.land w 0x0FFF) l).
Definition encode_restart (g : restart) : bytes :=
  be 2 (if gr_state g then N.lor 0x8000 (N.land (gr_time g) 0x0FFF) else N.land (gr_time g) 0x0FFF) ++
  flat_map (fun f => be 2 (afi_code (gr_afi f)) ++ be 1 (safi_code (gr_safi f)) ++ [if gr_fwd f then 0x80 else 0])
    (gr_families g).
(** capabilities.rs:411-424: one address family of an ADD-PATH capability. *)
Definition read_ap_family : P ap_family :=
  a <- read_afi ;; sf <- read_safi ;; m <- read_u8 ;; m <- lift (of_opt (mode_of m)) ;; ret (ApF a sf m).
(** capabilities.rs:400-427, 431-441. *)
Definition parse_add_path (s : bytes) : res (list ap_family) := parse_entries 4 read_ap_family s.
Definition encode_add_path (l : list ap_family) : bytes :=
  flat_map (fun f => be 2 (afi_code (ap_afi f)) ++ be 1 (safi_code (ap_safi f)) ++ be 1 (mode_code (ap_mode_ f))) l.
(** capabilities.rs:459-474 and 498-513: [RouteRefreshCapability] and
    [BgpExtendedMessageCapability] carry nothing. *)
Definition parse_empty (s : bytes) : res unit := match s with [] => Ok tt | _ => Err EParse end.
(** capabilities.rs:539-557. *)
Definition parse_as4 (s : bytes) : res N := if Nat.eqb (length s) 4 then run read_u32 s else Err EParse.
Definition encode_as4 (n : N) : bytes := be 4 n.
(** capabilities.rs:611-630. *)
Definition parse_role (s : bytes) : res role :=
  if Nat.eqb (length s) 1 then run (n <- read_u8 ;; lift (of_opt (role_of n))) s else Err EParse.
Definition encode_role (r : role) : bytes := be 1 (role_code r).

(** models/bgp/mod.rs:185-217 [Capability], [CapabilityValue]. *)
Inductive cap_value :=
| CvRaw (b : bytes) | CvMp (a : afi) (s : safi) | CvRefresh | CvEnh (l : list enh_entry)
| CvRestart (g : restart) | CvAs4 (n : N) | CvAddPath (l : list ap_family) | CvRole (r : role) | CvExtMsg.
Record capability := Cap { cap_type : N; cap_val : cap_value }.
(** parser/bgp/messages.rs:365-372: the macro [parse_capability!]. *)
Definition or_raw {A} (b : bytes) (r : res A) (f : A -> cap_value) : res cap_value :=
  match r with Ok a => Ok (f a) | Err _ => Ok (CvRaw b) | Panic => Panic end.
(** parser/bgp/messages.rs:374-406. *)
Definition parse_cap_value (c : N) (b : bytes) : res cap_value :=
  match c with
  | 1 => or_raw b (parse_mp b) (fun '(a, s) => CvMp a s)
  | 2 => or_raw b (parse_empty b) (fun _ => CvRefresh)
  | 5 => or_raw b (parse_enh b) CvEnh
  | 64 => or_raw b (parse_restart b) CvRestart
  | 65 => or_raw b (parse_as4 b) CvAs4
  | 69 => or_raw b (parse_add_path b) CvAddPath
  | 9 => or_raw b (parse_role b) CvRole
  | 6 => or_raw b (parse_empty b) (fun _ => CvExtMsg)
  | _ => Ok (CvRaw b)
  end.
(** parser/bgp/messages.rs:444-454. *)
Definition encode_cap_value (v : cap_value) : bytes :=
  match v with
  | CvRaw b => b | CvMp a s => encode_mp a s | CvRefresh | CvExtMsg => []
  | CvEnh l => encode_enh l | CvRestart g => encode_restart g | CvAs4 n => encode_as4 n
  | CvAddPath l => encode_add_path l | CvRole r => encode_role r
  end.
(** parser/bgp/messages.rs:355-412: one capability of a parameter. *)
Definition read_cap : P capability :=
  c <- read_u8 ;; n <- read_u8 ;; b <- read_n_bytes n ;;
  v <- lift (parse_cap_value c b) ;; ret (Cap c v).
(** parser/bgp/messages.rs:442-456. *)
Definition encode_cap (c : capability) : res bytes :=
  b <~ put_len_slice 1 (encode_cap_value (cap_val c)) ;; Ok (be 1 (cap_type c) ++ b).
