(** NOTIFICATION error codes (/repo/src/models/bgp/error.rs). *)
From Verif Require Import Base.

(** error.rs:96-104 [MessageHeaderError]. *)
Inductive header_error := HUnspecific | HNotSync | HBadLength | HBadType | HUnknown (n : N).
(** error.rs:115-131 [OpenError]. *)
Inductive open_error :=
| OUnspecific | OVersion | OBadPeerAs | OBadId | OParameter | OHoldTime | OCapacity | ORoleMismatch
| OUnknown (n : N).
(** error.rs:148-164 [UpdateError]. *)
Inductive update_error :=
| UUnspecific | UAttrList | UUnrecognized | UMissing | UFlags | ULength | UOrigin | UNextHop
| UOptional | UNetwork | UAsPath | UUnknown (n : N).
(** error.rs:181-189 [FiniteStateMachineError]. *)
Inductive fsm_error := FUnspecified | FOpenSent | FOpenConfirm | FEstablished | FUnknown (n : N).
(** error.rs:200-215 [CeaseNotification]. *)
Inductive cease :=
| CReserved | CMaxPrefixes | CShutdown | CDeconfigured | CReset | CRejected | CConfigChange
| CCollision | CResources | CHardReset | CBfdDown | CUnknown (n : N).
(** error.rs:226-232 [RouteRefreshError]. *)
Inductive refresh_error := RReserved | RLength | RUnknown (n : N).
(** error.rs:29-41 [BgpError]. *)
Inductive bgp_error :=
| EReserved (n : N) | EHeader (e : header_error) | EOpen (e : open_error) | EUpdate (e : update_error)
| EHoldTimer (n : N) | EFsm (e : fsm_error) | ECease (e : cease) | ERefresh (e : refresh_error)
| EUnknown (c s : N).

(** The conversions derived by [num_enum] from the discriminants. *)
Definition header_error_of (n : N) : header_error :=
  match n with 0 => HUnspecific | 1 => HNotSync | 2 => HBadLength | 3 => HBadType | _ => HUnknown n end.
Definition header_error_code (e : header_error) : N :=
  match e with HUnspecific => 0 | HNotSync => 1 | HBadLength => 2 | HBadType => 3 | HUnknown n => n end.
Definition open_error_of (n : N) : open_error :=
  match n with
  | 0 => OUnspecific | 1 => OVersion | 2 => OBadPeerAs | 3 => OBadId | 4 => OParameter
  | 6 => OHoldTime | 7 => OCapacity | 11 => ORoleMismatch | _ => OUnknown n
  end.
Definition open_error_code (e : open_error) : N :=
  match e with
  | OUnspecific => 0 | OVersion => 1 | OBadPeerAs => 2 | OBadId => 3 | OParameter => 4
  | OHoldTime => 6 | OCapacity => 7 | ORoleMismatch => 11 | OUnknown n => n
  end.
Definition update_error_of (n : N) : update_error :=
  match n with
  | 0 => UUnspecific | 1 => UAttrList | 2 => UUnrecognized | 3 => UMissing | 4 => UFlags | 5 => ULength
  | 6 => UOrigin | 8 => UNextHop | 9 => UOptional | 10 => UNetwork | 11 => UAsPath | _ => UUnknown n
  end.
Definition update_error_code (e : update_error) : N :=
  match e with
  | UUnspecific => 0 | UAttrList => 1 | UUnrecognized => 2 | UMissing => 3 | UFlags => 4 | ULength => 5
  | UOrigin => 6 | UNextHop => 8 | UOptional => 9 | UNetwork => 10 | UAsPath => 11 | UUnknown n => n
  end.
Definition fsm_error_of (n : N) : fsm_error :=
  match n with 0 => FUnspecified | 1 => FOpenSent | 2 => FOpenConfirm | 3 => FEstablished | _ => FUnknown n end.
Definition fsm_error_code (e : fsm_error) : N :=
  match e with FUnspecified => 0 | FOpenSent => 1 | FOpenConfirm => 2 | FEstablished => 3 | FUnknown n => n end.
Definition cease_of (n : N) : cease :=
  match n with
  | 0 => CReserved | 1 => CMaxPrefixes | 2 => CShutdown | 3 => CDeconfigured | 4 => CReset | 5 => CRejected
  | 6 => CConfigChange | 7 => CCollision | 8 => CResources | 9 => CHardReset | 10 => CBfdDown | _ => CUnknown n
  end.
Definition cease_code (e : cease) : N :=
  match e with
  | CReserved => 0 | CMaxPrefixes => 1 | CShutdown => 2 | CDeconfigured => 3 | CReset => 4 | CRejected => 5
  | CConfigChange => 6 | CCollision => 7 | CResources => 8 | CHardReset => 9 | CBfdDown => 10 | CUnknown n => n
  end.
Definition refresh_error_of (n : N) : refresh_error :=
  match n with 0 => RReserved | 1 => RLength | _ => RUnknown n end.
Definition refresh_error_code (e : refresh_error) : N :=
  match e with RReserved => 0 | RLength => 1 | RUnknown n => n end.
(** error.rs:133-137, 166-170 [is_deprecated]. *)
Definition open_deprecated (e : open_error) : bool :=
  match e with OUnknown n => (n =? 5) || (n =? 8) || (n =? 9) || (n =? 10) | _ => false end.
Definition update_deprecated (e : update_error) : bool :=
  match e with UUnknown n => n =? 7 | _ => false end.

(** error.rs:44-70 [BgpError::new]. *)
Definition error_of (code sub : N) : bgp_error :=
  match code with
  | 0 => EReserved sub
  | 1 => EHeader (header_error_of sub)
  | 2 => EOpen (open_error_of sub)
  | 3 => EUpdate (update_error_of sub)
  | 4 => EHoldTimer sub
  | 5 => EFsm (fsm_error_of sub)
  | 6 => ECease (cease_of sub)
  | 7 => ERefresh (refresh_error_of sub)
  | _ => EUnknown code sub
  end.
(** error.rs:72-84 [get_codes]. *)
Definition error_codes (e : bgp_error) : N * N :=
  match e with
  | EReserved n => (0, n)
  | EHeader v => (1, header_error_code v)
  | EOpen v => (2, open_error_code v)
  | EUpdate v => (3, update_error_code v)
  | EHoldTimer n => (4, n)
  | EFsm v => (5, fsm_error_code v)
  | ECease v => (6, cease_code v)
  | ERefresh v => (7, refresh_error_code v)
  | EUnknown c s => (c, s)
  end.
