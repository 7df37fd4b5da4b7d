(** RPKI-to-router PDUs (/repo/src/models/rpki/rtr.rs, /repo/src/parser/rpki/rtr.rs). *)
From Verif Require Import Base Net Stream Utf8.

(** models/rpki/rtr.rs:43-66 [RtrProtocolVersion]. *)
Inductive rtr_version := RV0 | RV1.
Definition version_of (n : N) : option rtr_version := match n with 0 => Some RV0 | 1 => Some RV1 | _ => None end.
Definition version_code (v : rtr_version) : N := match v with RV0 => 0 | RV1 => 1 end.
(** models/rpki/rtr.rs:88-138 [RtrPduType] as its code. *)
Definition pdu_type_known (n : N) : bool := existsb (N.eqb n) [0; 1; 2; 3; 4; 6; 7; 8; 9; 10].
(** models/rpki/rtr.rs:157-207 [RtrErrorCode] as its code. *)
Definition error_code_known (n : N) : bool := existsb (N.eqb n) [0; 1; 2; 3; 4; 5; 6; 7; 8].
(** models/rpki/rtr.rs [RtrPdu] and the structs it holds. *)
Inductive pdu :=
| SerialNotify (v : rtr_version) (session serial : N)
| SerialQuery (v : rtr_version) (session serial : N)
| ResetQuery (v : rtr_version)
| CacheResponse (v : rtr_version) (session : N)
| Ipv4Prefix (v : rtr_version) (flags plen maxlen addr : N) (a : asn)
| Ipv6Prefix (v : rtr_version) (flags plen maxlen addr : N) (a : asn)
| EndOfData (v : rtr_version) (session serial : N) (refresh retry expire : option N)
| CacheReset (v : rtr_version)
| RouterKey (v : rtr_version) (flags : N) (ski : bytes) (a : asn) (spki : bytes)
| ErrorReport (v : rtr_version) (code : N) (erroneous text : bytes).

(** rtr.rs:40-82 [RtrError]. *)
Inductive rtr_err :=
| TIo | TIncomplete (available needed : N) | TBadType (t : N) | TBadVersion (v : N) | TBadCode (c : N)
| TBadLength (expected actual ty : N) | TBadPrefix (plen maxlen allowed : N) | TBadUtf8 | TKeyInV0.
Inductive tres (A : Type) := TOk (a : A) | TErr (e : rtr_err) | TPanic.
Arguments TOk {A}. Arguments TErr {A}. Arguments TPanic {A}.
Definition tbind {A B} (r : tres A) (k : A -> tres B) : tres B := match r with TOk a => k a | TErr e => TErr e | TPanic => TPanic end.
Notation "x <! r ;; k" := (tbind r (fun x => k)) (at level 61, r at next level, right associativity).

(** Indexing and slicing of [&[u8]]: out of range panics. *)
Definition at_ (i : nat) (s : bytes) : tres N := match nth_error s i with Some b => TOk b | None => TPanic end.
Definition u16_at (i : nat) (s : bytes) : tres N := a <! at_ i s ;; b <! at_ (1 + i) s ;; TOk (be_val [a; b]).
Definition u32_at (i : nat) (s : bytes) : tres N :=
  a <! at_ i s ;; b <! at_ (1 + i) s ;; c <! at_ (2 + i) s ;; d <! at_ (3 + i) s ;; TOk (be_val [a; b; c; d]).
Definition slice (i n : nat) (s : bytes) : tres bytes :=
  if Nat.leb (i + n) (length s) then TOk (firstn n (skipn i s)) else TPanic.

(** rtr.rs:140-196: the lengths. *)
Definition MAX_REPORT : N := 8 + 4 + 65535 + 4 + 65535.
(** rtr.rs:548-558 [validate_length], 560-570 [validate_prefix_length]. *)
Definition validate_length (actual expected ty : N) : tres unit := if actual =? expected then TOk tt else TErr (TBadLength expected actual ty).
Definition validate_prefix (p m allowed : N) : tres unit := if (m <? p) || (allowed <? m) then TErr (TBadPrefix p m allowed) else TOk tt.
Definition sat32 (n : N) : N := if n <? 2 ^ 32 then n else 2 ^ 32 - 1.

(** rtr.rs:255-486: the body, by type. *)
Definition parse_pdu_body (v : rtr_version) (ty code len : N) (s : bytes) : tres pdu :=
  match ty with
  | 0 => _ <! validate_length len 12 ty ;; n <! u32_at 8 s ;; TOk (SerialNotify v code n)
  | 1 => _ <! validate_length len 12 ty ;; n <! u32_at 8 s ;; TOk (SerialQuery v code n)
  | 2 => _ <! validate_length len 8 ty ;; TOk (ResetQuery v)
  | 3 => _ <! validate_length len 8 ty ;; TOk (CacheResponse v code)
  | 4 =>
      _ <! validate_length len 20 ty ;;
      f <! at_ 8 s ;; p <! at_ 9 s ;; m <! at_ 10 s ;;
      _ <! validate_prefix p m 32 ;;
      b <! slice 12 4 s ;; a <! u32_at 16 s ;; TOk (Ipv4Prefix v f p m (be_val b) a)
  | 6 =>
      _ <! validate_length len 32 ty ;;
      f <! at_ 8 s ;; p <! at_ 9 s ;; m <! at_ 10 s ;;
      _ <! validate_prefix p m 128 ;;
      b <! slice 12 16 s ;; a <! u32_at 28 s ;; TOk (Ipv6Prefix v f p m (be_val b) a)
  | 7 =>
      _ <! validate_length len (match v with RV0 => 12 | RV1 => 24 end) ty ;;
      n <! u32_at 8 s ;;
      match v with
      | RV0 => TOk (EndOfData v code n None None None)
      | RV1 => a <! u32_at 12 s ;; b <! u32_at 16 s ;; c <! u32_at 20 s ;; TOk (EndOfData v code n (Some a) (Some b) (Some c))
      end
  | 8 => _ <! validate_length len 8 ty ;; TOk (CacheReset v)
  | 9 =>
      match v with
      | RV0 => TErr TKeyInV0
      | RV1 =>
          if len <? 34 then TErr (TBadLength 34 len ty) else
          f <! at_ 8 s ;; k <! slice 10 20 s ;; a <! u32_at 30 s ;;
          let n := len - 34 in
          p <! (if 0 <? n then slice 34 (N.to_nat n) s else TOk []) ;;
          TOk (RouterKey v f k a p)
      end
  | _ =>
      if len <? 16 then TErr (TBadLength 16 len ty) else
      if negb (error_code_known code) then TErr (TBadCode code) else
      n <! u32_at 8 s ;;
      if len - 16 <? n then TErr (TBadLength (sat32 (n + 16)) len ty) else
      e <! (if 0 <? n then slice 12 (N.to_nat n) s else TOk []) ;;
      let o := 12 + n in
      k <! u32_at (N.to_nat o) s ;;
      let o := o + 4 in
      if len - o <? k then TErr (TBadLength (sat32 (o + k)) len ty) else
      t <! (if 0 <? k then b <! slice (N.to_nat o) (N.to_nat k) s ;; (if utf8_ok b then TOk b else TErr TBadUtf8) else TOk []) ;;
      TOk (ErrorReport v code e t)
  end.
(** rtr.rs:224-489 [parse_rtr_pdu]: the PDU and the bytes consumed. *)
Definition parse_rtr (s : bytes) : tres (pdu * N) :=
  if Nat.ltb (length s) 8 then TErr (TIncomplete (nlen s) 8) else
  v <! at_ 0 s ;; ty <! at_ 1 s ;; code <! u16_at 2 s ;; len <! u32_at 4 s ;;
  if nlen s <? len then TErr (TIncomplete (nlen s) len) else
  match version_of v with
  | None => TErr (TBadVersion v)
  | Some v =>
      if negb (pdu_type_known ty) then TErr (TBadType ty) else
      p <! parse_pdu_body v ty code len s ;; TOk (p, len)
  end.
(** rtr.rs:508-546 [read_rtr_pdu]: the outcome and what is left of the source. *)
Definition read_rtr (s : stream) : tres pdu * stream :=
  match read_upto 8 s with
  | (Full, h, s1) =>
      match u32_at 4 h, at_ 1 h with
      | TOk len, TOk ty =>
          if len <? 8 then (TErr (TBadLength 8 len ty), s1)
          else if MAX_REPORT <? len then (TErr (TBadLength MAX_REPORT len ty), s1)
          else
            match read_upto (N.to_nat (len - 8)) s1 with
            | (Full, b, s2) => (r <! parse_rtr (h ++ b) ;; TOk (fst r), s2)
            | (_, _, s2) => (TErr TIo, s2)
            end
      | _, _ => (TPanic, s1)
      end
  | (_, _, s1) => (TErr TIo, s1)
  end.

(** rtr.rs:582-759: the encoders.  [34 + len as u32] panics (or wraps) when it overflows;
    here the length field is taken modulo 2^32, so the model speaks of shorter keys only. *)
Definition rtr_head (v : rtr_version) (ty code len : N) : bytes := version_code v :: ty :: be 2 code ++ be 4 len.
Definition or_default (o : option N) (d : N) : N := match o with Some n => n | None => d end.
Definition encode_rtr (p : pdu) : bytes :=
  match p with
  | SerialNotify v i n => rtr_head v 0 i 12 ++ be 4 n
  | SerialQuery v i n => rtr_head v 1 i 12 ++ be 4 n
  | ResetQuery v => rtr_head v 2 0 8
  | CacheResponse v i => rtr_head v 3 i 8
  | Ipv4Prefix v f p m i a => rtr_head v 4 0 20 ++ [f; p; m; 0] ++ be 4 i ++ be 4 a
  | Ipv6Prefix v f p m i a => rtr_head v 6 0 32 ++ [f; p; m; 0] ++ be 16 i ++ be 4 a
  | EndOfData v i n r t e =>
      rtr_head v 7 i (match v with RV0 => 12 | RV1 => 24 end) ++ be 4 n ++
      match v with RV0 => [] | RV1 => be 4 (or_default r 3600) ++ be 4 (or_default t 600) ++ be 4 (or_default e 7200) end
  | CacheReset v => rtr_head v 8 0 8
  | RouterKey v f k a s => rtr_head v 9 0 (34 + nlen s) ++ [f; 0] ++ k ++ be 4 a ++ s
  | ErrorReport v c e t => rtr_head v 10 c (16 + nlen e + nlen t) ++ be 4 (nlen e) ++ e ++ be 4 (nlen t) ++ t
  end.
