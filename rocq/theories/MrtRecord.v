(** Whole MRT records (/repo/src/parser/mrt/mrt_record.rs:38-52, 277-391,
    /repo/src/parser/mrt/messages/mod.rs). *)
From Verif Require Import Base Reader Net AsPath BgpMsg Bgp4mp TableDump Stream Framing.

(** models/mrt/mod.rs:206-214 [MrtMessage]. *)
Inductive mrt_message :=
| MrtDump (m : dump)
| MrtDumps (l : list dump)
| MrtV2 (m : dump_v2)
| MrtBgp4mp (m : bgp4mp)
| MrtLegacy (m : legacy).
(** models/mrt/mod.rs:32-35 [MrtRecord]. *)
Record mrt_record := MrtRecord { mr_hdr : header; mr_msg : mrt_message }.

(** mrt_record.rs:312-355 [parse_mrt_body]. *)
Definition parse_mrt_body (ty sub : N) (s : bytes) : res mrt_message :=
  if negb (etype_known ty) then Err EParse else
  match ty with
  | 12 => l <~ parse_dumps sub s ;; Ok (match l with [m] => MrtDump m | _ => MrtDumps l end)
  | 13 => m <~ parse_dump_v2 sub s ;; Ok (MrtV2 m)
  | 16 | 17 => m <~ parse_bgp4mp sub s ;; Ok (MrtBgp4mp m)
  | 5 => m <~ parse_legacy sub s ;; Ok (MrtLegacy m)
  | _ => Err EUnsup
  end.
(** mrt_record.rs:41-52 [RawMrtRecord::parse]. *)
Definition parse_raw (r : raw) : res mrt_record :=
  m <~ parse_mrt_body (h_type (r_hdr r)) (h_sub (r_hdr r)) (r_body r) ;; Ok (MrtRecord (r_hdr r) m).
(** mrt_record.rs:281-289 [raw_record_uses_zebra_compat]. *)
Definition raw_uses_zebra (r : raw) : bool :=
  ((h_type (r_hdr r) =? ET_BGP4MP) || (h_type (r_hdr r) =? ET_BGP4MP_ET)) &&
  uses_zebra_compat (h_sub (r_hdr r)) (r_body r).

(** mrt_record.rs:291-305 [parse_mrt_record_with_zebra_compat]: a record and whether the
    compatibility reading was used, or an error with the bytes of the record; always
    the rest of the stream. *)
Inductive record_out :=
| RRec (r : mrt_record) (zebra : bool) (rest : stream)
| RErr (e : perr) (captured : option bytes) (rest : stream)
| RPanic.
Definition parse_mrt_record_s (s : stream) : record_out :=
  match chunk_mrt_record_s s with
  | CErr e _ c s' => RErr e c s'
  | CRec r s' =>
      match parse_raw r with
      | Ok x => RRec x (raw_uses_zebra r) s'
      | Err e => RErr e (Some (raw_bytes r)) s'
      | Panic => RPanic
      end
  end.

(** messages/mod.rs:10-68 [MrtMessage::encode]. *)
Definition encode_mrt_message (sub : N) (m : mrt_message) : res bytes :=
  match m with
  | MrtDump x => encode_dump x
  | MrtDumps l => encode_dumps sub l
  | MrtV2 x => encode_dump_v2 x
  | MrtBgp4mp x => encode_bgp4mp sub x
  | MrtLegacy x => encode_legacy sub x
  end.
(** mrt_record.rs:357-391 [MrtRecord::encode]; the length of the header is replaced. *)
Definition with_length (h : header) (n : N) : header := Hdr (h_ts h) (h_us h) (h_type h) (h_sub h) n.
Definition encode_mrt_record (r : mrt_record) : res bytes :=
  b <~ encode_mrt_message (h_sub (mr_hdr r)) (mr_msg r) ;;
  _ <~ check_max (nlen b) 4294967295 ;;
  h <~ encode_header (with_length (mr_hdr r) (nlen b)) ;; Ok (h ++ b).
(** models/mrt/mod.rs:87-96 [CommonHeader]'s equality: the length is not compared. *)
Definition header_eqb (a b : header) : bool :=
  (h_ts a =? h_ts b) && (match h_us a, h_us b with Some x, Some y => x =? y | None, None => true | _, _ => false end)
  && (h_type a =? h_type b) && (h_sub a =? h_sub b).
