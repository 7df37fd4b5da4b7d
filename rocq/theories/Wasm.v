(** The WebAssembly bindings (/repo/src/wasm.rs) and the JavaScript functions over them
    (/repo/src/wasm/js/index.js).  The JSON text between the two is not modelled: the results
    are the values written to it, with addresses as numbers and enumerations as their codes.
    [JsError]s are the errors of the parsers. *)
From Coq Require Import Floats.SpecFloat.
From Verif Require Import Base Reader Net Attr BgpMsg TableDump Stream Framing MrtRecord Elem Dissect Bmp.

(** wasm.rs:322-326 [MRT_ELEMENTOR]: the state between calls.  wasm.rs:491-493 [reset_mrt_parser]. *)
Definition reset_mrt_parser : elementor := None.
(** wasm.rs:334-351 [parse_mrt_record_core], 507-509 [parseMrtRecord]: the elements and
    [bytesRead], or nothing (the empty string); and the state afterwards. *)
Definition parse_mrt_record_core (el : elementor) (data : bytes) : res (option (list elem * N) * elementor) :=
  match data with
  | [] => Ok (None, el)
  | _ =>
      match parse_mrt_record_s [Data data] with
      | RPanic => Panic
      | RErr _ _ _ => Ok (None, el)
      | RRec r _ s =>
          let n := u32 (nlen data - nlen (sbytes s)) in
          '(l, el') <~ record_to_elems el r ;; Ok (Some (l, n), el')
      end
  end.
(** wasm.rs:441-454 [dissect_mrt_record_core]. *)
Definition dissect_mrt_record_core (data : bytes) : res (option (node * N)) :=
  match data with
  | [] => Ok None
  | _ =>
      match chunk_mrt_record_s [Data data] with
      | CErr _ _ _ _ => Ok None
      | CRec r s => t <~ dissect_mrt_record r ;; Ok (Some (t, u32 (nlen data - nlen (sbytes s))))
      end
  end.

(** index.js:125-133 [mrtRecordSize] at the front of [data]; [>>> 0] makes the length unsigned. *)
Definition mrt_record_size (data : bytes) : option N :=
  if nlen data <? 12 then None else Some (12 + be_val (firstn 4 (skipn 8 data))).
(** index.js:144-153 [parseMrtRecord]. *)
Definition js_parse_mrt_record (el : elementor) (data : bytes) : res (option (list elem * N) * elementor) :=
  match mrt_record_size data with
  | None => Ok (None, el)
  | Some n =>
      if nlen data <? n then Ok (None, el) else
      '(o, el') <~ parse_mrt_record_core el (firstn (N.to_nat n) data) ;;
      Ok (match o with Some (l, _) => Some (l, n) | None => None end, el')
  end.
(** index.js:166-175 [dissectMrtRecord]. *)
Definition js_dissect_mrt_record (data : bytes) : res (option (node * N)) :=
  match mrt_record_size data with
  | None => Ok None
  | Some n =>
      if nlen data <? n then Ok None else
      o <~ dissect_mrt_record_core (firstn (N.to_nat n) data) ;; Ok (match o with Some (t, _) => Some (t, n) | None => None end)
  end.
(** index.js:195-209 [parseMrtRecords]: a generator, given by whether it was asked before and
    the bytes from its offset on; one [next()] of it in the state [el]. *)
Record gen := Gen { g_started : bool; g_rest : bytes }.
Definition gen_next (el : elementor) (g : gen) : res (option (list elem * N) * (elementor * gen)) :=
  let el0 := if g_started g then el else reset_mrt_parser in
  match g_rest g with
  | [] => Ok (None, (el0, Gen true []))
  | _ =>
      '(o, el') <~ js_parse_mrt_record el0 (g_rest g) ;;
      match o with
      | Some (l, n) => Ok (Some (l, n), (el', Gen true (skipn (N.to_nat n) (g_rest g))))
      | None => Ok (None, (el', Gen true []))
      end
  end.

(** wasm.rs:113-117, 120-128 [WasmMessageBase], [WasmOpenBmpHeader]. *)
Record wasm_openbmp := WasmOpenBmp { wo_router : ip; wo_group : option bytes; wo_admin : bytes; wo_time : f64 }.
Record wasm_base := WasmBase { wb_header : option wasm_openbmp; wb_time : f64 }.
(** wasm.rs:131-145 [WasmPeerHeader]; the type as its code. *)
Record wasm_peer := WasmPeer {
  wp_ip : ip; wp_asn : asn; wp_id : N; wp_type : N; wp_post : bool; wp_out : bool; wp_time : f64 }.
(** wasm.rs:60-106 [WasmBmpMessage], 147-152 [WasmTlv]; types and reasons as their codes. *)
Inductive wasm_bmp :=
| WMonitoring (b : wasm_base) (p : wasm_peer) (l : list elem)
| WPeerUp (b : wasm_base) (p : wasm_peer) (local : ip) (lport rport : N)
| WPeerDown (b : wasm_base) (p : wasm_peer) (reason : N)
| WInitiation (b : wasm_base) (l : list (N * bytes))
| WTermination (b : wasm_base) (l : list (N * term_value))
| WStats (b : wasm_base) (p : wasm_peer)
| WMirroring (b : wasm_base) (p : wasm_peer).
(** wasm.rs:156-163 [make_openbmp_header]; the group is always [Some] (openbmp.rs:139). *)
Definition make_openbmp_header (h : openbmp) : wasm_openbmp := WasmOpenBmp (ob_router h) (Some (ob_group h)) (ob_admin h) (ob_time h).
(** wasm.rs:165-179 [make_peer_header]. *)
Definition make_peer_header (p : per_peer) : wasm_peer :=
  let '(post, out) := match pp_flags p with PeerFlags f => (flag_post f, flag_out f) | LocalRibFlags _ => (false, false) end in
  WasmPeer (pp_ip p) (pp_asn p) (pp_id p) (pp_type p) post out (pp_time p).
(** headers.rs:122-134 [BmpPerPeerHeader::default]. *)
Definition default_per_peer : per_peer := PerPeer 0 (PeerFlags 0) 0 (V4 0) 0 0 (S754_zero false).
(** wasm.rs:181-271 [build_bmp_result]. *)
Definition build_bmp_result (m : bmp_msg) (oh : option wasm_openbmp) (t : f64) : res wasm_bmp :=
  let base := WasmBase oh t in
  let none := make_peer_header default_per_peer in
  match bm_peer m, bm_body m with
  | Some p, BMonitoring b => l <~ bgp_to_elems b t (pp_ip p) (pp_asn p) ;; Ok (WMonitoring base (make_peer_header p) l)
  | Some p, BPeerUp u => Ok (WPeerUp base (make_peer_header p) (pu_local u) (pu_lport u) (pu_rport u))
  | Some p, BPeerDown d => Ok (WPeerDown base (make_peer_header p) (pd_reason d))
  | _, BInitiation l => Ok (WInitiation base (map (fun x => (bt_type x, bt_info x)) l))
  | _, BTermination l => Ok (WTermination base (map (fun x => (tt_type x, tt_value x)) l))
  | Some p, BStats _ _ => Ok (WStats base (make_peer_header p))
  | Some p, BMirroring _ => Ok (WMirroring base (make_peer_header p))
  | None, BStats _ _ => Ok (WStats base none)
  | None, BMirroring _ => Ok (WMirroring base none)
  | None, BMonitoring _ => Ok (WMonitoring base none [])
  | None, BPeerUp u => Ok (WPeerUp base none (pu_local u) (pu_lport u) (pu_rport u))
  | None, BPeerDown d => Ok (WPeerDown base none (pd_reason d))
  end.
(** wasm.rs:279-299 [parse_openbmp_message_core], 466-472 [parseOpenBmpMessage]: nothing for
    the kinds of frames that are not supported. *)
Definition parse_openbmp_message_core (data : bytes) : res (option wasm_bmp) :=
  match parse_openbmp_header data with
  | Err EBmpUnsup => Ok None
  | Err e => Err e
  | Panic => Panic
  | Ok (h, r) => m <~ fst (parse_bmp_msg r) ;; w <~ build_bmp_result m (Some (make_openbmp_header h)) (ob_time h) ;; Ok (Some w)
  end.
(** wasm.rs:302-310 [parse_bmp_message_core]. *)
Definition parse_bmp_message_core (data : bytes) (t : f64) : res wasm_bmp :=
  m <~ fst (parse_bmp_msg data) ;; build_bmp_result m None t.

(** wasm.rs:354-365 [parse_bgp_update_core]. *)
Definition parse_bgp_update_core (data : bytes) : res (list elem) :=
  m <~ run (parse_bgp_message false Bits32) data ;; bgp_to_elems m (S754_zero false) (V4 0) 0.
(** wasm.rs:382-415 [BgpUpdateFull], [parse_bgp_update_full_core]: elements, attributes and the
    warnings among them. *)
Definition parse_bgp_update_full_core (data : bytes) : res (list elem * attributes) :=
  m <~ run (parse_bgp_message false Bits32) data ;;
  let a := match m with MUpdate u => u_attrs u | _ => Attrs [] [] 0 end in
  l <~ bgp_to_elems m (S754_zero false) (V4 0) 0 ;; Ok (l, a).
(** wasm.rs:420-428 [dissect_bgp_message_core]. *)
Definition dissect_bgp_message_core (data : bytes) (four : bool) : res node :=
  dissect_bgp data 0 (if four then Bits32 else Bits16) false.
