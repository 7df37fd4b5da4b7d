(** Vocabulary of the theorems about the WebAssembly interface. *)
From Verif Require Import Base Net Attr BgpMsg TableDump Stream Framing MrtRecord Elem ElemSpec Dissect DissectSpec Bmp Wasm.

(** One call: the state and the buffer to a result with its [bytesRead], or nothing, and the
    state afterwards. *)
Definition call := elementor -> bytes -> res (option (list elem * N) * elementor).
(** Calling again and again, each time without the bytes read, until there is nothing: the
    results, the state left and the bytes left. *)
Inductive calls (p : call) : elementor -> bytes -> list (list elem * N) -> elementor -> bytes -> Prop :=
| calls_end el d el' : p el d = Ok (None, el') -> calls p el d [] el' d
| calls_more el d l n el1 xs el2 r : p el d = Ok (Some (l, n), el1) -> calls p el1 (skipn (N.to_nat n) d) xs el2 r ->
    calls p el d ((l, n) :: xs) el2 r.
(** The same by a program that gets its data in pieces: each is appended to what is left. *)
Inductive fed (p : call) : elementor -> bytes -> list bytes -> list (list elem * N) -> elementor -> bytes -> Prop :=
| fed_end el r : fed p el r [] [] el r
| fed_more el d w ws xs el1 r ys el2 r2 : calls p el (d ++ w) xs el1 r -> fed p el1 r ws ys el2 r2 -> fed p el d (w :: ws) (xs ++ ys) el2 r2.
(** Asking a generator until it is done, when nobody else uses the module. *)
Inductive generated : elementor -> gen -> list (list elem * N) -> Prop :=
| gen_end el g st : gen_next el g = Ok (None, st) -> generated el g []
| gen_more el g x el' g' xs : gen_next el g = Ok (Some x, (el', g')) -> generated el' g' xs -> generated el g (x :: xs).

(** [w] is exactly one record of the file format, and [m] is what it says. *)
Definition whole (w : bytes) (m : mrt_record) : Prop :=
  exists z s, parse_mrt_record_s [Data w] = RRec m z s /\ sbytes s = [].
(** The records of a file up to the first that cannot be read; [rest] begins with that one. *)
Definition readable (d : bytes) (ws : list bytes) (ms : list mrt_record) (rest : bytes) : Prop :=
  d = concat ws ++ rest /\ Forall2 whole ws ms /\ (forall m z s, parse_mrt_record_s [Data rest] <> RRec m z s).
(** The length a record has by its header. *)
Definition declared (w : bytes) : N := 12 + be_val (firstn 4 (skipn 8 w)).
(** The records before the first whose length is not the declared one. *)
Fixpoint sized (ws : list bytes) : list bytes :=
  match ws with [] => [] | w :: ws' => if nlen w =? declared w then w :: sized ws' else [] end.

(** [t] is the tree of the octets [w]: from the first to the last of them, and every node
    shows the octets below it ([node_ok] in DissectSpec). *)
Definition tree_of (w : bytes) (t : node) : Prop := dissect_mrt_bytes w = Ok t /\ nd_off t = 0 /\ nd_len t = nlen w /\ all_nodes (node_ok w) t.

(** ** BMP *)
(** What the fields of a per-peer header show. *)
Definition peer_shown (p : per_peer) (w : wasm_peer) : Prop :=
  wp_ip w = pp_ip p /\ wp_asn w = pp_asn p /\ wp_id w = pp_id p /\ wp_type w = pp_type p /\ wp_time w = pp_time p /\
  match pp_flags p with
  | PeerFlags f => wp_post w = N.testbit f 6 /\ wp_out w = N.testbit f 4
  | LocalRibFlags _ => wp_post w = false /\ wp_out w = false
  end.
(** What a BMP message collected at [t] shows. *)
Definition bmp_shown (m : bmp_msg) (oh : option wasm_openbmp) (t : f64) (w : wasm_bmp) : Prop :=
  let base := WasmBase oh t in
  match bm_body m, w with
  | BMonitoring b, WMonitoring h q l => h = base /\ exists p, bm_peer m = Some p /\ peer_shown p q /\ bgp_elems b t (pp_ip p) (pp_asn p) l
  | BPeerUp u, WPeerUp h q a lp rp => h = base /\ a = pu_local u /\ lp = pu_lport u /\ rp = pu_rport u /\ exists p, bm_peer m = Some p /\ peer_shown p q
  | BPeerDown d, WPeerDown h q r => h = base /\ r = pd_reason d /\ exists p, bm_peer m = Some p /\ peer_shown p q
  | BStats _ _, WStats h q => h = base /\ exists p, bm_peer m = Some p /\ peer_shown p q
  | BMirroring _, WMirroring h q => h = base /\ exists p, bm_peer m = Some p /\ peer_shown p q
  | BInitiation l, WInitiation h x => h = base /\ x = map (fun y => (bt_type y, bt_info y)) l
  | BTermination l, WTermination h x => h = base /\ x = map (fun y => (tt_type y, tt_value y)) l
  | _, _ => False
  end.
(** The beginning of an OpenBMP frame that is not about a router's BMP message: the flag for
    router messages is off, or the type of its object is not 12. *)
Definition other_frame (d : bytes) : Prop :=
  exists hl ml f r, d = [79; 66; 77; 80; 1; 7] ++ hl ++ ml ++ f :: r /\ length hl = 2%nat /\ length ml = 4%nat /\
    (N.testbit f 7 = false \/ exists o r', r = o :: r' /\ o <> 12).
