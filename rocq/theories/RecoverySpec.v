(** Vocabulary of the theorems about recovery. *)
From Verif Require Import Base TableDump Community Stream Framing Bgp4mp MrtRecord Elem ElemSpec Filter Iter IterSpec Recovery.

(** The stream cut into records that are read and stretches that are skipped. *)
Inductive seg := SRec (r : raw) (x : mrt_record) | SGap (skipped : bytes) (g : gap).
Definition seg_bytes (x : seg) : bytes := match x with SRec r _ => raw_bytes r | SGap b _ => b end.
Definition seg_all (l : list seg) : bytes := concat (map seg_bytes l).
(** [r] is framed by its own bytes and its body can be read. *)
Definition framed (r : raw) : Prop := chunk_mrt_record (raw_bytes r) = FRec r [].
Definition readable (r : raw) : Prop := framed r /\ exists x, parse_raw r = Ok x.
(** The families of records a search accepts: the deprecated BGP type (5), and BGP4MP (16, 17). *)
Definition is_legacy (r : raw) : Prop := h_type (r_hdr r) = ET_BGP.
Definition is_bgp4mp (r : raw) : Prop := h_type (r_hdr r) = ET_BGP4MP \/ h_type (r_hdr r) = ET_BGP4MP_ET.
(** The sizes of the bodies of the deprecated type, by subtype. *)
Definition legacy_size (sub len : N) : Prop :=
  sub = 1 /\ 16 <= len <= 65535 \/ sub = 3 /\ len = 10 \/ sub = 5 /\ 22 <= len <= 4089 \/ sub = 6 /\ 14 <= len <= 65535 \/ sub = 7 /\ len = 12.
(** [m] bytes of a BGP4MP body name the peers: two AS numbers, the interface, the address
    family and two addresses; or, in old Zebra dumps, the AS numbers alone. *)
Definition two_asns (sub : N) : nat := if existsb (N.eqb sub) [0; 1; 6; 8; 10] then 4 else 8.
Definition peers_part (sub : N) (body : bytes) (m : nat) : Prop :=
  if uses_zebra_compat sub body then m = two_asns sub
  else exists x v t, body = x ++ 0 :: v :: t /\ length x = (two_asns sub + 2)%nat /\
    (v = 1 /\ m = (two_asns sub + 12)%nat \/ v = 2 /\ m = (two_asns sub + 36)%nat).
(** A BGP message with its marker, a length that is its own, and a size fit for its type. *)
Definition bgp_message (s : bytes) : Prop :=
  exists l ty t, s = repeat 255 16 ++ l ++ ty :: t /\ length l = 2%nat /\ be_val l = nlen s /\ nlen s <= 65535 /\
    (ty = 1 /\ nlen s <= 4096 \/ ty = 2 /\ 23 <= nlen s \/ ty = 3 /\ 21 <= nlen s \/ ty = 4 /\ nlen s = 19).
(** A record that may stand in a chain, and what it is evidence of. *)
Definition anchor (r : raw) (ev : evidence) : Prop :=
  let sub := h_sub (r_hdr r) in let body := r_body r in
  match ev with
  | LegacyMrtChain => is_legacy r /\ legacy_size sub (nlen body)
  | BgpMarkerChain => is_bgp4mp r /\ In sub [1; 4; 6; 7; 8; 9; 10; 11] /\ nlen body <= 65599 /\
      exists x m, body = x ++ m /\ peers_part sub body (length x) /\ bgp_message m
  | StateChangeChain => is_bgp4mp r /\ In sub [0; 5] /\ nlen body <= 65599 /\ exists m, peers_part sub body m /\ length body = (m + 4)%nat
  | _ => False
  end /\ match h_us (r_hdr r) with Some u => u < 1000000 | None => True end.
(** [rest] starts with [n] records of one family that can all be read, each a fit one; the first
    gives the evidence. *)
Definition chain (n : N) (ev : evidence) (rest : bytes) : Prop :=
  exists r rs t, rest = concat (map raw_bytes (r :: rs)) ++ t /\ nlen (r :: rs) = n /\
    Forall readable (r :: rs) /\ anchor r ev /\ Forall (fun x => exists ev', anchor x ev') rs /\
    (Forall is_legacy (r :: rs) \/ Forall is_bgp4mp (r :: rs)).
(** What a gap claims: [skipped] are its bytes, [rest] all that follows in the stream.  A gap
    found by searching ends at the first place after its start where a chain begins. *)
Definition required (c : recovery_config) : N := N.max (rc_confirm c) 1.
(** No record can be read here, and why. *)
Definition damaged (s : bytes) (e : perr) : Prop :=
  (exists h c t, chunk_mrt_record s = FErr e h c t /\ e <> EEofExpected) \/ (exists r t, chunk_mrt_record s = FRec r t /\ parse_raw r = Err e).
Definition gap_true (c : recovery_config) (skipped rest : bytes) (g : gap) : Prop :=
  damaged (skipped ++ rest) (g_cause g) /\
  match g_evidence g with
  | AlignedRecordChain =>
      (exists r, raw_bytes r = skipped /\ framed r /\ parse_raw r = Err (g_cause g)) /\
      exists rs t, rest = concat (map raw_bytes rs) ++ t /\ Forall readable rs /\ nlen rs = g_confirmed g /\
        (g_confirmed g = required c \/ g_confirmed g < required c /\ t = [])
  | EndOfStream => rest = [] /\ g_confirmed g = 0 /\ nlen skipped < rc_max_scan c + 6
  | ev => chain (required c) ev rest /\ g_confirmed g = required c /\ nlen skipped <= rc_max_scan c
  end /\
  (g_evidence g = AlignedRecordChain \/
   forall k ev, (0 < k < length skipped)%nat -> ~ chain (required c) ev (skipn k (skipped ++ rest))).
(** The iterator gives up with [x] at [rest]: no record is there, and no chain begins within the limit. *)
Definition gives_up (c : recovery_config) (rest : bytes) (x : rerror) : Prop :=
  damaged rest (re_err x) /\ re_scanned x = rc_max_scan c /\
  (rc_max_scan c = 0 \/ rc_max_scan c + 6 <= nlen rest) /\
  forall k ev, (0 < k)%nat -> N.of_nat k <= rc_max_scan c -> ~ chain (required c) ev (skipn k rest).
(** The pieces fit: each starts where the one before ends, records are whole and read to the
    value shown, gaps are not empty, carry their true offsets and claim the truth.
    [pos] is the offset of the first piece, [tail] what follows the last. *)
Fixpoint tiled (c : recovery_config) (pos : N) (l : list seg) (tail : bytes) : Prop :=
  match l with
  | [] => True
  | SRec r x :: l' => framed r /\ parse_raw r = Ok x /\ tiled c (pos + nlen (raw_bytes r)) l' tail
  | SGap b g :: l' =>
      b <> [] /\ g_start g = pos /\ g_end g = pos + nlen b /\ gap_true c b (seg_all l' ++ tail) g /\ tiled c (g_end g) l' tail
  end.
(** What is shown of the pieces: every gap, and the records that pass the filters. *)
Fixpoint shown (show : meta_community -> bytes) (fs : list filter) (t : option peer_table) (l : list seg) : list (event mrt_record) :=
  match l with
  | [] => []
  | SGap _ g :: l' => Gap g :: shown show fs t l'
  | SRec _ x :: l' => (if passes show fs (t, x) then [Item x] else []) ++ shown show fs (table_after t x) l'
  end.
(** A source that neither fails nor interrupts, however it cuts its data. *)
Definition quiet (s : stream) : Prop := forall e, In e s -> exists l, e = Data l.
(** What is shown element by element. *)
Fixpoint shown_elems (show : meta_community -> bytes) (fs : list filter) (t : option peer_table) (l : list seg) : list (event elem) :=
  match l with
  | [] => []
  | SGap _ g :: l' => Gap g :: shown_elems show fs t l'
  | SRec _ x :: l' => map Item (List.filter (fun e => match_filters show (VElem e) fs) (elems_of (t, x))) ++ shown_elems show fs (table_after t x) l'
  end.
(** Two quiet sources of the same bytes, read with the same settings. *)
Definition same_source (p p' : parser) : Prop :=
  quiet (pr_stream p) /\ quiet (pr_stream p') /\ sbytes (pr_stream p) = sbytes (pr_stream p') /\ pr_filters p = pr_filters p' /\ pr_core p = pr_core p' /\ pr_text p = pr_text p' /\ pr_dump p = pr_dump p'.
