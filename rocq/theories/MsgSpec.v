(** Vocabulary for the properties of BGP messages: wire layouts. *)
From Verif Require Import Base Net NetSpec AsPath Nlri NlriSpec Attr AttrSpec Cap BgpError BgpMsg.

(** * Capabilities *)
(** RFC 8950: AFI, two octets of SAFI, next hop AFI.  [h] is the upper octet of the
    SAFI, which ought to be zero. *)
Definition enh_octets (w : bytes) (e : enh_entry) : Prop :=
  exists h, h < 256 /\
  w = be 2 (afi_code (en_afi e)) ++ [h; safi_code (en_safi e)] ++ be 2 (afi_code (en_next e)).
(** RFC 4724: AFI, SAFI, flags; the top flag is the forwarding state. *)
Definition gr_octets (w : bytes) (f : gr_family) : Prop :=
  exists x, x < 128 /\
  w = be 2 (afi_code (gr_afi f)) ++ [safi_code (gr_safi f); (if gr_fwd f then 128 else 0) + x].
(** RFC 7911: AFI, SAFI, send/receive. *)
Definition ap_octets (w : bytes) (f : ap_family) : Prop :=
  w = be 2 (afi_code (ap_afi f)) ++ [safi_code (ap_safi f); mode_code (ap_mode_ f)].
Definition entries_octets {A} (item : bytes -> A -> Prop) (s : bytes) (l : list A) : Prop :=
  exists ws, s = concat ws /\ Forall2 item ws l.
(** The octets [b] are a capability value [v]. *)
Definition cap_octets (b : bytes) (v : cap_value) : Prop :=
  match v with
  | CvRaw x => b = x
  | CvMp a s => exists r, r < 256 /\ b = be 2 (afi_code a) ++ [r; safi_code s]
  | CvRefresh | CvExtMsg => b = []
  | CvEnh l => entries_octets enh_octets b l
  | CvRestart g =>
      gr_time g < 4096 /\
      exists x r, x < 8 /\ b = be 2 (((if gr_state g then 8 else 0) + x) * 4096 + gr_time g) ++ r /\
        entries_octets gr_octets r (gr_families g)
  | CvAs4 n => n < 2 ^ 32 /\ b = be 4 n
  | CvAddPath l => entries_octets ap_octets b l
  | CvRole r => b = [role_code r]
  end.
(** The capability code (IANA) a decoded value belongs to. *)
Definition cap_code (v : cap_value) : option N :=
  match v with
  | CvRaw _ => None | CvMp _ _ => Some 1 | CvRefresh => Some 2 | CvEnh _ => Some 5
  | CvExtMsg => Some 6 | CvRole _ => Some 9 | CvRestart _ => Some 64 | CvAs4 _ => Some 65
  | CvAddPath _ => Some 69
  end.
(** What a capability with code [c] and octets [b] is read as: a value of its kind if
    the octets are one, the octets otherwise. *)
Definition cap_reads (c : N) (b : bytes) (v : cap_value) : Prop :=
  (cap_code v = Some c /\ cap_octets b v) \/
  (v = CvRaw b /\ forall v', cap_code v' = Some c -> ~ cap_octets b v').
(** A value that can be represented. *)
Definition cap_fits (v : cap_value) : Prop :=
  match v with
  | CvRaw b => bytes_ok b | CvRestart g => gr_time g < 4096 | CvAs4 n => n < 2 ^ 32 | _ => True
  end.

(** * OPEN *)
(** Undecoded items: a code or type and its octets. *)
Definition raw_item := (N * bytes)%type.
Definition item_wire (w : nat) (i : raw_item) : bytes := [fst i] ++ be w (nlen (snd i)) ++ snd i.
Definition item_ok (w : nat) (i : raw_item) : Prop :=
  fst i < 256 /\ bytes_ok (snd i) /\ nlen (snd i) < 256 ^ N.of_nat w.
Definition open_head (m : open_msg) : bytes :=
  be 1 (o_version m) ++ be 2 (o_asn m) ++ be 2 (o_hold m) ++ be 4 (o_id m).
(** What the encoder writes for a parameter. *)
Definition cap_item (c : capability) : raw_item := (cap_type c, encode_cap_value (cap_val c)).
Definition param_item (p : opt_param) (i : raw_item) : Prop :=
  op_type p = fst i /\
  match op_value p with
  | PvRaw b => snd i = b
  | PvCaps l => Forall (fun c => nlen (encode_cap_value (cap_val c)) < 256) l /\
                snd i = flat_map (fun c => be 1 (cap_type c) ++ be 1 (nlen (encode_cap_value (cap_val c))) ++
                                           encode_cap_value (cap_val c)) l
  end.
(** RFC 4271: one octet of total length; RFC 9072: 255, 255, two octets. *)
Definition classic_open (m : open_msg) (ps : list raw_item) : bytes :=
  open_head m ++ [nlen (flat_map (item_wire 1) ps)] ++ flat_map (item_wire 1) ps.
Definition extended_open (m : open_msg) (ps : list raw_item) : bytes :=
  open_head m ++ [255; 255] ++ be 2 (nlen (flat_map (item_wire 2) ps)) ++ flat_map (item_wire 2) ps.
(** The extended format is used when asked for or when the classic one cannot hold the
    parameters. *)
Definition needs_extended (m : open_msg) (ps : list raw_item) : bool :=
  o_extended m || (255 <? nlen (flat_map (item_wire 1) ps)).
(** What an OPEN with the parameters [ps] is written as: extended if needed and if it
    fits two octets of length. *)
Definition open_written (m : open_msg) (ps : list raw_item) (b : bytes) : Prop :=
  if needs_extended m ps then nlen (flat_map (item_wire 2) ps) <= 65535 /\ b = extended_open m ps
  else b = classic_open m ps.
Definition set_extended (m : open_msg) (e : bool) : open_msg :=
  Open (o_version m) (o_asn m) (o_hold m) (o_id m) e (o_params m).
(** What a parameter is read as. *)
Definition param_reads (i : raw_item) (p : opt_param) : Prop :=
  op_type p = fst i /\
  match op_value p with
  | PvRaw b => fst i <> 2 /\ b = snd i
  | PvCaps l => fst i = 2 /\ exists cs t, snd i = flat_map (item_wire 1) cs ++ t /\ (length t < 2)%nat /\
      Forall (item_ok 1) cs /\ Forall2 (fun r c => cap_type c = fst r /\ cap_reads (fst r) (snd r) (cap_val c)) cs l
  end.
Definition cap_ok (c : capability) : Prop :=
  cap_type c < 256 /\ cap_fits (cap_val c) /\
  cap_reads (cap_type c) (encode_cap_value (cap_val c)) (cap_val c).
Definition param_ok (p : opt_param) : Prop :=
  op_type p < 256 /\
  match op_value p with
  | PvRaw b => op_type p <> 2 /\ bytes_ok b
  | PvCaps l => op_type p = 2 /\ Forall cap_ok l
  end.
Definition open_ok (m : open_msg) : Prop :=
  o_version m < 256 /\ o_asn m < 65536 /\ o_hold m < 65536 /\ o_id m < 2 ^ 32 /\ Forall param_ok (o_params m).
(** The octets after the ten of the header, read as [ext] and [ps]. *)
Definition open_tail (opl : N) (r : bytes) (ext : bool) (ps : list opt_param) : Prop :=
  match ext with
  | false => exists rs t, r = flat_map (item_wire 1) rs ++ t /\ (length t < 2)%nat /\
      Forall (item_ok 1) rs /\ Forall2 param_reads rs ps /\
      match rs with (t0, _) :: _ => t0 <> 255 | [] => True end
  | true => opl <> 0 /\
      ((exists rest, r = [255; 0; 0] ++ rest /\ ps = []) \/
       (exists n rs t, r = [255] ++ be 2 n ++ flat_map (item_wire 2) rs ++ t /\ 0 < n < 65536 /\ rs <> [] /\
          (length t < 2)%nat /\ Forall (item_ok 2) rs /\ Forall2 param_reads rs ps))
  end.

(** * UPDATE *)
Definition update_sections (w a n : bytes) : bytes := be 2 (nlen w) ++ w ++ be 2 (nlen a) ++ a ++ n.
(** The prefixes a section denotes, and whether it is one. *)
Definition routes_of (ap : bool) (s : bytes) : list prefix :=
  match parse_nlri_list s ap AIpv4 with Ok l => l | _ => [] end.
Definition malformed (ap : bool) (s : bytes) : Prop := forall l, parse_nlri_list s ap AIpv4 <> Ok l.
(** What is reported about a section of prefixes: nothing, or one warning with its octets. *)
Definition section_warnings (an ap : bool) (s : bytes) (ws : list warning) : Prop :=
  ((exists l, parse_nlri_list s ap AIpv4 = Ok l) /\ ws = []) \/
  (malformed ap s /\ exists e, ws = [WMalformedNlri an e s]).
Definition update_cfg (ap : bool) (al : asn_len) : acfg := ACfg al ap None None None.
(** An UPDATE with the withdrawn and announced sections [w] and [n] and a block of
    attributes that is parsed as [A]. *)
Definition nonempty (s : bytes) : bool := match s with [] => false | _ => true end.
Definition update_reads (ap : bool) (A : attributes) (w n : bytes) (m : update_msg) : Prop :=
  u_withdrawn m = routes_of ap w /\ u_announced m = routes_of ap n /\
  at_inner (u_attrs m) = at_inner A /\ (forall c, has_attr (u_attrs m) c = has_attr A c) /\
  exists ww wn, section_warnings false ap w ww /\ section_warnings true ap n wn /\
    at_warnings (u_attrs m) = at_warnings (check_mandatory A (nonempty n || has_attr A 14) (nonempty n)) ++ ww ++ wn.
Definition update_ok (ap : bool) (al : asn_len) (m : update_msg) : Prop :=
  canonical_routes ap AIpv4 (u_withdrawn m) /\ canonical_routes ap AIpv4 (u_announced m) /\
  Forall (attr_ok (update_cfg ap al)) (at_inner (u_attrs m)).

(** * Messages *)
Definition header_wire (marker : bytes) (len t : N) : bytes := marker ++ be 2 len ++ [t].
(** [body] is what a length field of [len] takes of the octets after the header: all it
    announces, or everything if there are fewer. *)
Definition takes (len : N) (body r : bytes) : Prop := nlen body = len - 19 \/ (nlen body < len - 19 /\ r = []).
(** Two messages are the same to a user: equal but for the validation state of the
    attributes of an UPDATE and the choice of OPEN format. *)
Definition same_message (a b : bgp_msg) : Prop :=
  match a, b with
  | MUpdate x, MUpdate y => u_withdrawn x = u_withdrawn y /\ u_announced x = u_announced y /\
      at_inner (u_attrs x) = at_inner (u_attrs y)
  | MOpen x, MOpen y => o_version x = o_version y /\ o_asn x = o_asn y /\ o_hold x = o_hold y /\
      o_id x = o_id y /\ o_params x = o_params y /\ (o_extended x = true -> o_extended y = true)
  | _, _ => a = b
  end.
Definition error_ok (e : bgp_error) : Prop :=
  exists c s, c < 256 /\ s < 256 /\ e = error_of c s.
Definition message_ok (ap : bool) (al : asn_len) (m : bgp_msg) : Prop :=
  match m with
  | MOpen m => open_ok m
  | MUpdate m => update_ok ap al m
  | MNotif m => error_ok (nt_error m) /\ bytes_ok (nt_data m)
  | MKeepAlive => True
  | MRefresh m => rf_afi m < 65536 /\ rf_subtype m < 256 /\ rf_safi m < 256 /\ bytes_ok (rf_data m)
  end.
