(** MPLS-labelled NLRI (/repo/src/models/network/mpls.rs). *)
From Verif Require Import Base Reader Net.

(** mpls.rs:28-60 [MplsLabel]: a 20-bit value.  [try_new] (43-48). *)
Notation mpls_label := N (only parsing).
Definition MAX_LABEL : N := 0xFFFFF.
Definition label_try_new (v : N) : option mpls_label :=
  if MAX_LABEL <? v then None else Some v.
(** mpls.rs:52-54 [MplsLabel::new_masked]. *)
Definition label_masked (v : N) : mpls_label := N.land v MAX_LABEL.
(** mpls.rs:85-88 [MplsLabel::encode]; the shift is on a [u32], and the three
    [as u8] casts keep the low 24 bits. *)
Definition label_encode (l : mpls_label) (bottom : bool) : bytes :=
  be 3 (N.lor (u32 (N.shiftl l 4)) (if bottom then 1 else 0)).
(** mpls.rs:94-99 [MplsLabel::decode], given the three octets as a 24-bit value
    ([raw]). *)
Definition label_decode (raw : N) : mpls_label * bool :=
  (label_masked (N.shiftr raw 4), negb (N.land raw 1 =? 0)).

(** mpls.rs:161-172 [LabeledNlriMode], 177-199 [LabeledNlriConfig]. *)
Inductive label_mode := SingleLabel | MultiLabel.
Record label_cfg := LCfg
  { lc_add_path : bool; lc_mode : label_mode; lc_max : N; lc_peer : option N }.
(** mpls.rs:205-225 [LabeledNlriConfig::try_new]. *)
Definition label_cfg_try_new (ap : bool) (m : label_mode) (mx : N) (peer : option N) : option label_cfg :=
  if (mx =? 0) || (254 <? mx) then None else
  match peer with
  | Some p => if p =? 0 then None else Some (LCfg ap m mx peer)
  | None => Some (LCfg ap m mx peer)
  end.
(** mpls.rs:228-237 [LabeledNlriConfig::default]. *)
Definition label_cfg_default : label_cfg := LCfg false MultiLabel 16 None.

(** mpls.rs:264-272 [LabeledNetworkPrefix]. *)
Record labeled := Labeled { lp_net : ipnet; lp_labels : list mpls_label; lp_id : option N }.
(** mpls.rs:303-340 [LabeledNetworkPrefix::try_new] ([None] for either error;
    the [checked_*] cannot overflow for lists that fit in memory). *)
Definition labeled_try_new (x : ipnet) (ls : list mpls_label) (id : option N) : option labeled :=
  match ls with
  | [] => None
  | _ => if 255 <? nlen ls * 24 + net_len x then None else Some (Labeled x ls id)
  end.

(** The guards [if input.remaining() < n { return Err(e) }]. *)
Definition need (n : nat) (e : perr) : P unit := fun s =>
  if (length s <? n)%nat then Err e else Ok (tt, s).

(** mpls.rs:562-608 [parse_prefix_with_masking]: copy to a zeroed array, mask the
    last partial octet. *)
Fixpoint upd_octet (k : nat) (f : N -> N) (l : bytes) : bytes :=
  match l, k with
  | [], _ => []
  | x :: r, O => f x :: r
  | x :: r, S k' => x :: upd_octet k' f r
  end.
Definition masked_octets (w : nat) (data : bytes) (bits : N) : bytes :=
  let full := N.to_nat (bits / 8) in
  let r := bits mod 8 in
  let copy_len := Nat.min (length data) w in
  let o := firstn copy_len data ++ repeat 0 (w - copy_len) in
  if (0 <? r) && (full <? copy_len)%nat
  then upd_octet full (fun b => N.land b (u8 (N.shiftl 255 (8 - r)))) o else o.
Definition parse_prefix_with_masking (a : afi) (data : bytes) (bits : N) : res ipnet :=
  match a with
  | AIpv4 => if bits <=? 32 then Ok (Net (V4 (be_val (masked_octets 4 data bits))) bits) else Err EInvPfx
  | AIpv6 => if bits <=? 128 then Ok (Net (V6 (be_val (masked_octets 16 data bits))) bits) else Err EInvPfx
  | ALinkState => Err ELabLen
  end.

(** mpls.rs:478-506: the label loop of multi-label mode; [cnt] is
    [labels.len()].  The loop ends at the latest when the buffer is exhausted;
    callers pass its length as fuel. *)
Fixpoint read_stack (fuel : nat) (mx : N) (peer : option N) (cnt : N) (s : bytes)
  : res (list mpls_label * bytes) :=
  if mx <=? cnt then Err EMaxLabel else
  if (match peer with Some p => p <=? cnt | None => false end) then Err EPeerMax else
  if (length s <? 3)%nat then Err ELabTrunc else
  match fuel with
  | O => Panic
  | S f =>
    '(raw, s') <~ get_be 3 s ;;
    let '(l, bos) := label_decode raw in
    if (bos : bool) then Ok ([l], s')
    else '(ls, s'') <~ read_stack f mx peer (cnt + 1) s' ;; Ok (l :: ls, s'')
  end.
(** mpls.rs:460-508: labels by mode. *)
Definition read_labels (c : label_cfg) : P (list mpls_label) := fun s =>
  match lc_mode c with
  | SingleLabel => (need 3 ELabTrunc ;;; raw <- get_be 3 ;; ret [fst (label_decode raw)]) s
  | MultiLabel => read_stack (length s) (lc_max c) (lc_peer c) 0 s
  end.
(** mpls.rs:510-545 and 671-700: prefix length, bounds, prefix octets, nothing left. *)
Definition read_label_prefix (a : afi) (total : N) (nlabels : N) : P ipnet :=
  if total <? nlabels * 24 then fail ELabLen else
  let bits := total - nlabels * 24 in
  match a with
  | ALinkState => fail ELabLen
  | _ =>
    let mx := match a with AIpv4 => 32 | _ => 128 end in
    if mx <? bits then fail ELabLen else
    need (N.to_nat (byte_len bits)) ETruncPfx ;;;
    d <- split_to (N.to_nat (byte_len bits)) ;;
    x <- lift (parse_prefix_with_masking a d (u8 bits)) ;;
    rest <- remaining ;;
    if (0 <? rest)%nat then fail ELabLen else ret x
  end.
(** mpls.rs:425-454 and 630-658: path identifier, length octet, bounded slice. *)
Definition read_label_head (ap : bool) : P (option N * N * bytes) :=
  pid <- (if ap then need 4 ELabTrunc ;;; i <- get_be 4 ;; ret (Some i) else ret None) ;;
  need 1 ELabTrunc ;;;
  total <- get_be 1 ;;
  if total <? 24 then fail ELabLen else
  need (N.to_nat (byte_len total)) ELabTrunc ;;;
  d <- split_to (N.to_nat (byte_len total)) ;;
  ret (pid, total, d).
(** mpls.rs:424-553: one labelled prefix. *)
Definition read_labeled (a : afi) (c : label_cfg) : P labeled :=
  '(pid, total, d) <- read_label_head (lc_add_path c) ;;
  lift (run (ls <- read_labels c ;;
             x <- read_label_prefix a total (nlen ls) ;;
             ret (Labeled x ls pid)) d).
(** mpls.rs:415-556 [parse_labeled_nlri]. *)
Definition parse_labeled_nlri (s : bytes) (a : afi) (c : label_cfg) : res (list labeled) :=
  many_p (length s) (read_labeled a c) s.

(** mpls.rs:629-704: one labelled withdrawal; the compatibility field is skipped. *)
Definition read_labeled_withdrawal (a : afi) (ap : bool) : P prefix :=
  '(pid, total, d) <- read_label_head ap ;;
  lift (run (need 3 ELabTrunc ;;; get_be 3 ;;;
             x <- read_label_prefix a total 1 ;;
             ret (Pfx x pid)) d).
(** mpls.rs:615-707 [parse_labeled_withdrawal_nlri]. *)
Definition parse_labeled_withdrawal_nlri (s : bytes) (a : afi) (c : label_cfg) : res (list prefix) :=
  many_p (length s) (read_labeled_withdrawal a (lc_add_path c)) s.

(** mpls.rs:808-812: the label stack, bottom bit on the last. *)
Fixpoint encode_stack (ls : list mpls_label) : bytes :=
  match ls with
  | [] => []
  | [l] => label_encode l true
  | l :: r => label_encode l false ++ encode_stack r
  end.
(** mpls.rs:816-822 and 865-871: [octets[..prefix_bytes]] (a slice, in range by
    the [IpNet] invariant). *)
Definition prefix_slice (x : ipnet) : bytes :=
  firstn (N.to_nat (byte_len (net_len x))) (octets (net_addr x)).
Definition is_some {A} (o : option A) : bool := match o with Some _ => true | None => false end.
(** mpls.rs:730-825 [encode_labeled_prefix].  All [LabeledNlriEncodeError]s are
    [EUnenc]. *)
Definition encode_labeled_prefix (p : labeled) (m : label_mode) (ap : bool) (peer : option N) : res bytes :=
  match lp_labels p with
  | [] => Err EUnenc
  | l0 :: _ =>
    if is_some (lp_id p) && negb ap then Err EUnenc else
    let idb := match lp_id p with Some i => be 4 i | None => [] end in
    let total := nlen (lp_labels p) * 24 + net_len (lp_net p) in
    if 255 <? total then Err EUnenc else
    lb <~ match m with
          | SingleLabel => if 1 <? nlen (lp_labels p) then Err EUnenc else Ok (label_encode l0 true)
          | MultiLabel =>
              if (match peer with Some pm => pm <? nlen (lp_labels p) | None => false end)
              then Err EUnenc else Ok (encode_stack (lp_labels p))
          end ;;
    Ok (idb ++ be 1 total ++ lb ++ prefix_slice (lp_net p))
  end.
(** mpls.rs:830-874 [encode_labeled_withdrawal]. *)
Definition encode_labeled_withdrawal (p : prefix) : res bytes :=
  let idb := match p_id p with Some i => be 4 i | None => [] end in
  let total := 24 + net_len (p_net p) in
  if 255 <? total then Err EUnenc else
  Ok (idb ++ be 1 total ++ [0x80; 0; 0] ++ prefix_slice (p_net p)).
