(** Specification vocabulary for labelled prefixes. *)
From Verif Require Import Base Net NetSpec Mpls.

(** The same network with its host bits cleared. *)
Definition net_trunc (x : ipnet) : ipnet :=
  match net_addr x with
  | V4 n => Net (V4 (n - n mod 2 ^ (32 - net_len x))) (net_len x)
  | V6 n => Net (V6 (n - n mod 2 ^ (128 - net_len x))) (net_len x)
  end.
Definition net_family (x : ipnet) : afi :=
  match net_addr x with V4 _ => AIpv4 | V6 _ => AIpv6 end.

(** A labelled prefix whose parts are in range, with a non-empty stack, and whose
    length field fits its octet. *)
Definition labeled_ok (p : labeled) : Prop :=
  net_ok (lp_net p) /\ id_ok (lp_id p) /\ Forall (fun l => l < 2 ^ 20) (lp_labels p) /\
  lp_labels p <> [] /\ 24 * nlen (lp_labels p) + net_len (lp_net p) <= 255.

(** The label stack on the wire (RFC 3032 section 2.1, without TC and TTL): 20
    bits of label, three zero bits, and the bottom-of-stack bit. *)
Definition entry_wire (label : N) (bottom : bool) : bytes :=
  be 3 (label * 16 + (if bottom then 1 else 0)).
Definition stack_wire (ls : list N) : bytes :=
  flat_map (fun l => entry_wire l false) (removelast ls) ++ entry_wire (last ls 0) true.

(** The limits a configuration puts on a stack. *)
Definition stack_allowed (c : label_cfg) (ls : list mpls_label) : Prop :=
  match lc_mode c with
  | SingleLabel => nlen ls = 1
  | MultiLabel => nlen ls <= lc_max c /\ (forall p, lc_peer c = Some p -> nlen ls <= p)
  end.

(** A labelled prefix on the wire (RFC 8277 section 2): path identifier if any,
    the number of label and prefix bits, the stack, the prefix octets. *)
Definition labeled_wire (p : labeled) : bytes :=
  (match lp_id p with Some i => be 4 i | None => [] end) ++
  be 1 (24 * nlen (lp_labels p) + net_len (lp_net p)) ++
  stack_wire (lp_labels p) ++
  firstn (N.to_nat (byte_len (net_len (lp_net p)))) (octets (net_addr (lp_net p))).
(** The same labelled prefix with the host bits of its network cleared. *)
Definition labeled_trunc (p : labeled) : labeled := Labeled (net_trunc (lp_net p)) (lp_labels p) (lp_id p).
(** A labelled withdrawal (RFC 8277 section 2.4) with a three-octet
    compatibility field. *)
Definition withdrawal_wire (p : prefix) (compat : bytes) : bytes :=
  (match p_id p with Some i => be 4 i | None => [] end) ++
  be 1 (24 + net_len (p_net p)) ++ compat ++
  firstn (N.to_nat (byte_len (net_len (p_net p)))) (octets (net_addr (p_net p))).
