(** C05 (network prefix codec) and C06 (NLRI list codec). *)
From Verif Require Import Base Reader Net NetSpec NetFacts.

(** C05: encoding any well-formed prefix and parsing it in its own family and
    Add-Path mode gives the prefix back, with only the address bits beyond the
    octets on the wire cleared, and leaves exactly the bytes that followed. *)
Theorem C05_prefix_roundtrip :
  forall p rest, prefix_ok p ->
  read_nlri_prefix (family p) (has_id p) (encode_prefix p ++ rest)
  = Ok (Pfx (wire_trunc (p_net p)) (p_id p), rest).
Proof. exact read_encode_prefix. Qed.
Print Assumptions C05_prefix_roundtrip.

(** C05: a prefix in network form (no host bits) comes back unchanged. *)
Theorem C05_prefix_roundtrip_canonical :
  forall p rest, prefix_ok p -> canonical (p_net p) ->
  read_nlri_prefix (family p) (has_id p) (encode_prefix p ++ rest) = Ok (p, rest).
Proof.
  exact (fun p rest H C => eq_trans (read_encode_prefix p rest H)
    (f_equal (fun x => Ok (x, rest)) (sem_prefix_exact p (canonical_wire_exact _ C)))).
Qed.
Print Assumptions C05_prefix_roundtrip_canonical.

(** C05: whatever the parser accepts is well formed, of the requested family and
    mode, and re-encodes to exactly the octets it consumed. *)
Theorem C05_prefix_parse_exact :
  forall a ap s p r, bytes_ok s -> a <> ALinkState ->
  read_nlri_prefix a ap s = Ok (p, r) ->
  s = encode_prefix p ++ r /\ prefix_ok p /\ family p = a /\ has_id p = ap.
Proof. exact (fun a ap s p r Hs Ha H => read_nlri_prefix_inv a ap s p r H Hs Ha). Qed.
Print Assumptions C05_prefix_parse_exact.

(** C05: prefix lengths above 32 (IPv4) or 128 (IPv6) are refused. *)
Theorem C05_prefix_length_refused :
  forall a ap pid bits r,
  (match a with AIpv4 => 32 | AIpv6 => 128 | ALinkState => 0 end) < bits ->
  bits < 256 -> pid < 2 ^ 32 ->
  read_nlri_prefix a ap ((if ap then be 4 pid else []) ++ be 1 bits ++ r) = Err EParse.
Proof. exact read_nlri_prefix_too_long. Qed.
Print Assumptions C05_prefix_length_refused.

(** 10.1.2.0/23 with path id 7, and 2001:db8::/33 without. *)
Definition ex_p4 := Pfx (Net (V4 167838208) 23) (Some 7).
Definition ex_p6 := Pfx (Net (V6 42540766411282592856903984951653826560) 33) None.
Example C05_ex_ok : prefix_ok ex_p4 /\ canonical (p_net ex_p4) /\ prefix_ok ex_p6 /\ canonical (p_net ex_p6).
Proof. repeat split; vm_compute; congruence. Qed.
Example C05_ex_bytes : encode_prefix ex_p4 = [0;0;0;7;23;10;1;2]
  /\ encode_prefix ex_p6 = [33;32;1;13;184;0].
Proof. split; reflexivity. Qed.
Example C05_ex_hostbits :
  (* 10.1.3.9/23: the last octet does not travel, the odd third octet does *)
  read_nlri_prefix AIpv4 false (encode_prefix (Pfx (Net (V4 167838473) 23) None))
  = Ok (Pfx (Net (V4 167838464) 23) None, []).
Proof. reflexivity. Qed.

(** C06: a list of prefixes of one family, all in the Add-Path mode used for
    parsing, comes back with only the bits that do not travel cleared.  Without
    Add-Path the default route (whose encoding starts with a zero octet) may
    only be last. *)
Theorem C06_nlri_roundtrip :
  forall ap a l,
  Forall prefix_ok l -> Forall (fun p => family p = a) l -> Forall (fun p => has_id p = ap) l ->
  (ap = false -> Forall (fun p => net_len (p_net p) <> 0) (removelast l)) ->
  parse_nlri_list (encode_nlri_prefixes l) ap a
  = Ok (map (fun p => Pfx (wire_trunc (p_net p)) (p_id p)) l).
Proof. exact parse_encode_nlri. Qed.
Print Assumptions C06_nlri_roundtrip.

(** C06: whenever the NLRI parser succeeds, with or without its Add-Path guess,
    re-encoding what it returned reproduces the whole input. *)
Theorem C06_nlri_parse_exact :
  forall s ap a l, bytes_ok s -> a <> ALinkState ->
  parse_nlri_list s ap a = Ok l ->
  s = encode_nlri_prefixes l /\ Forall prefix_ok l /\ Forall (fun p => family p = a) l.
Proof. exact (fun s ap a l Hs Ha H => nlri_loop_inv _ ap a ap false s l H Hs Ha). Qed.
Print Assumptions C06_nlri_parse_exact.

Example C06_ex : parse_nlri_list (encode_nlri_prefixes [ex_p4; Pfx (Net (V4 0) 0) (Some 0); ex_p4]) true AIpv4
  = Ok [ex_p4; Pfx (Net (V4 0) 0) (Some 0); ex_p4].
Proof. reflexivity. Qed.
Example C06_ex_default_last :
  parse_nlri_list (encode_nlri_prefixes [Pfx (Net (V4 167772160) 8) None; Pfx (Net (V4 0) 0) None]) false AIpv4
  = Ok [Pfx (Net (V4 167772160) 8) None; Pfx (Net (V4 0) 0) None].
Proof. reflexivity. Qed.

(** Finding: without Add-Path a default route that is not last can be read back
    as something else, because a leading zero octet makes the parser guess
    Add-Path.  0.0.0.0/0, 10.0.0.0/8, 0.0.0.0/0, 11.0.0.0/8, 12.0.0.0/8 read as
    other prefixes. *)
Theorem C06_nlri_default_route_refuted :
  exists l, Forall prefix_ok l /\ Forall (fun p => canonical (p_net p)) l /\
            Forall (fun p => family p = AIpv4) l /\ Forall (fun p => p_id p = None) l /\
            parse_nlri_list (encode_nlri_prefixes l) false AIpv4 <> Ok l.
Proof.
  exists [Pfx (Net (V4 0) 0) None; Pfx (Net (V4 167772160) 8) None; Pfx (Net (V4 0) 0) None;
          Pfx (Net (V4 184549376) 8) None; Pfx (Net (V4 201326592) 8) None].
  repeat split; repeat constructor; try (vm_compute; congruence); cbn; try (intros H; discriminate H).
Qed.
Print Assumptions C06_nlri_default_route_refuted.
