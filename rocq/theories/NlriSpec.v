(** Specification of the multiprotocol NLRI attributes (RFC 4760 sections 3 and 4,
    RFC 2545 section 3, RFC 4659 section 3.2.1, RFC 8277). *)
From Verif Require Import Base Net NetSpec Mpls MplsSpec FlowSpec LinkState Nlri.

Definition nh_ok (n : nexthop) : Prop :=
  match n with
  | NH4 a => a < 2 ^ 32
  | NH6 a => a < 2 ^ 128
  | NH6L a b => a < 2 ^ 128 /\ b < 2 ^ 128
  | NHVpn d a => d < 2 ^ 64 /\ a < 2 ^ 128
  | NHVpnL d a e b => d < 2 ^ 64 /\ a < 2 ^ 128 /\ e < 2 ^ 64 /\ b < 2 ^ 128
  end.
(** The next hop field: its length in octets, then the addresses.  4, 16, 24, 32 or
    48 octets; a zero length is no next hop. *)
Definition nh_wire (o : option nexthop) : bytes :=
  match o with
  | None => [0]
  | Some (NH4 a) => 4 :: be 4 a
  | Some (NH6 a) => 16 :: be 16 a
  | Some (NHVpn d a) => 24 :: be 8 d ++ be 16 a
  | Some (NH6L a b) => 32 :: be 16 a ++ be 16 b
  | Some (NHVpnL d a e b) => 48 :: be 8 d ++ be 16 a ++ be 8 e ++ be 16 b
  end.
Definition nh_opt_ok (o : option nexthop) : Prop := match o with Some h => nh_ok h | None => True end.
(** MP_REACH_NLRI and MP_UNREACH_NLRI: family, next hop and reserved octet (only when
    reachable), routes. *)
Definition reach_wire (a : afi) (sf : safi) (nh : option nexthop) (reserved : N) (routes : bytes) : bytes :=
  be 2 (afi_code a) ++ be 1 (safi_code sf) ++ nh_wire nh ++ [reserved] ++ routes.
Definition unreach_wire (a : afi) (sf : safi) (routes : bytes) : bytes :=
  be 2 (afi_code a) ++ be 1 (safi_code sf) ++ routes.

(** Routes of one family, with identifiers exactly in Add-Path mode.  Without
    Add-Path a default route is only recognised at the end of the list (C06). *)
Definition routes_ok (ap : bool) (a : afi) (l : list prefix) : Prop :=
  Forall prefix_ok l /\ Forall (fun p => family p = a) l /\ Forall (fun p => has_id p = ap) l /\
  (ap = false -> Forall (fun p => net_len (p_net p) <> 0) (removelast l)).
(** Labelled routes of one family; the parser takes at most 16 labels. *)
Definition labeled_routes_ok (ap : bool) (a : afi) (l : list labeled) : Prop :=
  Forall labeled_ok l /\ Forall (fun p => net_family (lp_net p) = a) l /\
  Forall (fun p => is_some (lp_id p) = ap) l /\ Forall (fun p => nlen (lp_labels p) <= 16) l.
Definition wire_prefix (p : prefix) : prefix := Pfx (wire_trunc (p_net p)) (p_id p).
