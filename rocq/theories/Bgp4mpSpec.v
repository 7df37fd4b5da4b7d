(** Vocabulary of the BGP4MP and type-5 theorems (RFC 6396 sections 4.4 and B.2). *)
From Verif Require Import Base Net NetSpec BgpMsg MsgSpec Bgp4mp.

(** Peer and local AS, interface, address family, peer and local address. *)
Definition asn_limit (al : asn_len) : N := match al with Bits16 => 2 ^ 16 | Bits32 => 2 ^ 32 end.
Definition family_code (i : ip) : N := match i with V4 _ => 1 | V6 _ => 2 end.
Definition envelope (al : asn_len) (pa la i : N) (p l : ip) : bytes :=
  be (asn_width al) pa ++ be (asn_width al) la ++ be 2 i ++ be 2 (family_code p) ++ octets p ++ octets l.
Definition envelope_ok (al : asn_len) (pa la i : N) (p l : ip) : Prop :=
  pa < asn_limit al /\ la < asn_limit al /\ i < 2 ^ 16 /\ ip_ok p /\ ip_ok l /\ afi_of_ip p = afi_of_ip l.

(** Records of old Zebra versions: two 2-octet AS numbers and at once an OPEN. *)
Definition zebra_open (s : bytes) : Prop :=
  exists asns l rest, s = asns ++ repeat 255 16 ++ l ++ [1] ++ rest /\ length asns = 4%nat /\ length l = 2%nat.

(** The 2- and 4-octet subtypes of messages and those with ADD-PATH (RFC 6396, RFC 8050). *)
Definition message_subtype (sub : N) (al : asn_len) (ap : bool) : Prop :=
  match al, ap with
  | Bits16, false => sub = 1 \/ sub = 6
  | Bits32, false => sub = 4 \/ sub = 7
  | Bits16, true => sub = 8 \/ sub = 10
  | Bits32, true => sub = 9 \/ sub = 11
  end.
Definition state_subtype (sub : N) (al : asn_len) : Prop :=
  sub = match al with Bits16 => 0 | Bits32 => 5 end.

(** A record the encoder preserves. *)
Definition mp_message_ok (ap : bool) (al : asn_len) (m : mp_message) : Prop :=
  envelope_ok al (mm_peer_as m) (mm_local_as m) (mm_ifindex m) (mm_peer m) (mm_local m) /\
  message_ok ap al (mm_bgp m).
Definition same_mp_message (a b : mp_message) : Prop :=
  mm_type a = mm_type b /\ mm_peer_as a = mm_peer_as b /\ mm_local_as a = mm_local_as b /\
  mm_ifindex a = mm_ifindex b /\ mm_peer a = mm_peer b /\ mm_local a = mm_local b /\
  same_message (mm_bgp a) (mm_bgp b).
Definition mp_state_ok (al : asn_len) (m : mp_state_change) : Prop :=
  envelope_ok al (ms_peer_as m) (ms_local_as m) (ms_ifindex m) (ms_peer m) (ms_local m).

(** Type 5: AS, IPv4 address, twice. *)
Definition legacy_envelope (pa : N) (p : N) (la : N) (l : N) : bytes := be 2 pa ++ be 4 p ++ be 2 la ++ be 4 l.
Definition legacy_subtype (m : bgp_msg) (sub : N) : Prop :=
  match m with MUpdate _ => sub = 1 | MOpen _ => sub = 5 | MNotif _ => sub = 6 | MKeepAlive => sub = 7 | MRefresh _ => False end.
Definition same_legacy (a b : legacy) : Prop :=
  match a, b with
  | LgMessage x, LgMessage y => lg_peer_as x = lg_peer_as y /\ lg_peer x = lg_peer y /\
      lg_local_as x = lg_local_as y /\ lg_local x = lg_local y /\ same_message (lg_bgp x) (lg_bgp y)
  | _, _ => a = b
  end.
