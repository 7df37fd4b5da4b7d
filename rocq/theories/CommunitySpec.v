(** Specification vocabulary for communities. *)
From Verif Require Import Base Community.

(** The 32-bit value of a plain community (RFC 1997). *)
Definition community_value (c : community) : N :=
  match c with
  | CNoExport => 0xFFFFFF01 | CNoAdvertise => 0xFFFFFF02 | CNoExportSubConfed => 0xFFFFFF03
  | CCustom a v => a * 65536 + v
  end.
(** A community that has a 32-bit value of its own: the custom form carries
    16-bit parts and does not spell one of the three named values. *)
Definition community_ok (c : community) : Prop :=
  match c with
  | CCustom a v => a < 65536 /\ v < 65536 /\
      ~ In (a * 65536 + v) [0xFFFFFF01; 0xFFFFFF02; 0xFFFFFF03]
  | _ => True
  end.

Definition large_ok (c : large_community) : Prop :=
  lc_admin c < 2 ^ 32 /\ lc_d0 c < 2 ^ 32 /\ lc_d1 c < 2 ^ 32.

(** A type value obtained from an octet ([TUnknown] never wraps a named code). *)
Definition ect_ok (t : ect) : Prop :=
  match t with
  | TUnknown n => n < 256 /\ ~ In n [0; 1; 2; 3; 0x40; 0x41; 0x42; 0x43]
  | _ => True
  end.
Definition ipv6_ext_ok (x : ipv6_ext) : Prop :=
  ect_ok (ie_type x) /\ ie_subtype x < 256 /\ ie_admin x < 2 ^ 128 /\
  ie_l0 x < 256 /\ ie_l1 x < 256.

Definition octets_of (k : nat) (l : bytes) : Prop := length l = k /\ bytes_ok l.
(** An extended community in its own representation: fields in range, and the
    generic two-octet form not used for a subtype that has a dedicated form. *)
Definition ext_ok (x : ext_community) : Prop :=
  match x with
  | XTwoOctet t st a l =>
      st < 256 /\ a < 65536 /\ octets_of 4 l /\
      ~ In st (if t then [4] else [4; 6; 7; 8; 9])
  | XIpv4 _ st a l => st < 256 /\ a < 2 ^ 32 /\ octets_of 2 l
  | XFourOctet _ st a l => st < 256 /\ a < 2 ^ 32 /\ octets_of 2 l
  | XOpaque _ st v => st < 256 /\ octets_of 6 v
  | XTrafficRate a r => a < 65536 /\ r < 2 ^ 32
  | XTrafficAction a _ _ => a < 65536
  | XRedirect st a l => st = 8 /\ a < 65536 /\ octets_of 4 l
  | XTrafficMarking a d => a < 65536 /\ d < 64
  | XLinkBandwidth _ a b => a < 65536 /\ b < 2 ^ 32
  | XRaw b => octets_of 8 b /\ ~ In (hd 0 b) [0; 1; 2; 3; 0x40; 0x41; 0x42; 0x43]
  end.

(** The bits RFC 8955 reserves in a traffic-action (type 0x40, subtype 7) and a
    traffic-marking (type 0x40, subtype 9) community, cleared. *)
Definition clear_reserved (c : bytes) : bytes :=
  match c with
  | [t; st; a1; a0; b3; b2; b1; b0] =>
      if (t =? 0x40) && (st =? 7) then [t; st; a1; a0; 0; 0; 0; b0 mod 4]
      else if (t =? 0x40) && (st =? 9) then [t; st; a1; a0; b3 mod 64; 0; 0; 0]
      else c
  | _ => c
  end.
