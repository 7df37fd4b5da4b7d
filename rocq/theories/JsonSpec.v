(** Vocabulary of the theorems about JSON forms. *)
From Coq Require Import String Floats.SpecFloat.
From Verif Require Import Base Net NetSpec AsPath Community Attr Elem Text Filter Json.

(** * AS paths *)
(** Paths of sequences and sets with no two sequences in a row. *)
Definition plain (p : aspath) : Prop :=
  (forall s, In s p -> s_kind s = KSeq \/ s_kind s = KSet) /\
  (forall a s t b, p = a ++ s :: t :: b -> s_kind s = KSeq -> s_kind t = KSeq -> False).
(** Array entries of a segment in the short form: the numbers of a sequence one by one, a
    set as an array of its own. *)
Inductive short : seg -> list json -> Prop :=
| short_seq l : short (Seg KSeq l) (map JNum l)
| short_set l : short (Seg KSet l) [JList (map JNum l)].
(** The array entry of a segment in the long form. *)
Definition kind_text (k : skind) : string :=
  match k with KSet => "AS_SET" | KSeq => "AS_SEQUENCE" | KCSeq => "AS_CONFED_SEQUENCE" | KCSet => "AS_CONFED_SET" end.
Definition long (s : seg) (j : json) : Prop :=
  j = JObject [(str "ty", JText (str (kind_text (s_kind s)))); (str "values", JList (map JNum (s_asns s)))].
Definition u32s (l : list N) : Prop := Forall (fun a => a < 2 ^ 32) l.
Definition path_u32 (p : aspath) : Prop := Forall (fun s => u32s (s_asns s)) p.
(** Segments that are sequences of no AS. *)
Definition hollow (s : seg) : Prop := s = Seg KSeq [].
(** Paths that the short form can tell apart from others. *)
Definition path_kept (p : aspath) : Prop := plain p -> ~ Exists hollow p.

(** * Elements *)
(** Texts of addresses and prefixes can be read back; nothing else than those is read. *)
Definition texts_ok (ps : parsers) (tx : texts) : Prop :=
  (forall i, ip_ok i -> ps_ip ps (tx_ip tx i) = Some i) /\ (forall n, n < 2 ^ 32 -> ps_ip4 ps (tx_ip tx (V4 n)) = Some n) /\
  (forall n, net_ok n -> ps_net ps (tx_net tx n) = Some n).
Definition parsers_typed (ps : parsers) : Prop :=
  (forall s i, ps_ip ps s = Some i -> ip_ok i) /\ (forall s n, ps_ip4 ps s = Some n -> n < 2 ^ 32) /\ (forall s n, ps_net ps s = Some n -> net_ok n).
Definition opt_all {A} (P : A -> Prop) (o : option A) : Prop := match o with Some a => P a | None => True end.
Definition octets_n (n : N) (b : bytes) : Prop := nlen b = n /\ bytes_ok b.
(** Values of the types of the fields. *)
Definition ext_ranged (x : ext_community) : Prop :=
  match x with
  | XTwoOctet _ st a l | XRedirect st a l => st < 256 /\ a < 2 ^ 32 /\ octets_n 4 l
  | XIpv4 _ st a l => st < 256 /\ a < 2 ^ 32 /\ octets_n 2 l
  | XFourOctet _ st a l => st < 256 /\ a < 2 ^ 32 /\ octets_n 2 l
  | XOpaque _ st v => st < 256 /\ octets_n 6 v
  | XTrafficRate a _ | XTrafficAction a _ _ | XLinkBandwidth _ a _ => a < 2 ^ 16
  | XTrafficMarking a d => a < 2 ^ 16 /\ d < 256
  | XRaw b => octets_n 8 b
  end.
Definition meta_ranged (m : meta_community) : Prop :=
  match m with
  | MPlain (CCustom a v) => a < 2 ^ 32 /\ v < 2 ^ 16
  | MPlain _ => True
  | MExtended x => ext_ranged x
  | MIpv6Extended c => match ie_type c with TUnknown n => n < 256 | _ => True end /\ ie_subtype c < 256 /\ ie_admin c < 2 ^ 128 /\ ie_l0 c < 256 /\ ie_l1 c < 256
  | MLarge c => lc_admin c < 2 ^ 32 /\ lc_d0 c < 2 ^ 32 /\ lc_d1 c < 2 ^ 32
  end.
Definition raw_ranged (r : N * bytes) : Prop := fst r < 256 /\ bytes_ok (snd r).
Definition elem_ranged (e : elem) : Prop :=
  ip_ok (e_peer e) /\ e_asn e < 2 ^ 32 /\ opt_all (fun n => n < 2 ^ 32) (e_id e) /\ prefix_ok (e_prefix e) /\ opt_all ip_ok (e_hop e) /\
  opt_all path_u32 (e_path e) /\ opt_all u32s (e_origins e) /\
  opt_all (fun n => n < 2 ^ 32) (e_pref e) /\ opt_all (fun n => n < 2 ^ 32) (e_med e) /\ opt_all (Forall meta_ranged) (e_comms e) /\
  opt_all (fun a => a < 2 ^ 32) (e_aggr_asn e) /\ opt_all (fun n => n < 2 ^ 32) (e_aggr_ip e) /\ opt_all (fun a => a < 2 ^ 32) (e_otc e) /\
  opt_all (Forall raw_ranged) (e_unknown e) /\ opt_all (Forall raw_ranged) (e_depr e).
(** No NaN and no infinity: the time, and the rates in communities. *)
Definition finite (f : f64) : Prop := match f with S754_nan | S754_infinity _ => False | _ => True end.
Definition single_finite (bits : N) : Prop := (bits / 2 ^ 23) mod 256 <> 255.
Definition meta_finite (m : meta_community) : Prop :=
  match m with MExtended (XTrafficRate _ r) | MExtended (XLinkBandwidth _ _ r) => single_finite r | _ => True end.
Definition elem_finite (e : elem) : Prop := finite (e_time e) /\ opt_all (Forall meta_finite) (e_comms e).
