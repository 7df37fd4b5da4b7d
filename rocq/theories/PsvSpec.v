(** Vocabulary of the theorems about text forms. *)
From Coq Require Import String Floats.SpecFloat.
From Verif Require Import Base Net NetSpec AsPath Community CommunitySpec Attr Elem Filter Text Psv.

(** * The texts of std *)
(** Characters of a number (also [inf], [NaN]) and of an IPv4 and IPv6 address. *)
Definition figure (x : N) : Prop := In x (str "0123456789.-infNa").
Definition dotted (x : N) : Prop := In x (str "0123456789.").
Definition coloned (x : N) : Prop := In x (str "0123456789abcdef:.").
(** A binary32 that is not a number. *)
Definition nan32 (bits : N) : Prop := (bits / 2 ^ 23) mod 256 = 255 /\ bits mod 2 ^ 23 <> 0.
Definition binary64 (t : f64) : Prop := valid_binary 53 1024 t = true.
(** What is assumed of [Display]: it uses these characters, an IPv6 address has two colons or
    more, and different values have different texts, but for those that are not a number. *)
Definition shows_ok (T : shows) : Prop :=
  (forall t, binary64 t -> Forall figure (sh_time T t)) /\
  (forall t u, binary64 t -> binary64 u -> sh_time T t = sh_time T u -> t = u) /\
  (forall b, b < 2 ^ 32 -> Forall figure (sh_single T b)) /\
  (forall b c, b < 2 ^ 32 -> c < 2 ^ 32 -> sh_single T b = sh_single T c -> b = c \/ nan32 b /\ nan32 c) /\
  (forall b c, nan32 b -> nan32 c -> sh_single T b = sh_single T c) /\
  (forall n, n < 2 ^ 32 -> sh_ip T (V4 n) <> [] /\ Forall dotted (sh_ip T (V4 n))) /\
  (forall n, n < 2 ^ 128 -> Forall coloned (sh_ip T (V6 n)) /\ exists a b c, sh_ip T (V6 n) = a ++ [58] ++ b ++ [58] ++ c) /\
  (forall i j, ip_ok i -> ip_ok j -> sh_ip T i = sh_ip T j -> i = j).

(** * Values of the fields *)
(** Plain communities are any; the others as they are read from the wire (an extended
    community of subtype 4 is a link bandwidth, a redirection has subtype 8). *)
Definition comm_ok (c : meta_community) : Prop :=
  match c with
  | MPlain _ => True | MExtended x => ext_ok x | MLarge x => large_ok x | MIpv6Extended x => ipv6_ext_ok x
  end.
Definition all_opt {A} (P : A -> Prop) (o : option A) : Prop := match o with Some a => P a | None => True end.
Definition fields_ok (e : elem) : Prop :=
  binary64 (e_time e) /\ ip_ok (e_peer e) /\ net_ok (p_net (e_prefix e)) /\ all_opt ip_ok (e_hop e) /\
  all_opt (Forall comm_ok) (e_comms e) /\ all_opt (fun n => n < 2 ^ 32) (e_aggr_ip e).
Definition route_ok (r : route) : Prop := binary64 (ro_time r) /\ ip_ok (ro_peer r) /\ net_ok (p_net (ro_prefix r)).

(** * What a line tells *)
(** The names and the texts of the columns. *)
Definition columns (T : shows) (e : elem) : list (string * bytes) :=
  [("type", match e_type e with Announce => str "A" | Withdraw => str "W" end);
   ("timestamp", sh_time T (e_time e));
   ("peer_ip", sh_ip T (e_peer e));
   ("peer_asn", dec (e_asn e));
   ("prefix", (sh_ip T (net_addr (p_net (e_prefix e))) ++ str "/" ++ dec (net_len (p_net (e_prefix e))))%list);
   ("as_path", match e_path e with Some p => show_path p | None => [] end);
   ("origin_asns", match e_origins e with Some l => join (str " ") (map dec l) | None => [] end);
   ("origin", match e_origin e with Some IGP => str "IGP" | Some EGP => str "EGP" | Some INCOMPLETE => str "INCOMPLETE" | None => [] end);
   ("next_hop", match e_hop e with Some i => sh_ip T i | None => [] end);
   ("local_pref", match e_pref e with Some n => dec n | None => [] end);
   ("med", match e_med e with Some n => dec n | None => [] end);
   ("communities", match e_comms e with Some l => join (str " ") (map (show_meta T) l) | None => [] end);
   ("atomic", if e_atomic e then str "true" else str "false");
   ("aggr_asn", match e_aggr_asn e with Some a => dec a | None => [] end);
   ("aggr_ip", match e_aggr_ip e with Some n => sh_ip T (V4 n) | None => [] end);
   ("only_to_customer", match e_otc e with Some a => dec a | None => [] end)]%string.
(** The columns whose name is not among [l]. *)
Definition without (l : list string) (cs : list (string * bytes)) : list (string * bytes) :=
  List.filter (fun c => negb (existsb (String.eqb (fst c)) l)) cs.
(** The element with the fields of a route. *)
Definition elem_of_route (r : route) : elem :=
  Elem (ro_time r) (ro_type r) (ro_peer r) (ro_asn r) None (ro_prefix r) None (ro_path r) None None None None None false None None None None None.

(** A path as its text tells it: AS numbers and sets one after the other; an empty sequence
    leaves a gap, as does the absence of a path. *)
Inductive step := Gap | One (a : asn) | Several (l : list asn).
Definition seg_steps (s : seg) : list step :=
  match s_kind s, s_asns s with
  | (KSet | KCSet), l => [Several l]
  | _, [] => [Gap]
  | _, l => map One l
  end.
Definition walk (p : option aspath) : list step :=
  match p with None | Some [] => [Gap] | Some p => flat_map seg_steps p end.
(** Equal but for the bits of a rate or bandwidth that is not a number. *)
Definition same_comm (c d : meta_community) : Prop :=
  c = d \/
  match c, d with
  | MExtended (XTrafficRate a r), MExtended (XTrafficRate b s) => a = b /\ nan32 r /\ nan32 s
  | MExtended (XLinkBandwidth t a r), MExtended (XLinkBandwidth u b s) => t = u /\ a = b /\ nan32 r /\ nan32 s
  | _, _ => False
  end.
(** No list is as good as an empty one. *)
Definition items {A} (o : option (list A)) : list A := match o with Some l => l | None => [] end.
Definition route_alike (a b : route) : Prop :=
  ro_type a = ro_type b /\ ro_time a = ro_time b /\ ro_peer a = ro_peer b /\ ro_asn a = ro_asn b /\
  p_net (ro_prefix a) = p_net (ro_prefix b) /\ walk (ro_path a) = walk (ro_path b).
Definition elem_alike (a b : elem) : Prop :=
  e_type a = e_type b /\ e_time a = e_time b /\ e_peer a = e_peer b /\ e_asn a = e_asn b /\
  p_net (e_prefix a) = p_net (e_prefix b) /\ walk (e_path a) = walk (e_path b) /\
  e_origin a = e_origin b /\ e_hop a = e_hop b /\ e_pref a = e_pref b /\ e_med a = e_med b /\
  Forall2 same_comm (items (e_comms a)) (items (e_comms b)) /\ e_atomic a = e_atomic b /\
  e_aggr_asn a = e_aggr_asn b /\ e_aggr_ip a = e_aggr_ip b.
Definition psv_alike (a b : elem) : Prop :=
  elem_alike a b /\ items (e_origins a) = items (e_origins b) /\ e_otc a = e_otc b.
