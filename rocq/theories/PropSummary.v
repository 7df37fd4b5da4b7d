(** C97: the one-line texts of headers, records and next hops. *)
From Coq Require Import String Lia ZifyBool ZifyNat ZifyN.
From Verif Require Import Base BaseFacts Net NetSpec AsPath Mpls Nlri NlriSpec Attr BgpMsg Bgp4mp TableDump Framing MrtRecord Text Psv PsvSpec Render RenderSpec
  Summary SummarySpec SummaryFacts PropPsv.
Local Open Scope string_scope.
Local Open Scope list_scope.
Local Open Scope N_scope.

(** ** C97: a line has fixed columns, and equal lines are of records alike. *)
(** The columns of a record's line: the word MRT, the time, the names and numbers of its type
    and subtype, then those of its content. *)
Theorem C97_record T r : shows_ok T -> type_ok (mr_hdr r) -> brief_ok (brief_of (mr_msg r)) ->
  exists t, time_text (mr_hdr r) t /\
  columns (show_record T r) =
    [str "MRT"; t; name_in record_types (N.eqb (h_type (mr_hdr r))); dec (h_sub (mr_hdr r))] ++ brief_columns T (brief_of (mr_msg r)).
Proof. intros O H B. exists (RenderFacts.clock (mr_hdr r)). split; [apply clock_text|exact (record_columns T r O H B)]. Qed.
Print Assumptions C97_record.
(** The line of a header has the same first columns, and the length. *)
Theorem C97_header h : type_ok h -> exists t, time_text h t /\
  columns (show_header h) = [str "MRT"; t; name_in record_types (N.eqb (h_type h)); dec (h_sub h); dec (h_len h)].
Proof. intros H. exists (RenderFacts.clock h). split; [apply clock_text|exact (header_columns h H)]. Qed.
Print Assumptions C97_header.
(** Lines are equal just when times, types, subtypes and what is told of the content are. *)
Theorem C97_record_tells T r s : shows_ok T -> type_ok (mr_hdr r) -> type_ok (mr_hdr s) -> brief_ok (brief_of (mr_msg r)) -> brief_ok (brief_of (mr_msg s)) ->
  show_record T r = show_record T s <->
  h_ts (mr_hdr r) = h_ts (mr_hdr s) /\ h_us (mr_hdr r) = h_us (mr_hdr s) /\ h_type (mr_hdr r) = h_type (mr_hdr s) /\ h_sub (mr_hdr r) = h_sub (mr_hdr s) /\
  brief_of (mr_msg r) = brief_of (mr_msg s).
Proof. exact (record_tells T r s). Qed.
Print Assumptions C97_record_tells.
Theorem C97_header_tells g h : type_ok g -> type_ok h -> show_header g = show_header h <-> g = h.
Proof. exact (header_tells g h). Qed.
Print Assumptions C97_header_tells.
(** Every record that is parsed from octets is such a record. *)
Theorem C97_parsed r m : bytes_ok (r_body r) -> parse_raw r = Ok m -> type_ok (mr_hdr m) /\ brief_ok (brief_of (mr_msg m)).
Proof.
  intros B H. unfold parse_raw in H. destruct (parse_mrt_body _ _ _) as [x|e|] eqn:E; [|discriminate H..]. cbn [rbind] in H. injection H as <-. exact (parsed_brief _ _ _ _ B E).
Qed.
Print Assumptions C97_parsed.

(** A route distinguisher is its eight octets in hexadecimal, between colons; [Debug] puts
    them in brackets. *)
Theorem C97_distinguisher d e : d < 2 ^ 64 -> e < 2 ^ 64 ->
  split_on 58 (show_rd d) = map hexadecimal (be 8 d) /\ debug_rd d = str "RD(" ++ show_rd d ++ str ")" /\ (show_rd d = show_rd e <-> d = e).
Proof. intros D E. refine (conj (rd_text d) (conj eq_refl _)). split; [apply rd_tells; assumption|intros ->; reflexivity]. Qed.
Print Assumptions C97_distinguisher.
(** A next hop is printed as its address, and just that: link-local addresses and
    distinguishers are left out; [Debug] tells all next hops apart. *)
Theorem C97_next_hop T m n : shows_ok T -> nh_ok m -> nh_ok n ->
  (show_hop T m = show_hop T n <-> nh_addr m = nh_addr n) /\ show_hop T m = sh_ip T (nh_addr m) /\ (debug_hop T m = debug_hop T n <-> m = n).
Proof.
  intros O M N. refine (conj (hop_tells T m n O M N) (conj _ (debug_hop_tells T m n O M N))). destruct m; reflexivity.
Qed.
Print Assumptions C97_next_hop.

(** Two records. *)
Definition ex_state : mrt_record :=
  MrtRecord (Hdr 1700000000 (Some 250) 17 5 0) (MrtBgp4mp (MpStateChange (MpState 5 64500 65000 3 (V4 0x0A000001) (V4 0x0A000002) StOpenConfirm StEstablished))).
Definition ex_rib : mrt_record :=
  MrtRecord (Hdr 5 None 13 2 0) (MrtV2 (V2Rib (Rib 2 7 (Pfx (Net (V4 0x0A010000) 16) None) []))).
Example C97_ex :
  show_record ex_shows ex_state = str "MRT|1700000000.000250|BGP4MP_ET|5|STATE_CHANGE|10.0.0.1|64500|OpenConfirm->Established" /\
  show_record ex_shows ex_rib = str "MRT|5|TABLE_DUMP_V2|2|RIB|RibIpv4Unicast|10.1.0.0/16|0 entries" /\
  show_header (mr_hdr ex_state) = str "MRT|1700000000.000250|BGP4MP_ET|5|0" /\ show_rd 0x0001AC1000FE0064 = str "00:01:ac:10:00:fe:00:64".
Proof. vm_compute. auto. Qed.
Example C97_ex_ok : shows_ok ex_shows /\ type_ok (mr_hdr ex_state) /\ brief_ok (brief_of (mr_msg ex_state)) /\ type_ok (mr_hdr ex_rib) /\ brief_ok (brief_of (mr_msg ex_rib)) /\
  nh_ok (NHVpn 1 2).
Proof.
  refine (conj C88_ex_shows _). unfold type_ok. cbn [ex_state ex_rib mr_hdr h_type mr_msg brief_of brief_ok]. repeat split; cbn; try tauto; lia.
Qed.
