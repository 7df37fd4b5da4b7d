(** C75-C79: text dumps of routing tables, their detection, and times in file names. *)
From Coq Require Import String Lia Floats.SpecFloat.
From Verif Require Import Tac Base BaseFacts Net AsPath Attr Elem Text Filter FilterFacts Utf8 TableDump TableDumpSpec TableDumpFacts Stream Framing FramingFacts MrtRecord Iter IterSpec IterFacts TextDump TextDumpSpec TextDumpFacts TextRowsFacts TextRouteFacts TextTimeFacts TextAutoFacts.
From Verif Require PropFilter PropIter.

(** C75.  Of a dump in the layout of [sh ip bgp] every route is read, with the prefix that stands
    in its line or above it, and every field as it is written; the router and its AS number are
    those of the preamble. *)
Theorem C75_dump ps ls c rows text t s : sane ps -> dump ps ls c rows text -> (length ls < 64)%nat -> no_fail s -> sbytes s = text ->
  parse_text_dump ps t s = Ok (said (router_of ls) (local_of ls) t None rows).
Proof. exact (dump_said ps ls c rows text t s). Qed.
Print Assumptions C75_dump.
(** The header on its own. *)
Theorem C75_header ps ls c rows text s : sane ps -> dump ps ls c rows text -> (length ls < 64)%nat -> no_fail s -> sbytes s = text ->
  exists h s', parse_header ps s = Ok (h, s') /\ th_columns h = Some c
    /\ th_version h = fold_left (fun o p => match p with PVersion v _ => Some v | _ => o end) ls None
    /\ th_router h = fold_left (fun o p => match p with PVersion _ i => Some i | _ => o end) ls None
    /\ th_as h = fold_left (fun o p => match p with PLocal a => Some a | _ => o end) ls None.
Proof.
  intros SA D N F B. destruct (dump_header ps ls c rows text SA D N) as (v & rls & rl & P & -> & _).
  pose proof (header_loop_ok ps 64 (TextHeader None None None None) s F) as H. rewrite B, P in H. destruct H as (s' & H & _).
  eexists _, s'. split; [exact H|]. cbn [th_columns th_version th_router th_as]. split; [reflexivity|]. split; [reflexivity|].
  split; [apply router_last|apply local_last].
Qed.
Print Assumptions C75_header.

(** Parsers for dotted addresses, and a dump. *)
Definition ex_quad (t : bytes) : option N :=
  match map parse_u32 (split_on 46 t) with
  | [Some a; Some b; Some c; Some d] => if (a <? 256) && (b <? 256) && (c <? 256) && (d <? 256) then Some (((a * 256 + b) * 256 + c) * 256 + d) else None
  | _ => None
  end.
Definition ex_ip (t : bytes) : option ip :=
  match t with [] => None | _ => if forallb addr_char t then match ex_quad t with Some a => Some (V4 a) | None => None end else None end.
Definition ex_net (t : bytes) : option ipnet :=
  match t with
  | [] => None
  | _ => if forallb addr_char t then
           match split_on 47 t with
           | [a; l] => match ex_quad a, parse_u32 l with Some a, Some l => if l <=? 32 then Some (Net (V4 a) l) else None | _, _ => None end
           | _ => None
           end
         else None
  end.
Definition ex_ps : parsers := Parsers ex_net ex_ip ex_quad (fun _ => None) (fun _ => None).
Lemma ex_sane : sane ex_ps.
Proof.
  split; intros t n; cbn [ps_net ps_ip ex_ps]; unfold ex_net, ex_ip; (destruct t as [|x t]; [discriminate|]); destruct (forallb addr_char (x :: t)) eqn:E; try discriminate; intros _; (split; [discriminate|reflexivity]).
Qed.
Definition nl : bytes := [10].
Definition ex_head : bytes := str "    Network          Next Hop            Metric LocPrf Weight Path".
Definition ex_text : bytes :=
  str "BGP table version is 42, local router ID is 192.0.2.1, vrf id 0" ++ nl ++
  str "Default local pref 100, local AS 3856" ++ nl ++
  str "Status codes:  s suppressed, d damped, h history, * valid, > best" ++ nl ++
  ex_head ++ [13; 10] ++
  str " *> 1.0.0.0/24       103.77.108.118           0    150      0 13335 64500 i" ++ nl ++
  str " *=                  103.77.108.11                          0 13335 { 64496 } ?" ++ nl ++
  str " *> 198.51.100.0/24" ++ nl ++
  str "                     10.0.0.9            1000000        32768 e" ++ nl ++
  str "Displayed  2 routes and 3 total paths".
Definition ex_cols : columns := Cols 21 41 48 55 62.
Definition ex_pre : list pre := [PVersion 42 (V4 3221225985); PLocal 3856; POther].
Definition ex_n1 : ipnet := Net (V4 16777216) 24.
Definition ex_n2 : ipnet := Net (V4 3325256704) 24.
Definition ex_rows : list row :=
  [RRoute (Route (Some ex_n1) (V4 1733127286) (Some 0) (Some 150) [HAs 13335; HAs 64500] (Some IGP));
   RRoute (Route None (V4 1733127179) None None [HAs 13335; HOpen; HAs 64496; HClose] (Some INCOMPLETE));
   RPrefix ex_n2;
   RRoute (Route None (V4 167772169) (Some 1000000) None [] (Some EGP));
   RSummary].

Lemma ex_words1 a w : words [w] (gap a ++ w).
Proof. rewrite <- (app_nil_r w) at 2. apply words_cons; [apply (words_nil 0)|left; reflexivity]. Qed.
Lemma ex_wordsS a w x ws t : words (x :: ws) (32 :: t) -> words (w :: x :: ws) (gap a ++ w ++ 32 :: t).
Proof. intros H. apply words_cons; [exact H|right; exists t; reflexivity]. Qed.
Lemma ex_field w a t f : f = gap a ++ t ++ gap (w - a - length t) -> length f = w -> field w t f.
Proof. intros -> L. exists a, (w - a - length t)%nat. auto. Qed.
Definition ex_l1 : bytes := str " *> 1.0.0.0/24       103.77.108.118           0    150      0 13335 64500 i".
Lemma occurs_no p l : has_text p l = false -> ~ occurs p l.
Proof. intros H O. apply has_text_iff in O. congruence. Qed.
Lemma ex_dump : dump ex_ps ex_pre ex_cols ex_rows ex_text.
Proof.
  exists [str "BGP table version is 42, local router ID is 192.0.2.1, vrf id 0"; str "Default local pref 100, local AS 3856"; str "Status codes:  s suppressed, d damped, h history, * valid, > best"], ex_head,
   [ex_l1; str " *=                  103.77.108.11                          0 13335 { 64496 } ?"; str " *> 198.51.100.0/24"; str "                     10.0.0.9            1000000        32768 e"; str "Displayed  2 routes and 3 total paths"].
  split; [|split; [|split]].
  - apply Forall2_cons; [|apply Forall2_cons; [|apply Forall2_cons; [|constructor]]].
    + split; [exists (str "Hop"); split; [left; reflexivity|apply occurs_no; reflexivity]|]. split; [reflexivity|]. exists (str "192.0.2.1"), (str " vrf id 0"). repeat split; reflexivity.
    + split; [exists (str "Hop"); split; [left; reflexivity|apply occurs_no; reflexivity]|]. split; [reflexivity|]. exists 100. reflexivity.
    + split; [exists (str "Hop"); split; [left; reflexivity|apply occurs_no; reflexivity]|]. split; [reflexivity|]. split; [|split; intros r; discriminate].
      vm_compute. intuition discriminate.
  - exists 4%nat, 9%nat, 11%nat, 0%nat, 0%nat, 0%nat. repeat split; reflexivity.
  - apply Forall2_cons; [|apply Forall2_cons; [|apply Forall2_cons; [|apply Forall2_cons; [|apply Forall2_cons; [|constructor]]]]].
    + split; [repeat constructor|]. split; [discriminate|].
      exists (str " *>"), (str " 1.0.0.0/24       "), (str "103.77.108.118"), (str "103.77.108.118      "), (str "0"), (str "     0 "), (str "150"), (str "   150 "), (str "     0 "), (str "13335 64500 i").
      split; [reflexivity|]. split; [split; reflexivity|]. split; [exists (str "1.0.0.0/24"); split; [reflexivity|apply (ex_field _ 1); reflexivity]|].
      split; [reflexivity|]. split; [apply (ex_field _ 0); reflexivity|]. split; [split; reflexivity|]. split; [apply (ex_field _ 5); reflexivity|].
      split; [split; reflexivity|]. split; [apply (ex_field _ 3); reflexivity|]. split; [reflexivity|]. split; [reflexivity|].
      exact (ex_wordsS 0 (str "13335") (str "64500") [str "i"] (str "64500 i") (ex_wordsS 1 (str "64500") (str "i") [] (str "i") (ex_words1 1 (str "i")))).
    + split; [repeat constructor|]. split; [discriminate|].
      exists (str " *="), (gap 18), (str "103.77.108.11"), (str "103.77.108.11       "), [], (gap 7), [], (gap 7), (str "     0 "), (str "13335 { 64496 } ?").
      split; [reflexivity|]. split; [split; reflexivity|]. split; [apply (ex_field _ 0); reflexivity|].
      split; [reflexivity|]. split; [apply (ex_field _ 0); reflexivity|]. split; [reflexivity|]. split; [apply (ex_field _ 0); reflexivity|].
      split; [reflexivity|]. split; [apply (ex_field _ 0); reflexivity|]. split; [reflexivity|]. split; [reflexivity|].
      exact (ex_wordsS 0 (str "13335") (str "{") [str "64496"; str "}"; str "?"] (str "{ 64496 } ?")
              (ex_wordsS 1 (str "{") (str "64496") [str "}"; str "?"] (str "64496 } ?")
                (ex_wordsS 1 (str "64496") (str "}") [str "?"] (str "} ?") (ex_wordsS 1 (str "}") (str "?") [] (str "?") (ex_words1 1 (str "?")))))).
    + exists (str " *>"), (str "198.51.100.0/24"), 1%nat, 0%nat. split; [split; reflexivity|]. split; [reflexivity|]. split; [reflexivity|]. cbn. lia.
    + split; [constructor|]. split; [discriminate|].
      exists (gap 3), (gap 18), (str "10.0.0.9"), (str "10.0.0.9            "), (str "1000000"), (str "1000000"), [], (gap 7), (str " 32768 "), (str "e").
      split; [reflexivity|]. split; [split; reflexivity|]. split; [apply (ex_field _ 0); reflexivity|].
      split; [reflexivity|]. split; [apply (ex_field _ 0); reflexivity|]. split; [split; reflexivity|]. split; [apply (ex_field _ 0); reflexivity|].
      split; [reflexivity|]. split; [apply (ex_field _ 0); reflexivity|]. split; [reflexivity|]. split; [reflexivity|].
      exact (ex_words1 0 (str "e")).
    + exists (str "  2 routes and 3 total paths"). split; reflexivity.
  - unfold ex_text, nl. apply lines_lf. apply lines_lf. apply lines_lf. apply lines_crlf. apply lines_lf. apply lines_lf. apply lines_lf. apply lines_lf. apply lines_last. discriminate.
Qed.
Definition ex_zero : f64 := S754_zero false.
Definition ex_said : list elem := said (V4 3221225985) 3856 ex_zero None ex_rows.
Example C75_ex : sane ex_ps /\ dump ex_ps ex_pre ex_cols ex_rows ex_text /\ (length ex_pre < 64)%nat
  /\ parse_text_dump ex_ps ex_zero [Data ex_text] = Ok ex_said /\ length ex_said = 3%nat
  /\ map (fun e => net_addr (p_net (e_prefix e))) ex_said = [V4 16777216; V4 16777216; V4 3325256704].
Proof. split; [exact ex_sane|]. split; [exact ex_dump|]. split; [cbn; lia|]. split; [vm_compute; reflexivity|]. split; vm_compute; reflexivity. Qed.

(** Near this layout it fails.  A route whose next hop is written one place to the left of its
    column, as [RShifted] routes are, is dropped when the next hop without its first digit is an
    address too (what [RShifted] excludes), and so are the further routes of its prefix. *)
Definition ex_doc (l : list string) : bytes := ex_head ++ nl ++ flat_map (fun x => str x ++ nl) l.
Definition hops (ps : parsers) (b : bytes) : res (list (prefix * option ip)) :=
  l <~ parse_text_dump ps ex_zero [Data b] ;; Ok (map (fun e => (e_prefix e, e_hop e)) l).
Theorem C75_shifted_hop_refuted : exists l1 l2 l3 l3',
  l1 = " *> 198.51.100.0/24"%string
  /\ l2 = "                    192.0.2.1                0             0 13335 i"%string
  /\ l3 = "                     10.0.0.9                0             0 13335 i"%string
  /\ l3' = "                    8.8.8.8                  0             0 13335 i"%string
  /\ hops ex_ps (ex_doc [l1; l2; l3]) = Ok [] /\ hops ex_ps (ex_doc [l1; l3'; l3]) = Ok [(Pfx ex_n2 None, Some (V4 134744072)); (Pfx ex_n2 None, Some (V4 167772169))].
Proof. eexists _, _, _, _. do 4 (split; [reflexivity|]). split; vm_compute; reflexivity. Qed.
Print Assumptions C75_shifted_hop_refuted.
(** A prefix alone on its line that is longer than its column is not seen: its routes are given to
    the prefix before. *)
Theorem C75_long_prefix_refuted : exists l1 l2 l3,
  l1 = " *> 1.0.0.0/24       103.77.108.118           0             0 13335 i"%string
  /\ l2 = " *> 198.151.100.248/32"%string
  /\ l3 = "                     103.77.108.11            0             0 64500 i"%string
  /\ ex_net (str "198.151.100.248/32") <> None
  /\ hops ex_ps (ex_doc [l1; l2; l3]) = Ok [(Pfx ex_n1 None, Some (V4 1733127286)); (Pfx ex_n1 None, Some (V4 1733127179))].
Proof. eexists _, _, _. do 3 (split; [reflexivity|]). split; [vm_compute; discriminate|]. vm_compute. reflexivity. Qed.
Print Assumptions C75_long_prefix_refuted.
(** A metric of eight digits or more, written to end at its column, reaches into the next hop: the
    route is dropped. *)
Theorem C75_metric_refuted : exists l,
  l = " *> 1.0.0.0/24       103.77.108.118  4294967295             0 13335 i"%string /\ hops ex_ps (ex_doc [l]) = Ok [].
Proof. eexists. split; [reflexivity|]. vm_compute. reflexivity. Qed.
Print Assumptions C75_metric_refuted.
(** With the flag for internal routes, in the fourth place, the prefix is unreadable: the route is
    dropped, and the routes that follow without a prefix too. *)
Theorem C75_internal_refuted : exists l1 l2,
  l1 = " *>i1.0.0.0/24       103.77.108.118           0    100      0 13335 i"%string
  /\ l2 = " * i                 103.77.108.11            0    100      0 13335 i"%string /\ hops ex_ps (ex_doc [l1; l2]) = Ok [].
Proof. eexists _, _. do 2 (split; [reflexivity|]). vm_compute. reflexivity. Qed.
Print Assumptions C75_internal_refuted.
(** The members of a set written without spaces, as routers write it, are lost. *)
Theorem C75_set_refuted : exists l e,
  l = " *> 1.0.0.0/24       103.77.108.118           0             0 13335 {64496,64497} i"%string
  /\ parse_text_dump ex_ps ex_zero [Data (ex_doc [l])] = Ok [e] /\ e_path e = Some [Seg KSeq [13335]] /\ e_origins e = Some [13335].
Proof. eexists _, _. split; [reflexivity|]. split; [vm_compute; reflexivity|]. split; reflexivity. Qed.
Print Assumptions C75_set_refuted.

(** C76.  The result depends on the octets of the source alone, however it delivers them; and
    a source of ASCII octets never makes the parser panic, even if it fails. *)
Theorem C76_pieces ps t s1 s2 : no_fail s1 -> no_fail s2 -> sbytes s1 = sbytes s2 -> parse_text_dump ps t s1 = parse_text_dump ps t s2.
Proof. intros F1 F2 B. rewrite !parse_text_dump_ok, B by assumption. reflexivity. Qed.
Print Assumptions C76_pieces.
Theorem C76_no_panic ps t s : Forall (fun b => b < 128) (sbytes s) -> parse_text_dump ps t s <> Panic.
Proof. exact (text_np ps t s). Qed.
Print Assumptions C76_no_panic.
Example C76_ex : let s := [Data (firstn 100 ex_text); Intr; Data (skipn 100 ex_text)] in
  no_fail s /\ sbytes s = sbytes [Data ex_text] /\ parse_text_dump ex_ps ex_zero s = Ok ex_said /\ Forall (fun b => b < 128) (sbytes s).
Proof.
  split; [intros [H|[H|[H|[]]]]; discriminate|]. split; [vm_compute; reflexivity|]. split; [vm_compute; reflexivity|].
  apply Forall_forall. intros x X. assert (K : forallb (fun b => b <? 128) (sbytes [Data (firstn 100 ex_text); Intr; Data (skipn 100 ex_text)]) = true) by (vm_compute; reflexivity).
  rewrite forallb_forall in K. apply K in X. apply N.ltb_lt. exact X.
Qed.
(** A letter of two octets across the column of the next hop panics. *)
Theorem C76_panic_refuted : exists b, utf8_ok b = true /\ parse_text_dump ex_ps ex_zero [Data b] = Panic.
Proof. exists (ex_head ++ nl ++ gap 20 ++ [195; 169] ++ nl). split; vm_compute; reflexivity. Qed.
Print Assumptions C76_panic_refuted.
(** A source that fails ends the elements without an error. *)
Theorem C76_failure_refuted : exists s, In Fail s /\ sbytes s = ex_text /\ parse_text_dump ex_ps ex_zero s = Ok (firstn 1 ex_said).
Proof. exists [Data (firstn 330 ex_text); Fail; Data (skipn 330 ex_text)]. split; [right; left; reflexivity|]. split; vm_compute; reflexivity. Qed.
Print Assumptions C76_failure_refuted.

(** C77.  The automatic constructor takes a source for a text dump exactly if what its first
    [read] returns begins with a visible character and shows, within 128 octets of UTF-8, one of
    three phrases.  It then gives the same as the text constructor, and else a parser that gives
    the same as [from_reader]: no octet is lost. *)
Theorem C77_text ps t s head : first_read s head -> textual head -> no_fail s ->
  from_auto_reader ps t s = from_text_reader ps (match t with Some x => x | None => S754_zero false end) s.
Proof. exact (auto_text ps t s head). Qed.
Print Assumptions C77_text.
Theorem C77_mrt ps t s head show : first_read s head -> ~ textual head -> no_fail s ->
  exists p, from_auto_reader ps t s = Ok p /\ record_list show p = record_list show (from_reader s) /\ frecord_list show p = frecord_list show (from_reader s)
    /\ raw_list p = raw_list (from_reader s)
    /\ exists n, forall fuel, (n <= fuel)%nat -> elem_list show fuel p = elem_list show fuel (from_reader s) /\ felem_list show fuel p = felem_list show fuel (from_reader s).
Proof.
  intros R T F. destruct (auto_mrt ps t s head R T F) as (s' & E & B & F'). exists (from_reader s'). split; [exact E|]. apply same_records; assumption.
Qed.
Print Assumptions C77_mrt.
(** A first read that is not an error returns something, so one of the two applies. *)
Theorem C77_first s : ~ In Intr s -> no_fail s -> exists head, first_read s head /\ (textual head \/ ~ textual head).
Proof.
  intros I F. assert (X : exists head, first_read s head).
  { induction s as [|e s IH]; [exists []; constructor|]. destruct e as [l| |]; [|exfalso; apply I; left; reflexivity|exfalso; apply F; left; reflexivity].
    destruct l as [|x l]; [|eexists; apply fr_data; discriminate]. destruct IH as [h H]; [intros K; apply I; right; exact K|intros K; apply F; right; exact K|]. exists h. constructor. exact H. }
  destruct X as [head H]. exists head. split; [exact H|]. destruct (looks_like_text head) eqn:E; [left; apply looks_iff; exact E|right; intros K; apply looks_iff in K; congruence].
Qed.
Print Assumptions C77_first.
Example C77_ex : first_read [Data ex_text] (firstn 256 ex_text) /\ textual (firstn 256 ex_text)
  /\ from_auto_reader ex_ps None [Data ex_text] = Ok (Parser [] [] false (Some ex_said) None)
  /\ first_read [Data PropIter.ex_bytes] (firstn 256 PropIter.ex_bytes) /\ ~ textual (firstn 256 PropIter.ex_bytes)
  /\ exists p l, from_auto_reader ex_ps None [Data PropIter.ex_bytes] = Ok p /\ record_list PropFilter.show_nothing p = Ok l /\ length l <> 0%nat.
Proof.
  split; [apply fr_data; discriminate|]. split; [apply looks_iff; vm_compute; reflexivity|]. split; [vm_compute; reflexivity|]. split; [apply fr_data; discriminate|].
  split; [intros K; apply looks_iff in K; vm_compute in K; discriminate|]. eexists _, _. split; [vm_compute; reflexivity|]. split; [vm_compute; reflexivity|]. discriminate.
Qed.
(** What the first read returns is up to the source: with the same octets in other pieces a text
    dump is not seen, and an interrupted read, which is not an end, is an error. *)
Theorem C77_pieces_refuted : exists s1 s2 s3, no_fail s1 /\ no_fail s2 /\ no_fail s3 /\ sbytes s1 = sbytes s2 /\ sbytes s1 = sbytes s3
  /\ from_auto_reader ex_ps None s1 = Ok (Parser [] [] false (Some ex_said) None)
  /\ (exists p, from_auto_reader ex_ps None s2 = Ok p /\ pr_text p = None /\ record_list PropFilter.show_nothing p = Ok [])
  /\ from_auto_reader ex_ps None s3 = Err EIo.
Proof.
  exists [Data ex_text], [Data (firstn 8 ex_text); Data (skipn 8 ex_text)], [Intr; Data ex_text].
  split; [intros [H|[]]; discriminate|]. split; [intros [H|[H|[]]]; discriminate|]. split; [intros [H|[H|[]]]; discriminate|].
  split; [vm_compute; reflexivity|]. split; [vm_compute; reflexivity|]. split; [vm_compute; reflexivity|]. split; [|vm_compute; reflexivity].
  eexists. split; [vm_compute; reflexivity|]. split; vm_compute; reflexivity.
Qed.
Print Assumptions C77_pieces_refuted.
(** An MRT file can be taken for a text dump: an index of peers for the view [BGP table], with a
    time whose first octet is a visible character, as now. *)
Definition ex_view : mrt_record := MrtRecord (Hdr 0x6A000001 None 13 1 0) (MrtV2 (V2Peers (PeerTable 0x0A000001 (str "BGP table") [] []))).
Theorem C77_view_refuted : exists b, b = PropIter.enc ex_view /\ (exists r, record_list PropFilter.show_nothing (from_reader [Data b]) = Ok [r])
  /\ from_auto_reader ex_ps None [Data b] = Err EIo.
Proof. eexists. split; [reflexivity|]. split; [eexists; vm_compute; reflexivity|vm_compute; reflexivity]. Qed.
Print Assumptions C77_view_refuted.
(** A text dump whose 128th and 129th octets make one letter is not seen. *)
Theorem C77_cut_refuted : exists b, utf8_ok b = true /\ occurs (str "BGP table") (firstn 50 b) /\ ~ textual b.
Proof.
  exists (str "BGP table version is 42" ++ repeat 46 104 ++ [195; 169]). split; [vm_compute; reflexivity|]. split; [apply has_text_iff; vm_compute; reflexivity|].
  intros K. apply looks_iff in K. vm_compute in K. discriminate.
Qed.
Print Assumptions C77_cut_refuted.

(** C78.  The time in a file name: that of the first valid [YYYY-MM-DD-HHMM] not preceded by a digit;
    if there is none, noon of the first [YYYY.MM.DD], if that is a valid date. *)
Theorem C78_time path x : infer_timestamp path = Some x <->
  (exists a y m d hh mm, dashed_at path a y m d hh mm /\ (forall a' y' m' d' hh' mm', (a' < a)%nat -> ~ dashed_at path a' y' m' d' hh' mm') /\ at_time y m d hh mm x)
  \/ ((forall a y m d hh mm, ~ dashed_at path a y m d hh mm)
      /\ exists a y m d, dotted_at path a y m d /\ (forall a' y' m' d', (a' < a)%nat -> ~ dotted_at path a' y' m' d') /\ at_time y m d 12 0 x).
Proof. exact (infer_ok path x). Qed.
Print Assumptions C78_time.
(** Every valid date has exactly one number, and no other triple has one. *)
Theorem C78_calendar y m d : (date y m d <-> exists n, day_number (y, m, d) n) /\ (forall n n', day_number (y, m, d) n -> day_number (y, m, d) n' -> n = n').
Proof.
  split.
  - split; [intros D; exists (days_since_epoch y m d); apply day_number_ok; auto|intros (n & D); apply day_number_ok in D; tauto].
  - intros n n' D D'. apply day_number_ok in D as [_ ->]. apply day_number_ok in D' as [_ ->]. reflexivity.
Qed.
Print Assumptions C78_calendar.
Example C78_ex : infer_timestamp (str "oix-full-snapshot-2024-02-29-2200.bz2") = Some (f64_of_N 1709244000)
  /\ infer_timestamp (str "route-collector.sea.pch.net-ipv4_bgp_routes.2026.11.16.gz") = Some (f64_of_N 1794830400)
  /\ infer_timestamp (str "2023-02-29-2200.bz2") = None /\ day_number (2024, 2, 29) 19782.
Proof. split; [vm_compute; reflexivity|]. split; [vm_compute; reflexivity|]. split; [vm_compute; reflexivity|]. apply day_number_ok. split; [apply date_iff|]; vm_compute; reflexivity. Qed.
(** An invalid dotted date hides a valid one after it; and digits before it are no obstacle. *)
Theorem C78_hidden_refuted : infer_timestamp (str "0000.00.00/routes.2026.11.16.gz") = None
  /\ infer_timestamp (str "build-12026.11.16.gz") = Some (f64_of_N 1794830400).
Proof. split; vm_compute; reflexivity. Qed.
Print Assumptions C78_hidden_refuted.

(** C79.  Every element read from any source, whatever it contains and even if it fails, is the announcement
    of a route: with the given time, the same router throughout, one sequence as path whose
    last AS is the only origin, and a prefix and next hop that stand in the text. *)
Theorem C79_elements ps t s l : parse_text_dump ps t s = Ok l -> exists pi pa, Forall (from_text ps (sbytes s) pi pa t) l.
Proof. exact (text_shape ps t s l). Qed.
Print Assumptions C79_elements.
Example C79_ex : exists s l, In Fail s /\ parse_text_dump ex_ps ex_zero s = Ok l /\ length l = 1%nat.
Proof. exists [Data (firstn 330 ex_text); Fail; Data (skipn 330 ex_text)]. eexists. split; [right; left; reflexivity|]. split; vm_compute; reflexivity. Qed.
