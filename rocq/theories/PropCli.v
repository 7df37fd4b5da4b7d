(** C91: the command line tool. *)
From Coq Require Import Lia ZifyBool ZifyNat ZifyN String Floats.SpecFloat.
From Verif Require Import Base BaseFacts Net NetSpec AsPath Community Attr Elem Text TextDump Stream Framing TableDump MrtRecord Filter FilterSpec PropFilter Iter IterSpec IterFacts PropIter Psv PsvSpec RisLiveSpec
  F64Facts Recovery RecoverySpec Cli CliSpec CliFacts CliRunFacts.
From Verif Require RisLive RisLiveFacts CliExprFacts.
Local Open Scope string_scope. Local Open Scope list_scope. Local Open Scope N_scope.

(** ** The format *)
(** [--pretty] is stronger than [--json], this than [--psv], and each than [--format]. *)
Theorem C91_format o : (o_pretty o = true -> chosen_format o = FmtPretty) /\ (o_pretty o = false -> o_json o = true -> chosen_format o = FmtJson) /\
  (o_pretty o = false -> o_json o = false -> o_psv o = true -> chosen_format o = FmtPsv) /\
  (o_pretty o = false -> o_json o = false -> o_psv o = false -> chosen_format o = o_format o).
Proof. unfold chosen_format. destruct (o_pretty o), (o_json o), (o_psv o); repeat split; intros; first [reflexivity|discriminate]. Qed.
Print Assumptions C91_format.

(** ** The filters *)
(** Options that make no sense: nothing is printed, and the process fails. *)
Theorem C91_refused show P ps o src fuel ws : texts_read P ps -> opts_ok o -> ~ accepted show ps o -> refused (main show P ps o src fuel ws).
Proof. exact (refused_run show P ps o src fuel ws). Qed.
Print Assumptions C91_refused.
(** An expression with [=] asks what the keyword and the value ask; blanks may stand around them. *)
Theorem C91_is show ps a b c d k v P : edged v -> (forall x y, v <> x ++ str "!=" ++ y) -> asks show ps k v P ->
  says show ps (expr a b c d (str k) (str "=") v) P.
Proof. exact (CliExprFacts.says_equal show ps a b c d k v P). Qed.
Print Assumptions C91_is.
(** One with [!=] asks the contrary: for a value, for a list of values, and for presence. *)
Theorem C91_is_not show ps a b c d k v P : single show ps k v P -> edged v -> hd_error v <> Some 33 -> (v = str "*" -> forall Q, ~ starred k Q) ->
  ~ In k ["ts_start"; "start_ts"; "ts_end"; "end_ts"] -> says show ps (expr a b c d (str k) (str "!=") v) (fun e => ~ P e).
Proof. exact (CliExprFacts.differs_single show ps a b c d k v P). Qed.
Print Assumptions C91_is_not.
Theorem C91_none_of show ps a b c d k ts P : ts <> [] -> Forall part_ok ts -> listed ps k (join [44] ts) false P ->
  says show ps (expr a b c d (str k) (str "!=") (join [44] ts)) (fun e => ~ P e).
Proof. exact (CliExprFacts.differs_list show ps a b c d k ts P). Qed.
Print Assumptions C91_none_of.
Theorem C91_absent show ps a b c d k P : starred k P -> says show ps (expr a b c d (str k) (str "!=") (str "*")) (fun e => ~ P e).
Proof. exact (CliExprFacts.differs_star show ps a b c d k P). Qed.
Print Assumptions C91_absent.
(** What an expression asks is one thing. *)
Theorem C91_one_meaning show ps x P Q e : says show ps x P -> says show ps x Q -> (P e <-> Q e).
Proof. exact (says_same show ps x P Q e). Qed.
Print Assumptions C91_one_meaning.
(** Whole seconds are themselves. *)
Theorem C91_whole_times n x : n < 2 ^ 32 -> (instant (f64_of_N n) x <-> x = f64_of_N n).
Proof. exact (whole_instant n x). Qed.
Print Assumptions C91_whole_times.
(** Any other finite number of seconds, before or after 1970, means its whole part, if that
    is a second of the years -262143 to 262142. *)
Theorem C91_times s m e x : instant (S754_finite s m e) x <->
  exists z, whole_part s m e z /\ (-8334601228800 <= z <= 8210266876799)%Z /\ x = f64_of_Z z.
Proof. exact (finite_instant s m e x). Qed.
Print Assumptions C91_times.
Example C91_ex_times : whole_part true 7 (-1) (-3) /\ instant (S754_finite true 7 (-1)) (f64_of_Z (-3)).
Proof. unfold whole_part. cbn. split; [lia|]. exists (-3)%Z. split; reflexivity. Qed.

(** ** What is printed *)
(** Elements, or their number: those of the source that are wanted, in their order; nothing
    else, and success. *)
Theorem C91_elements show P ps o s text ws : texts_read P ps -> opts_ok o -> accepted show ps o -> elem_run o -> o_recover o = false -> good ws ->
  exists n all kept, picks (wanted show ps o) all kept /\ forall fuel, (n <= fuel)%nat -> elem_list show fuel (plain s text) = Ok all /\
  let r := main show P ps o (Some (s, text)) fuel ws in
  printed r = text_of (if o_elems o then [str "total elems: " ++ dec (nlen kept)] else elem_lines P (chosen_format o) kept) /\ x_err r = [] /\ x_end r = Exit 0.
Proof. exact (elements_run show P ps o s text ws). Qed.
Print Assumptions C91_elements.
(** Records. *)
Theorem C91_records show P ps o s ws : texts_read P ps -> opts_ok o -> accepted show ps o -> record_run o -> o_recover o = false -> good ws ->
  exists all kept, record_list show (plain s None) = Ok all /\ picks (wanted_record show ps o) (annotate None all) kept /\ forall fuel,
  let r := main show P ps o (Some (s, None)) fuel ws in
  printed r = text_of (map (fun x => pt_record P (chosen_format o) (snd x) None) kept) /\ x_err r = [] /\ x_end r = Exit 0.
Proof.
  intros T K A R C G. destruct (records_run show P ps o s T K A (or_introl R) C) as (all & kept & L & Pk & _ & M). exists all, kept. split; [exact L|]. split; [exact Pk|]. intros fuel. cbv zeta. rewrite M.
  destruct (records_outcome P o false (map (fun e => inl (Item e)) (map snd kept)) ws R G) as (O1 & O2 & O3). rewrite closing_plain, gaps_inl, items_inl in *. rewrite <- (map_map snd (fun r => pt_record P (chosen_format o) r None)). auto.
Qed.
Print Assumptions C91_records.
(** Their numbers, and the number of the elements in them. *)
Theorem C91_counts show P ps o s ws : texts_read P ps -> opts_ok o -> accepted show ps o -> count_run o -> o_recover o = false -> good ws ->
  exists all kept, record_list show (plain s None) = Ok all /\ picks (wanted_record show ps o) (annotate None all) kept /\ forall fuel,
  let r := main show P ps o (Some (s, None)) fuel ws in
  printed r = text_of (total_lines o (nlen kept) (nlen (flat_map elems_of kept))) /\ x_err r = [] /\ x_end r = Exit 0.
Proof.
  intros T K A R C G. destruct (records_run show P ps o s T K A (or_intror R) C) as (all & kept & L & Pk & An & M). exists all, kept. split; [exact L|]. split; [exact Pk|]. intros fuel. cbv zeta. rewrite M.
  destruct (counts_outcome P o false (map (fun e => inl (Item e)) (map snd kept)) ws R G) as (O1 & O2 & O3). rewrite closing_plain, gaps_inl, items_inl, An in *. assert (Z : nlen (map snd kept) = nlen kept) by (unfold nlen; rewrite map_length; reflexivity). rewrite Z in O1. auto.
Qed.
Print Assumptions C91_counts.
(** Records with the hexadecimal text of the bytes they were read from. *)
Theorem C91_hex show P ps o s ws : texts_read P ps -> opts_ok o -> accepted show ps o -> hex_run o -> bytes_ok (sbytes s) -> good ws ->
  exists all kept l raws lines, record_list show (plain s None) = Ok all /\ picks (wanted_record show ps o) (annotate None all) kept /\
  map snd l = map snd kept /\ Forall (fun x => parse_raw (fst x) = Ok (snd x)) l /\ raw_list (plain s None) = Ok raws /\ subseq (map fst l) raws /\
  Forall2 (fun x t => exists h, hex_text h (raw_bytes (fst x)) /\ t = pt_record P (chosen_format o) (snd x) (Some h)) l lines /\
  forall fuel, let r := main show P ps o (Some (s, None)) fuel ws in printed r = text_of lines /\ x_err r = [] /\ x_end r = Exit 0.
Proof.
  intros T K A R B G. destruct (hex_runs show P ps o s T K A R B) as (all & kept & l & raws & H1 & H2 & H3 & H4 & H5 & H6 & H7 & M).
  exists all, kept, l, raws, (map (fun x => pt_record P (chosen_format o) (snd x) (Some (hex_encode (raw_bytes (fst x))))) l). repeat (split; [assumption|]). split.
  - clear -H7. induction H7 as [|x l H F IH]; cbn [map]; constructor; [|exact IH]. eexists. split; [exact H|reflexivity].
  - intros fuel. cbv zeta. rewrite M, run_hex_play, play_good by auto. unfold printed. cbn [x_out x_err x_end]. destruct (hex_writes P (chosen_format o) l) as [-> ->]. auto.
Qed.
Print Assumptions C91_hex.
(** With recovery: what recovery finds, and on standard error every gap, the sum of them, and
    the error that ended it, which makes the process fail. *)
Theorem C91_recovered_elements show P ps o s ws : texts_read P ps -> opts_ok o -> accepted show ps o -> elem_run o -> o_recover o = true -> good ws ->
  exists n all kept, recovered show (plain s None) default_config = Ok all /\ picks (wanted show ps o) (flat_map elems_of (annotate None (items all))) kept /\ forall fuel, (n <= fuel)%nat ->
  let r := main show P ps o (Some (s, None)) fuel ws in
  printed r = text_of (if o_elems o then [str "total elems: " ++ dec (nlen kept)] else elem_lines P (chosen_format o) kept) /\ x_err r = report all /\ x_end r = ending_of all.
Proof. exact (recover_elems_run show P ps o s ws). Qed.
Print Assumptions C91_recovered_elements.
Theorem C91_recovered_records show P ps o s ws : texts_read P ps -> opts_ok o -> accepted show ps o -> record_run o \/ count_run o -> o_recover o = true -> good ws ->
  exists all kept, recovered show (plain s None) default_config = Ok all /\ picks (wanted_record show ps o) (annotate None (items all)) kept /\ forall fuel,
  let r := main show P ps o (Some (s, None)) fuel ws in
  printed r = text_of (if o_elems o || o_records o then total_lines o (nlen kept) (nlen (flat_map elems_of kept)) else map (fun x => pt_record P (chosen_format o) (snd x) None) kept) /\
  x_err r = report all /\ x_end r = ending_of all.
Proof.
  intros T K A R C G. destruct (recover_records_run show P ps o s T K A R C) as (all & kept & evs & L & Pk & An & I & Rp & En & M). exists all, kept. split; [exact L|]. split; [exact Pk|]. intros fuel. cbv zeta. rewrite M.
  destruct (closing_report evs) as [C1 C2]. destruct R as [R|R].
  - destruct (records_outcome P o true evs ws R G) as (O1 & O2 & O3). rewrite C1 in O2. rewrite C2 in O3. rewrite I in O1. rewrite <- (map_map snd (fun r => pt_record P (chosen_format o) r None)). destruct R as (E & R & _). rewrite E, R in *. cbn [orb]. rewrite O1, O2, O3. auto.
  - destruct (counts_outcome P o true evs ws R G) as (O1 & O2 & O3). rewrite C1 in O2. rewrite C2 in O3. rewrite I, An in O1. assert (Z : nlen (map snd kept) = nlen kept) by (unfold nlen; rewrite map_length; reflexivity). rewrite Z in O1.
    replace (o_elems o || o_records o)%bool with true by (destruct R as [-> |[-> _]]; [symmetry; apply orb_true_r|reflexivity]). rewrite O1, O2, O3. auto.
Qed.
Print Assumptions C91_recovered_records.
(** Hexadecimal texts are refused where they cannot be given. *)
Theorem C91_hex_refused show P ps o s text fuel ws : texts_read P ps -> opts_ok o -> accepted show ps o -> o_hex o = true -> o_elems o = false -> o_records o = false ->
  (~ In (chosen_format o) [FmtJson; FmtPretty; FmtText] \/ o_recover o = true) -> refused (main show P ps o (Some (s, text)) fuel ws).
Proof.
  intros T K A H E R C. destruct (ready show P ps o T K A) as (fs & B & _). unfold main. rewrite B. cbv zeta. rewrite H, E, R. cbn [orb andb negb].
  assert (Z : forall p, refused (quit p)) by (intros p; split; [reflexivity|right; split; [reflexivity|exists p; reflexivity]]).
  destruct C as [C|C].
  - destruct (chosen_format o); try apply Z; destruct C; cbn; tauto.
  - rewrite C. destruct (match chosen_format o with FmtJson | FmtPretty | FmtText => false | _ => true end); apply Z.
Qed.
Print Assumptions C91_hex_refused.
(** A sink that closes ends the process quietly, after what it took; one that fails, with an error.
    Until then the output does not depend on it. *)
Theorem C91_sink_fails show P ps o src fuel ws k w : o_elems o = false -> o_records o = false -> fails_at ws k w ->
  let full := main show P ps o src fuel [] in let r := main show P ps o src fuel ws in
  (k < length (x_out full))%nat -> x_out r = firstn k (x_out full) /\ exists gs,
  (w = WPipe -> x_err r = map NGap gs /\ x_end r = Exit 0) /\ (w = WFail -> x_err r = map NGap gs ++ [NProblem WriteFailed] /\ x_end r = Exit 1).
Proof. exact (sink_fails show P ps o src fuel ws k w). Qed.
Print Assumptions C91_sink_fails.
Theorem C91_sink_ok show P ps o src fuel ws : o_elems o = false -> o_records o = false ->
  let full := main show P ps o src fuel [] in (forall j, (j < length (x_out full))%nat -> nth j ws WOk = WOk) -> main show P ps o src fuel ws = full.
Proof. exact (sink_ok show P ps o src fuel ws). Qed.
Print Assumptions C91_sink_ok.

(** ** A case *)
(** Text forms that can be read back: hexadecimal. *)
Definition ex_ip (i : ip) : bytes := hex_encode match i with V4 n => be 4 n | V6 n => be 16 n end.
Definition ex_read_ip (s : bytes) : option ip :=
  match RisLive.hex_decode s with
  | Some b => if Nat.eqb (length b) 4 then Some (V4 (be_val b)) else if Nat.eqb (length b) 16 then Some (V6 (be_val b)) else None
  | None => None
  end.
Definition ex_net (n : ipnet) : bytes := hex_encode (net_len n :: match net_addr n with V4 a => be 4 a | V6 a => be 16 a end).
Definition ex_read_net (s : bytes) : option ipnet :=
  match RisLive.hex_decode s with
  | Some (k :: b) => if Nat.eqb (length b) 4 then Some (Net (V4 (be_val b)) k) else if Nat.eqb (length b) 16 then Some (Net (V6 (be_val b)) k) else None
  | _ => None
  end.
Definition ex_float (t : f64) : bytes :=
  hex_encode match t with
  | S754_zero s => [1; if s then 1 else 0]
  | S754_infinity s => [2; if s then 1 else 0]
  | S754_nan => [3]
  | S754_finite s m e => [4; if s then 1 else 0] ++ be 2 (Z.to_N (e + 1074)) ++ be 7 (Npos m)
  end.
Definition ex_read_float (s : bytes) : option f64 :=
  match RisLive.hex_decode s with
  | Some [1; s] => Some (S754_zero (s =? 1))
  | Some [2; s] => Some (S754_infinity (s =? 1))
  | Some [3] => Some S754_nan
  | Some (4 :: s :: a :: b :: l) => match be_val l with Npos m => Some (S754_finite (s =? 1) m (Z.of_N (be_val [a; b]) - 1074)) | _ => None end
  | _ => None
  end.
Definition ex_printers : printers :=
  Printers ex_net (Shows ex_float (fun _ => []) ex_ip) (fun e => str "j" ++ dec (e_asn e)) (fun e => str "p" ++ dec (e_asn e)) (fun _ r h => match h with Some t => t | None => dec (h_type (mr_hdr r)) end).
Definition ex_parsers : parsers :=
  Parsers ex_read_net ex_read_ip (fun _ => None) (fun _ => None) (parse_time ex_read_float (fun _ => None)).
Lemma ex_decode b : bytes_ok b -> RisLive.hex_decode (hex_encode b) = Some b.
Proof. intros B. apply RisLiveFacts.hex_iff, hex_encoded, B. Qed.
Lemma ex_digits b : Forall (fun x => 48 <= x <= 57 \/ 97 <= x) (hex_encode b).
Proof.
  induction b as [|x b IH]; cbn [hex_encode flat_map app]; [constructor|]. assert (D : forall n, 48 <= low_digit n <= 57 \/ 97 <= low_digit n) by (intros n; unfold low_digit; destruct (N.ltb_spec n 10); lia).
  constructor; [apply D|]. constructor; [apply D|exact IH].
Qed.
Lemma ex_clear b : b <> [] -> clear (hex_encode b) /\ ~ In 44 (hex_encode b) /\ ~ In 32 (hex_encode b).
Proof.
  intros Ne. pose proof (ex_digits b) as D. rewrite Forall_forall in D. split; [|split; intros I; specialize (D _ I); lia].
  destruct b as [|x b]; [congruence|]. cbn [hex_encode flat_map app] in *. split; [discriminate|]. intros H. cbn in H. injection H as H. specialize (D 33 (or_introl H)). lia.
Qed.
Lemma ex_finite s m e : binary64 (S754_finite s m e) -> (-1074 <= e <= 971)%Z /\ Npos m < 2 ^ 53.
Proof.
  unfold binary64, valid_binary, bounded, canonical_mantissa, fexp, emin. rewrite digits_size. intros H. pose proof (size_bounds m) as [_ B]. apply andb_true_iff in H as [H1 H2]. apply Zeq_bool_eq in H1. apply Z.leb_le in H2.
  assert (Z.pos m < 2 ^ 53)%Z; [|lia]. apply (Z.lt_le_trans _ _ _ B). apply Z.pow_le_mono_r; lia.
Qed.
Example C91_ex_texts : texts_read ex_printers ex_parsers.
Proof.
  split; [|split].
  - intros [i k] [I L]. cbn [pt_net ps_net ex_printers ex_parsers net_addr net_len] in *. unfold ex_net, ex_read_net. cbn [net_addr net_len].
    assert (K : k < 256) by (destruct i; cbn [net_width] in L; lia). split.
    + rewrite ex_decode by (constructor; [exact K|destruct i; apply be_ok]). destruct i as [n|n]; cbn [ip_ok] in I; rewrite be_length; cbn [Nat.eqb]; rewrite be_val_be_small by (cbn; lia); reflexivity.
    + apply ex_clear. discriminate.
  - intros i I. cbv zeta. cbn [pt_shows sh_ip ps_ip ex_printers ex_parsers]. unfold ex_ip, ex_read_ip. split.
    + rewrite ex_decode by (destruct i; apply be_ok). destruct i as [n|n]; cbn [ip_ok] in I; rewrite be_length; cbn [Nat.eqb]; rewrite be_val_be_small by (cbn; lia); reflexivity.
    + apply ex_clear. destruct i as [n|n]; intros E; apply (f_equal (@length N)) in E; rewrite be_length in E; discriminate.
  - exists ex_read_float, (fun _ => None). split; [reflexivity|]. intros t B. cbn [pt_shows sh_time ex_printers]. unfold ex_float, ex_read_float. split.
    + rewrite ex_decode; [|destruct t as [s|s| |s m e]; try (apply bytes_okb_spec; try destruct s; reflexivity); (constructor; [reflexivity|constructor; [destruct s; reflexivity|apply Forall_app; split; apply be_ok]])].
      destruct t as [s|s| |s m e]; [destruct s; reflexivity|destruct s; reflexivity|reflexivity|]. destruct (ex_finite s m e B) as [E M].
      assert (L : length (be 2 (Z.to_N (e + 1074))) = 2%nat) by apply be_length. pose proof (be_val_be_small 2 (Z.to_N (e + 1074)) ltac:(cbn; lia)) as V. destruct (be 2 _) as [|a [|b [|c l]]]; try discriminate L.
      cbn [app]. rewrite be_val_be_small by (cbn; lia). rewrite V. destruct s; cbn [N.eqb]; do 2 f_equal; lia.
    + apply ex_clear. destruct t; discriminate.
Qed.
Definition ex_none : opts := Opts FmtDefault LevelElems false false false false false false false None [] None false false false false [] None None None None None None.
Definition ex_json (x : list bytes) : opts := Opts FmtPsv LevelElems true false false false false false false None x None false false false false [] None None None None None None.
Definition ex_level (lv : level) (hex elems records : bool) (a : option N) : opts := Opts FmtJson lv false false false hex elems records false None [] None false false false false [] a None None None None None.
Definition ex_recover (lv : level) : opts := Opts FmtJson lv false false false false false false true None [] None false false false false [] None None None None None None.
Definition ex_source : option (stream * option (list elem)) := Some (pr_stream (ex_parser [] false), None).
Definition ex_main (o : opts) (ws : list wout) : result := main show_nothing ex_printers ex_parsers o ex_source 30 ws.
(** The hypotheses are met, for a value not wanted, with blanks around. *)
Example C91_ex_elements : opts_ok (ex_json [str " peer_asn != 64502 "]) /\ accepted show_nothing ex_parsers (ex_json [str " peer_asn != 64502 "]) /\ elem_run (ex_json [str " peer_asn != 64502 "]) /\
  ex_main (ex_json [str " peer_asn != 64502 "]) [] = Result [str "j64500"; str "j400000"; str "j400000"] [] (Exit 0).
Proof.
  split; [repeat split; constructor|]. split; [|split; [split; [discriminate|auto]|vm_compute; reflexivity]].
  refine (conj _ (conj _ (conj _ (conj _ (conj _ (conj _ _)))))); try (intros v H; discriminate H).
  - intros x [<-|[]]. eexists. apply (C91_is_not show_nothing ex_parsers 1 1 1 1 "peer_asn" (str "64502") (fun e => e_asn e = 64502)).
    + constructor. reflexivity.
    + apply CliExprFacts.solid_edged; [discriminate|split; reflexivity].
    + discriminate.
    + discriminate.
    + cbn. intuition discriminate.
  - intros [H _]. discriminate.
Qed.
Example C91_ex_records : opts_ok (ex_level LevelRecords false false false (Some 400000)) /\ accepted show_nothing ex_parsers (ex_level LevelRecords false false false (Some 400000)) /\
  record_run (ex_level LevelRecords false false false (Some 400000)) /\ ex_main (ex_level LevelRecords false false false (Some 400000)) [] = Result [str "13"; str "17"; str "17"] [] (Exit 0).
Proof.
  split; [repeat split; try constructor; reflexivity|]. split; [|split; [repeat split; auto|vm_compute; reflexivity]].
  refine (conj _ (conj _ (conj _ (conj _ (conj _ (conj _ _)))))); try (intros v H; discriminate H). - intros x []. - intros [H _]. discriminate.
Qed.
Example C91_ex_hex : hex_run (ex_level LevelElems true false false None) /\ bytes_ok (sbytes (pr_stream (ex_parser [] false))) /\
  map (firstn 24) (x_out (ex_main (ex_level LevelElems true false false None) [])) = map str ["00000007000d00010000002f"; "00000007000d00020000003a"; "6553f1000011000400000035"; "6553f1000011000400000035"].
Proof. split; [repeat split; left; reflexivity|]. split; [apply bytes_okb_spec; vm_compute; reflexivity|vm_compute; reflexivity]. Qed.
Example C91_ex_recover : elem_run (ex_recover LevelElems) /\ record_run (ex_recover LevelRecords) /\
  ex_main (ex_recover LevelElems) [] = Result [str "j64502"; str "j64500"] [NGap (RGap 129 305 EUnsup EndOfStream 0); NSummary 1 176] (Exit 0).
Proof. split; [split; [discriminate|auto]|]. split; [repeat split; auto|]. vm_compute. reflexivity. Qed.
Example C91_ex_sink : fails_at [WOk; WPipe] 1 WPipe /\ ex_main (ex_json []) [WOk; WPipe] = Result [str "j64502"] [] (Exit 0) /\
  ex_main (ex_json []) [WOk; WFail] = Result [str "j64502"] [NProblem WriteFailed] (Exit 1).
Proof. split; [split; [discriminate|split; [reflexivity|intros [|j] J; [reflexivity|lia]]]|]. split; vm_compute; reflexivity. Qed.
Example C91_ex_list : listed ex_parsers "peer_asns" (join [44] [str "1"; str "2"]) false (fun e => In (e_asn e) [1; 2]) /\ Forall part_ok [str "1"; str "2"] /\ starred "otc" (fun e => present (e_otc e)).
Proof.
  split; [constructor; [discriminate|]; vm_compute; constructor; [|constructor; [|constructor]]; eexists; (split; [|split; [reflexivity|discriminate]]); reflexivity|].
  split; [|constructor]. assert (P : forall c, 48 <= c < 58 -> part_ok [c]) by (intros c H; split; [discriminate|]; constructor; [unfold blank; lia|constructor]).
  constructor; [apply P; split; [discriminate|reflexivity]|]. constructor; [apply P; split; [discriminate|reflexivity]|constructor].
Qed.

(** ** Findings *)
(** The fraction of a time is dropped: an element before the end asked for is not printed. *)
Definition ex_at (s q : N) : f64 := f64_div (f64_of_N (4 * s + q)) (f64_of_N 4).
Definition ex_end (t : f64) : opts := Opts FmtJson LevelElems false false false false true false false None [] None false false false false [] None None None (Some t) None None.
Definition ex_timed (t : f64) : elem := Elem t Announce (V4 0) 1 None (Pfx (Net (V4 0) 0) None) None None None None None None None false None None None None None.
Theorem C91_fraction_refuted : exists t e, binary64 t /\ f64_le (e_time e) t /\ accepted show_nothing ex_parsers (ex_end t) /\ ~ wanted show_nothing ex_parsers (ex_end t) e /\
  x_out (main show_nothing ex_printers ex_parsers (ex_end t) (Some ([], Some [e])) 9 []) = [str "total elems: 0"].
Proof.
  exists (ex_at 1500 2), (ex_timed (ex_at 1500 1)). split; [vm_compute; reflexivity|]. split; [vm_compute; auto|]. split; [|split; [|vm_compute; reflexivity]].
  - refine (conj _ (conj _ (conj _ (conj _ (conj _ (conj _ _)))))); try (intros v H; discriminate H).
    + intros t H. injection H as <-. exists (f64_of_N 1500), 1500%Z. split; vm_compute; reflexivity.
    + intros x [].
    + intros [H _]. discriminate.
  - intros W. destruct W as (_ & _ & _ & _ & _ & _ & _ & _ & W & _). destruct (W _ eq_refl) as (x & (z & E & ->) & L). vm_compute in E. injection E as <-. vm_compute in L. destruct L; discriminate.
Qed.
Print Assumptions C91_fraction_refuted.
(** A comma at the end of a list is allowed, but not with [!=]. *)
Theorem C91_comma_refuted : (exists P, says show_nothing ex_parsers (str "peer_asns=1,") P) /\ ~ exists P, says show_nothing ex_parsers (str "peer_asns!=1,") P.
Proof.
  split.
  - destruct (expr_filter ex_parsers (str "peer_asns=1,")) as [f|] eqn:E; [|vm_compute in E; discriminate]. destruct (new_says show_nothing _ _ _ E) as (P & S & _). eauto.
  - intros (P & S). destruct (says_new _ _ _ _ S) as (f & E & _). vm_compute in E. discriminate.
Qed.
Print Assumptions C91_comma_refuted.
(** A value with [!=] in it cannot be given with [=]. *)
Definition ex_regexes : parsers := Parsers ex_read_net ex_read_ip (fun _ => None) (fun p => Some (fun _ => true)) (parse_time ex_read_float (fun _ => None)).
Theorem C91_regex_refuted : (exists P, asks show_nothing ex_regexes "as_path" (str "a!=b") P) /\ ~ exists P, says show_nothing ex_regexes (str "as_path=a!=b") P.
Proof.
  split.
  - eexists. apply a_single; [eapply s_path; reflexivity|discriminate|discriminate].
  - intros (P & S). destruct (says_new _ _ _ _ S) as (f & E & _). vm_compute in E. discriminate.
Qed.
Print Assumptions C91_regex_refuted.
(** With [-e -r], and with [-e] in the text format, elements that are not wanted are counted. *)
Theorem C91_count_refuted : exists o o' o2, o_peer_asn o = Some 64502 /\ o_peer_asn o' = o_peer_asn o /\ o_peer_asn o2 = o_peer_asn o /\ o_elems o = true /\ o_elems o' = true /\ o_elems o2 = true /\
  x_out (ex_main o []) = [str "total elems: 1"] /\ x_out (ex_main o' []) = [str "total records: 2"; str "total elems:   2"] /\ x_out (ex_main o2 []) = [str "total elems: 2"].
Proof.
  exists (ex_level LevelElems false true false (Some 64502)), (ex_level LevelElems false true true (Some 64502)),
    (Opts FmtText LevelElems false false false false true false false None [] None false false false false [] (Some 64502) None None None None None).
  vm_compute. repeat split.
Qed.
Print Assumptions C91_count_refuted.
(** A value the library refuses makes the process panic, unless it is in an expression. *)
Theorem C91_panic_refuted : exists v, x_end (ex_main (Opts FmtJson LevelElems false false false false false false false None [] None false false false false [] None (Some v) None None None None) []) = Panicked /\
  ex_main (ex_json [str "type=" ++ v]) [] = quit (BadFilter (str "type=" ++ v)).
Proof. exists (str "x"). split; vm_compute; reflexivity. Qed.
Print Assumptions C91_panic_refuted.
(** A source that ends within a record: nothing is said, and the process succeeds. *)
Theorem C91_silent_refuted : exists s, sbytes s <> [] /\ main show_nothing ex_printers ex_parsers (ex_json []) (Some (s, None)) 30 [] = Result [] [] (Exit 0).
Proof. exists [Data [0; 0; 0; 9; 0; 16]]. split; [discriminate|vm_compute; reflexivity]. Qed.
Print Assumptions C91_silent_refuted.
(** There is no header without an element. *)
Theorem C91_header_refuted : exists s, main show_nothing ex_printers ex_parsers (Opts FmtPsv LevelElems false false false false false false false None [] None false false false false [] None None None None None None) (Some (s, None)) 30 [] = Result [] [] (Exit 0).
Proof. exists []. vm_compute. reflexivity. Qed.
Print Assumptions C91_header_refuted.
(** A closed pipe makes a counting run panic. *)
Theorem C91_println_refuted : exists o, o_elems o = true /\ ex_main o [WPipe] = Result [] [] Panicked.
Proof. exists (ex_level LevelElems false true false None). split; [reflexivity|vm_compute; reflexivity]. Qed.
Print Assumptions C91_println_refuted.
(** Of a text dump nothing is printed at the level of records, nor with recovery. *)
Theorem C91_text_refuted : exists e, let src := Some ([], Some [e]) in
  x_out (main show_nothing ex_printers ex_parsers (ex_json []) src 9 []) = [str "j1"] /\
  main show_nothing ex_printers ex_parsers (ex_level LevelRecords false false false None) src 9 [] = Result [] [] (Exit 0) /\
  x_out (main show_nothing ex_printers ex_parsers (ex_recover LevelElems) src 9 []) = [].
Proof. exists (ex_timed (f64_of_N 1)). cbv zeta. repeat split; vm_compute; reflexivity. Qed.
Print Assumptions C91_text_refuted.
(** With recovery less may be printed than without: here two of four elements. *)
Theorem C91_less_refuted : exists o o', o_recover o = false /\ o_recover o' = true /\ elem_run o /\ elem_run o' /\ x_out (ex_main o []) = x_out (ex_main o' []) ++ [str "j400000"; str "j400000"].
Proof. exists (ex_json []), (ex_recover LevelElems). repeat (split; [reflexivity|]). split; [split; [discriminate|auto]|]. split; [split; [discriminate|auto]|]. vm_compute. reflexivity. Qed.
Print Assumptions C91_less_refuted.
