(** C85, C86: the WebAssembly interface. *)
From Coq Require Import Lia Floats.SpecFloat.
From Verif Require Import Tac Base BaseFacts Net AsPath Attr BgpMsg TableDump Stream Framing MrtRecord MrtRecordSpec Elem ElemSpec Filter Iter IterSpec Dissect DissectSpec Bmp BmpSpec Wasm WasmSpec WasmFacts PropMrtRecord PropElem PropFilter PropIter PropBmp.
From Verif Require RisLiveSpec PropDissect.

(** ** C85: reading MRT data record by record. *)
(** Every buffer begins with records that can be read, up to one that cannot. *)
Theorem C85_readable d : exists ws ms rest, readable d ws ms rest.
Proof. exact (readable_total d). Qed.
Print Assumptions C85_readable.
(** Calling again and again gives those records one by one, from whatever peer table [el]
    there was: the elements of each, under the last peer table before it, and its length; and
    leaves the rest. *)
Theorem C85_records el d ws ms rest : readable d ws ms rest ->
  exists xs, calls parse_mrt_record_core el d xs (fold_left table_after ms el) rest /\
    map fst xs = map elems_of (annotate el ms) /\ map snd xs = map nlen ws.
Proof.
  intros (-> & F & N). pose proof (whole_lengths _ _ F) as L. exists (results el ws ms). split; [apply core_records; auto|]. split; [apply results_fst, L|apply results_snd, L].
Qed.
Print Assumptions C85_records.
(** There is one way for it to go. *)
Theorem C85_one p el d xs el1 r1 ys el2 r2 : calls p el d xs el1 r1 -> calls p el d ys el2 r2 -> xs = ys /\ el1 = el2 /\ r1 = r2.
Proof. intros A B. exact (calls_fun p el d xs el1 r1 A ys el2 r2 B). Qed.
Print Assumptions C85_one.
(** No call panics or throws. *)
Theorem C85_total el d : (exists x, parse_mrt_record_core el d = Ok x) /\ (exists x, js_parse_mrt_record el d = Ok x) /\
  (exists x, dissect_mrt_record_core d = Ok x) /\ (exists x, js_dissect_mrt_record d = Ok x) /\ forall g, exists x, gen_next el g = Ok x.
Proof.
  destruct core_settled as [_ S]. destruct js_settled as [_ J].
  assert (K : forall el d, exists x, js_parse_mrt_record el d = Ok x) by (intros e b; destruct (J e b) as [(l & n & e' & ->)| ->]; eauto).
  split; [destruct (S el d) as [(l & n & e & ->)| ->]; eauto|]. split; [apply K|].
  split; [destruct (dissect_ok d) as [->|(t & n & ->)]; eauto|]. split; [destruct (js_dissect_ok d) as [->|(t & n & ->)]; eauto|].
  intros g. unfold gen_next. cbv zeta. destruct (g_rest g) as [|b r]; [eauto|]. destruct (K (if g_started g then el else reset_mrt_parser) (b :: r)) as ((o & e) & ->). cbn [rbind]. destruct o as [(l & n)|]; eauto.
Qed.
Print Assumptions C85_total.
(** After a reset the elements are the first of those the native iterator gives, however its
    source delivers the same bytes; all of them, if no record is left. *)
Theorem C85_native show d xs el rest s c dmp : calls parse_mrt_record_core reset_mrt_parser d xs el rest -> no_fail s -> sbytes s = d ->
  exists n more, (forall fuel, (n <= fuel)%nat -> elem_list show fuel (Parser s [] c None dmp) = Ok (concat (map fst xs) ++ more)) /\ (rest = [] -> more = []).
Proof.
  intros C N B. destruct (readable_total d) as (ws & ms & rest' & R). destruct (C85_records None d ws ms rest' R) as (xs' & C' & E & _).
  destruct (C85_one _ _ _ _ _ _ _ _ _ C C') as (-> & _ & ->). rewrite E. exact (native_elems show d ws ms rest' s c dmp R N B).
Qed.
Print Assumptions C85_native.
(** How the data arrives does not matter: appending each piece to what is left gives what the
    whole gives, in the module's functions and the JavaScript ones. *)
Theorem C85_pieces el ws xs el' r :
  (fed parse_mrt_record_core el [] ws xs el' r <-> calls parse_mrt_record_core el (concat ws) xs el' r) /\
  (fed js_parse_mrt_record el [] ws xs el' r <-> calls js_parse_mrt_record el (concat ws) xs el' r).
Proof. split; apply fed_iff; [apply core_settled|reflexivity|apply js_settled|reflexivity]. Qed.
Print Assumptions C85_pieces.
(** The JavaScript function, which takes the length from the header, reads the same records
    up to the first that has another length. *)
Theorem C85_js el d ws ms rest : readable d ws ms rest ->
  let k := length (sized ws) in
  exists xs, calls js_parse_mrt_record el d xs (fold_left table_after (firstn k ms) el) (concat (skipn k ws) ++ rest) /\
    map fst xs = map elems_of (annotate el (firstn k ms)) /\ map snd xs = map nlen (firstn k ws).
Proof.
  cbv zeta. intros (-> & F & N). pose proof (whole_lengths _ _ F) as L. set (k := length (sized ws)). exists (firstn k (results el ws ms)). split; [apply js_records; auto|].
  rewrite <- !firstn_map, results_fst, results_snd by exact L. split; [|reflexivity].
  rewrite firstn_map. f_equal. clearbody k. clear. revert k el. induction ms as [|m ms IH]; intros [|k] el; try reflexivity. cbn [annotate firstn]. f_equal. apply IH.
Qed.
Print Assumptions C85_js.
(** Records have the length in their header, except old table dumps which say four too few. *)
Theorem C85_sizes w m : whole w m -> nlen w = declared w \/
  nlen w = declared w + 4 /\ h_type (mr_hdr m) = 12 /\ exists hb b c, w = hb ++ b ++ c /\ length hb = 12%nat /\ length c = 4%nat /\ four_short (h_sub (mr_hdr m)) b.
Proof. exact (whole_sizes w m). Qed.
Print Assumptions C85_sizes.
Theorem C85_sized ws ms : Forall2 whole ws ms -> Forall (fun m => h_type (mr_hdr m) <> 12) ms -> sized ws = ws.
Proof.
  intros F N. apply sized_all. induction F as [|w m ws ms H F IH]; constructor; [|inversion N; auto]. inversion N as [|? ? N1 N2]; subst. destruct (whole_sizes _ _ H) as [|(_ & T & _)]; [assumption|contradiction].
Qed.
Print Assumptions C85_sized.
(** The generator, started in any state, gives what the JavaScript function gives after a
    reset, and ends. *)
Theorem C85_generator el d xs : generated el (Gen false d) xs <-> exists el' r, calls js_parse_mrt_record reset_mrt_parser d xs el' r.
Proof.
  split.
  - intros G. destruct (calls_total js_parse_mrt_record None d js_settled) as (ys & e & r & C). assert (xs = ys) as -> by (eapply generated_fun; [exact G|apply gen_first; eapply gen_calls, C]). eauto.
  - intros (e & r & C). apply gen_first. eapply gen_calls, C.
Qed.
Print Assumptions C85_generator.
(** Once it has said that there is no more it says so again, whatever else is done with the
    module, and leaves the module as it is. *)
Theorem C85_ended el g el1 g1 : gen_next el g = Ok (None, (el1, g1)) -> forall el2, gen_next el2 g1 = Ok (None, (el2, g1)).
Proof. exact (gen_stays el g el1 g1). Qed.
Print Assumptions C85_ended.
(** Dissecting a record uses up the same bytes as reading it does, and its tree is that of
    exactly those. *)
Theorem C85_dissect w m rest : whole w m -> exists t, tree_of w t /\ dissect_mrt_record_core (w ++ rest) = Ok (Some (t, nlen w)) /\
  js_dissect_mrt_record (w ++ rest) = Ok (if nlen w =? declared w then Some (t, nlen w) else None).
Proof. exact (dissect_whole w m rest). Qed.
Print Assumptions C85_dissect.

(** A peer table, a RIB record and an UPDATE; then a record cut short. *)
Definition web_file : bytes :=
  enc (ex_v2 1 (V2Peers ex_table)) ++ enc (ex_v2 2 (V2Rib (Rib 2 1 ex_p1 (map (fun i => RibEntry i (1000 + i) None (of_values [AOrigin IGP; AAsPath [Seg KSeq [i; 5]]])) [2; 0])))) ++ enc ex_record.
Definition brief (xs : list (list elem * N)) : list (list N * N) := map (fun x => (map e_asn (fst x), snd x)) xs.
Example C85_ex : exists xs el, calls js_parse_mrt_record reset_mrt_parser (web_file ++ firstn 20 (enc ex_record)) xs el (firstn 20 (enc ex_record)) /\
  brief xs = [([], 59); ([64502; 64500], 70); ([400000], 65)].
Proof.
  do 2 eexists. split; [|shelve]. do 3 (eapply calls_more; [vm_compute; reflexivity|]). apply calls_end. vm_compute. reflexivity.
  Unshelve. vm_compute. reflexivity.
Qed.
Example C85_ex_whole : exists ws ms, readable web_file ws ms [] /\ length ms = 3%nat /\ sized ws = ws.
Proof.
  destruct (readable_total web_file) as (ws & ms & rest & R). pose proof R as (_ & F & _).
  assert (C : exists xs el, calls parse_mrt_record_core None web_file xs el [] /\ map snd xs = [59; 70; 65]).
  { do 2 eexists. split; [|shelve]. do 3 (eapply calls_more; [vm_compute; reflexivity|]). apply calls_end. reflexivity. Unshelve. reflexivity. }
  destruct C as (xs & el & C & E). destruct (C85_records None _ _ _ _ R) as (ys & C' & _ & D). destruct (C85_one _ _ _ _ _ _ _ _ _ C C') as (-> & _ & <-).
  exists ws, ms. split; [exact R|]. rewrite E in D. pose proof (f_equal (@length N) D) as L. rewrite map_length in L. split; [exact (eq_trans (eq_sym (whole_lengths _ _ F)) (eq_sym L))|].
  destruct R as (W & _). rewrite app_nil_r in W. destruct ws as [|w1 [|w2 [|w3 [|]]]]; cbn in D; try discriminate D. injection D as D1 D2 D3. cbn [concat] in W. rewrite app_nil_r in W.
  assert (E1 : w1 = firstn 59 web_file) by (rewrite W, firstn_app; replace (59 - length w1)%nat with 0%nat by (unfold nlen in D1; lia); rewrite firstn_O, app_nil_r; symmetry; apply firstn_all2; unfold nlen in D1; lia).
  assert (W2 : skipn 59 web_file = w2 ++ w3) by (rewrite W, skipn_app; replace (59 - length w1)%nat with 0%nat by (unfold nlen in D1; lia); rewrite skipn_all2 by (unfold nlen in D1; lia); reflexivity).
  assert (E2 : w2 = firstn 70 (skipn 59 web_file)) by (rewrite W2, firstn_app; replace (70 - length w2)%nat with 0%nat by (unfold nlen in D2; lia); rewrite firstn_O, app_nil_r; symmetry; apply firstn_all2; unfold nlen in D2; lia).
  assert (E3 : w3 = skipn 70 (skipn 59 web_file)) by (rewrite W2, skipn_app; replace (70 - length w2)%nat with 0%nat by (unfold nlen in D2; lia); rewrite skipn_all2 by (unfold nlen in D2; lia); reflexivity).
  subst w1 w2 w3. vm_compute. reflexivity.
Qed.
(** Findings.  The generator ends at an old table dump with the short length, which the native
    reader reads, and those after it. *)
Definition short_dump : bytes :=
  let b := enc (MrtRecord (Hdr 9 None 12 1 0) (MrtDump (Dump 1 2 ex_p1 1 3 (V4 4) 5 (of_values [AOrigin IGP; AMed 3])))) in be 4 9 ++ be 2 12 ++ be 2 1 ++ be 4 (nlen b - 16) ++ skipn 12 b.
Theorem C85_short_refuted : exists d m, readable d [d] [m] [] /\ generated None (Gen false d) [] /\
  exists e, elem_list show_nothing 9 (Parser [Data d] [] false None None) = Ok [e].
Proof.
  exists short_dump. eexists. split.
  - split; [reflexivity|]. split; [constructor; [do 2 eexists; split; [vm_compute; reflexivity|reflexivity]|constructor]|]. intros m z s. vm_compute. discriminate.
  - split; [eapply gen_end; vm_compute; reflexivity|]. eexists. vm_compute. reflexivity.
Qed.
Print Assumptions C85_short_refuted.
(** Nothing is reported of a record that cannot be read, and it hides the records after it:
    the native iterator skips it and goes on. *)
Theorem C85_skip_refuted : exists d el e, calls parse_mrt_record_core None d [] el d /\ generated None (Gen false d) [] /\
  elem_list show_nothing 9 (Parser [Data d] [] false None None) = Ok [e].
Proof.
  exists ([0; 0; 0; 9; 0; 11; 0; 0; 0; 0; 0; 2; 7; 7] ++ enc ex_record), None. eexists. split; [apply calls_end; vm_compute; reflexivity|]. split; [eapply gen_end; vm_compute; reflexivity|]. vm_compute. reflexivity.
Qed.
Print Assumptions C85_skip_refuted.
(** Two generators share the peer table: read in turn, the first loses the elements it has
    alone, or shows another file's peers. *)
Definition other_table : peer_table := PeerTable 0 [] [(0, Peer 2 9 (V4 9) 65009); (1, Peer 2 8 (V4 8) 65008); (2, Peer 2 7 (V4 7) 65007)] [].
Definition alone (r : res (option (list elem * N) * (elementor * gen))) : option (list N * elementor * gen) :=
  match r with Ok (Some (l, _), (el, g)) => Some (map e_asn l, el, g) | _ => None end.
Theorem C85_interleaved_refuted : exists a b el1 ga el2 gb el3 ga2 xs el4 ga3 ys,
  alone (gen_next None (Gen false a)) = Some ([], el1, ga) /\
  alone (gen_next el1 (Gen false b)) = Some ([], el2, gb) /\
  alone (gen_next el2 ga) = Some (xs, el3, ga2) /\
  alone (gen_next el1 ga) = Some (ys, el4, ga3) /\ xs = [65007; 65009] /\ ys = [64502; 64500].
Proof.
  exists web_file, (enc (ex_v2 1 (V2Peers other_table))). do 10 eexists. do 4 (split; [vm_compute; reflexivity|]). split; reflexivity.
Qed.
Print Assumptions C85_interleaved_refuted.

(** ** C86: BMP, OpenBMP and BGP messages. *)
(** A BMP message is shown with its fields when the native parser reads it, with the same
    error otherwise. *)
Theorem C86_bmp d t :
  (forall w, parse_bmp_message_core d t = Ok w <-> exists m, fst (parse_bmp_msg d) = Ok m /\ bmp_shown m None t w) /\
  (forall e, parse_bmp_message_core d t = Err e <-> fst (parse_bmp_msg d) = Err e).
Proof. exact (bmp_core d t). Qed.
Print Assumptions C86_bmp.
(** In an OpenBMP frame the time is that of its header, which is shown too; a frame about
    something else gives null; and anything else the error of the native parser. *)
Theorem C86_openbmp d :
  (forall w, parse_openbmp_message_core d = Ok (Some w) <-> exists h r m, parse_openbmp_header d = Ok (h, r) /\ fst (parse_bmp_msg r) = Ok m /\
     bmp_shown m (Some (WasmOpenBmp (ob_router h) (Some (ob_group h)) (ob_admin h) (ob_time h))) (ob_time h) w) /\
  (parse_openbmp_message_core d = Ok None <-> other_frame d) /\
  (forall e, parse_openbmp_message_core d = Err e <-> ~ other_frame d /\ parse_openbmp_msg d = Err e).
Proof. exact (openbmp_core d). Qed.
Print Assumptions C86_openbmp.
(** Neither panics, whatever the bytes. *)
Theorem C86_no_panic d t : bytes_ok d -> parse_bmp_message_core d t <> Panic /\ parse_openbmp_message_core d <> Panic.
Proof. intros B. split; [apply bmp_np, B|apply openbmp_core_np, B]. Qed.
Print Assumptions C86_no_panic.
(** One message gives one result. *)
Theorem C86_one m oh t a b : bmp_shown m oh t a -> bmp_shown m oh t b -> a = b.
Proof. exact (shown_unique m oh t a b). Qed.
Print Assumptions C86_one.
(** A BGP message gives the elements of its UPDATE with the time, peer address and peer AS
    zero; the error is the parser's. *)
Theorem C86_update d :
  (forall l, parse_bgp_update_core d = Ok l <-> exists m, run (parse_bgp_message false Bits32) d = Ok m /\ bgp_elems m (S754_zero false) (V4 0) 0 l) /\
  (forall e, parse_bgp_update_core d = Err e <-> run (parse_bgp_message false Bits32) d = Err e).
Proof. exact (update_core d). Qed.
Print Assumptions C86_update.
(** With its attributes, and the warnings among them: the same elements. *)
Theorem C86_full d :
  (forall l a, parse_bgp_update_full_core d = Ok (l, a) <-> exists m, run (parse_bgp_message false Bits32) d = Ok m /\ parse_bgp_update_core d = Ok l /\ a = RisLiveSpec.attributes_of m) /\
  (forall e, parse_bgp_update_full_core d = Err e <-> run (parse_bgp_message false Bits32) d = Err e).
Proof.
  rewrite full_core. destruct (update_core d) as [U1 U2]. destruct (run (parse_bgp_message false Bits32) d) as [m|e|] eqn:M.
  - destruct (bgp_list m (S754_zero false) (V4 0) 0) as (l & _ & H). assert (E : parse_bgp_update_core d = Ok l) by (apply U1; eauto). rewrite E. cbn [rbind]. split; [|split; discriminate].
    intros l' a. split; [intros X; injection X as <- <-; eauto|]. intros (m' & X & Y & ->). injection X as <-. injection Y as <-. reflexivity.
  - split; [|intros e'; split; intros X; injection X as ->; reflexivity]. intros l a. split; [discriminate|intros (m & X & _); discriminate X].
  - split; [|split; discriminate]. intros l a. split; [discriminate|intros (m & X & _); discriminate X].
Qed.
Print Assumptions C86_full.
(** Every byte string has a tree, which begins at its first byte and ends with the message. *)
Theorem C86_dissect d four : nlen d < 2 ^ 32 -> exists t, dissect_bgp_message_core d four = Ok t /\ nd_off t = 0 /\ all_nodes (node_ok d) t /\
  nd_len t = (if nlen d <? 19 then nlen d else N.min (N.max 19 (be_val (sub d 16 2))) (nlen d)).
Proof. intros L. destruct (PropDissect.C73_bgp d (if four then Bits32 else Bits16) false L) as (t & E & _ & A & B & C). exists t. auto. Qed.
Print Assumptions C86_dissect.
(** A BMP route monitoring message. *)
Example C86_ex : exists b p l,
  parse_bmp_message_core (bmp_frame 0 (ex_peer_octets ++ ex_wire)) (f64_of_N 5) = Ok (WMonitoring b p l) /\
  wb_time b = f64_of_N 5 /\ wp_ip p = V4 0xC0000201 /\ wp_asn p = 65000 /\ (0 < length l)%nat /\ Forall (fun e => e_asn e = 65000 /\ e_time e = f64_of_N 5) l.
Proof. do 3 eexists. split; [vm_compute; reflexivity|]. do 3 (split; [reflexivity|]). split; [apply Nat.ltb_lt; vm_compute; reflexivity|]. repeat constructor. Qed.
Example C86_ex_null : parse_openbmp_message_core [79; 66; 77; 80; 1; 7; 0; 0; 0; 0; 0; 0; 128; 2] = Ok None /\ other_frame [79; 66; 77; 80; 1; 7; 0; 0; 0; 0; 0; 0; 128; 2].
Proof.
  split; [reflexivity|]. exists [0; 0], [0; 0; 0; 0], 128, [2]. split; [reflexivity|]. split; [reflexivity|]. split; [reflexivity|]. right. exists 2, []. split; [reflexivity|discriminate].
Qed.
