(** Proofs about path attributes. *)
From Coq Require Import ZifyBool ZifyNat ZifyN Lia Permutation.
From Verif Require Import Base BaseFacts Reader ReaderFacts Tac Net NetSpec NetFacts AsPath AsPathSpec AsPathFacts
  Community CommunitySpec CommunityFacts Mpls MplsSpec MplsFacts Tlv TlvSpec TlvFacts
  LinkState LinkStateSpec LinkStateFacts Nlri NlriSpec NlriFacts Attr AttrSpec.

Lemma mem_In n l : mem n l = true <-> In n l.
Proof.
  unfold mem. rewrite existsb_exists. split.
  - intros (x & H & E). apply N.eqb_eq in E. subst. auto.
  - intros H. exists n. split; auto. apply N.eqb_refl.
Qed.
Lemma mem_not_In n l : mem n l = false <-> ~ In n l.
Proof. rewrite <- mem_In. destruct (mem n l); split; congruence. Qed.
Lemma mem_class c : c < 256 ->
  (mem c deprecated_codes = true /\ deprecated c) \/
  (mem c deprecated_codes = false /\ mem c known_codes = false /\ ~ deprecated c /\ ~ retained c /\ ~ decodable c) \/
  (mem c deprecated_codes = false /\ mem c known_codes = true /\ mem c raw_retained_codes = true /\ retained c) \/
  (mem c deprecated_codes = false /\ mem c known_codes = true /\ mem c raw_retained_codes = false /\ decodable c).
Proof.
  intros _. destruct (mem c deprecated_codes) eqn:E1; [left; split; auto; apply mem_In; exact E1|right].
  destruct (mem c known_codes) eqn:E2.
  - right. destruct (mem c raw_retained_codes) eqn:E3; [left|right]; repeat split; auto.
    + apply mem_In; exact E3.
    + apply mem_In in E2. apply mem_not_In in E3. unfold decodable. cbn in E2.
      repeat (destruct E2 as [<-|E2]; [first [exfalso; apply E3; cbn; tauto | apply mem_In; reflexivity]|]). elim E2.
  - left. repeat split; auto; try (apply mem_not_In; exact E1).
    + intros H. apply mem_not_In in E2. apply E2. unfold retained in H. cbn in H.
      repeat (destruct H as [<-|H]; [apply mem_In; reflexivity|]). elim H.
    + intros H. apply mem_not_In in E2. apply E2. unfold decodable, decodable_codes in H. cbn in H.
      repeat (destruct H as [<-|H]; [apply mem_In; reflexivity|]). elim H.
Qed.
Lemma decodable_plain c : decodable c ->
  mem c deprecated_codes = false /\ mem c known_codes = true /\ mem c raw_retained_codes = false.
Proof.
  intros H. unfold decodable, decodable_codes in H. cbn in H.
  repeat (destruct H as [<-|H]; [repeat split|]). elim H.
Qed.
Lemma retained_plain c : retained c ->
  mem c deprecated_codes = false /\ mem c known_codes = true /\ mem c raw_retained_codes = true.
Proof.
  intros H. unfold retained in H. cbn in H. repeat (destruct H as [<-|H]; [repeat split|]). elim H.
Qed.

(** Values. *)
Lemma res_map_inv {A B} (f : A -> B) r b : res_map f r = Ok b -> exists a, r = Ok a /\ b = f a.
Proof. unfold res_map. destruct r; cbn; intros H; inversion H; eauto. Qed.
Lemma res_map_np {A B} (f : A -> B) r : np r -> np (res_map f r).
Proof. unfold res_map. intros. apply np_rbind; auto. intros; discriminate. Qed.
Ltac code_cases c :=
  destruct c as [|c]; [|do 8 (try destruct c as [c|c|])].
Lemma parse_value_code k c s v : parse_attr_value k c s = Ok v -> attr_code v = c.
Proof.
  intros H. unfold parse_attr_value in H.
  code_cases c; try discriminate H;
    first [apply res_map_inv in H as (a & _ & ->); try destruct a; reflexivity | inversion H; reflexivity].
Qed.
Lemma parse_aggregator_np s : np (parse_aggregator s).
Proof.
  unfold parse_aggregator. do 9 (destruct s as [|? s]; [try (cbn [length]; discriminate); cbn [length];
    try (apply np_run; unfold read_asn, read_ipv4; auto with np; discriminate)|]).
  cbn [length]. discriminate.
Qed.
Lemma run_read_np k s : np (run (read_be k) s).
Proof. apply np_run. apply npp_read_be. Qed.
Lemma parse_clusters_np s : np (parse_clusters s).
Proof.
  apply many_p_np; auto with np. intros t a r H. apply read_be_len in H. lia.
Qed.
Lemma parse_origin_np s : np (parse_origin s).
Proof.
  unfold parse_origin. apply np_run. apply npp_bind; auto with np. intros a t.
  unfold lift. destruct (origin_of a); discriminate.
Qed.
Lemma parse_value_np k c s : np (parse_attr_value k c s).
Proof.
  unfold parse_attr_value. code_cases c; try discriminate; apply res_map_np;
    first [ apply parse_as_path_np | apply parse_nlri_np | apply run_read_np | apply parse_aggregator_np
          | apply parse_regular_np | apply parse_large_np | apply parse_ext_np | apply parse_ipv6_ext_np
          | apply (tlv_no_panic s) | apply ls_parse_np | apply parse_origin_np
          | apply np_run; apply npp_read_address
          | apply parse_clusters_np
          | unfold parse_originator_id; destruct (Nat.eqb _ _); [apply run_read_np|discriminate] ].
Qed.

(** The loop. *)
Lemma header_read f c len s : len < 256 ^ N.of_nat (length_width f) ->
  read_attr_header (header_wire f c len ++ s) = Ok ((f, c, len), s).
Proof.
  intros H. unfold read_attr_header, header_wire. rewrite <- app_assoc. cbn [app].
  do 2 rstep. unfold length_width in *. change (is_extended f) with (extended f).
  destruct (extended f); (rewrite (bind_ok _ _ _ len s); [reflexivity|]); apply read_be_be; exact H.
Qed.
Definition attr_out (k : acfg) (r : raw_attr) : attribute * list warning :=
  match attr_of_raw k (r_code r) (r_flag r) (r_value r) with Ok x => x | _ => (Attr AAtomicAggregate 0, []) end.
Lemma attr_of_raw_ok k r : attr_of_raw k (r_code r) (r_flag r) (r_value r) = Ok (attr_out k r).
Proof.
  unfold attr_out, attr_of_raw. destruct (mem (r_code r) deprecated_codes), (mem (r_code r) known_codes), (mem (r_code r) raw_retained_codes); auto;
    cbn [negb]; pose proof (parse_value_np k (r_code r) (r_value r)) as Hn;
    destruct (parse_attr_value _ _ _) as [v|e|] eqn:E; auto; try (elim (Hn eq_refl)); 
    apply parse_value_code in E; rewrite E, N.eqb_refl; auto.
Qed.
Lemma attr_out_spec k r : r_code r < 256 ->
  a_flag (fst (attr_out k r)) = r_flag r /\ attr_code (a_value (fst (attr_out k r))) = r_code r /\
  reported k r (a_value (fst (attr_out k r))) /\
  forall w, In w (snd (attr_out k r)) <->
    exists e, decodable (r_code r) /\ parse_attr_value k (r_code r) (r_value r) = Err e /\
      w = error_warning (r_code r) (r_flag r) e.
Proof.
  intros Hc. unfold attr_out, attr_of_raw.
  destruct (mem_class (r_code r) Hc) as [(E1 & D)|[(E1 & E2 & D1 & D2 & D3)|[(E1 & E2 & E3 & D)|(E1 & E2 & E3 & D)]]];
    rewrite E1, ?E2, ?E3; cbn [negb fst snd a_flag a_value attr_code].
  - repeat split; auto; [constructor; auto|intros []|]. intros (e & Hd & _). apply decodable_plain in Hd. destruct Hd; congruence.
  - repeat split; auto; [constructor; auto|intros []|]. intros (e & Hd & _). elim (D3 Hd).
  - repeat split; auto; [apply rep_retained; auto|intros []|]. intros (e & Hd & _). apply decodable_plain in Hd.
    destruct Hd as (_ & _ & ?); congruence.
  - pose proof (parse_value_np k (r_code r) (r_value r)) as Hn.
    destruct (parse_attr_value k (r_code r) (r_value r)) as [v|e|] eqn:E; [| |elim (Hn eq_refl)].
    + pose proof (parse_value_code _ _ _ _ E) as Ec. rewrite Ec, N.eqb_refl. cbn [fst snd a_flag a_value].
      repeat split; auto; [apply rep_value; auto|intros []|]. intros (e & _ & ? & _). congruence.
    + cbn [fst snd a_flag a_value attr_code]. repeat split; auto; [eapply rep_error; eauto| |].
      * intros [<-|[]]. eauto.
      * intros (e' & _ & Ee & ->). left. congruence.
Qed.

Fixpoint ws_of (k : acfg) (mask : N) (l : list raw_attr) (e : block_end) : list warning :=
  match l with
  | [] => match e with EndCut f c len _ => header_warnings mask c f len | _ => [] end
  | r :: l' => header_warnings mask (r_code r) (r_flag r) (nlen (r_value r)) ++ snd (attr_out k r) ++
               ws_of k (N.setbit mask (r_code r)) l' e
  end.
Definition mask_of (mask : N) (hs : list header) : N := fold_left (fun m h => N.setbit m (h_code h)) hs mask.
Lemma header_wire_length f c len : length (header_wire f c len) = (2 + length_width f)%nat.
Proof. unfold header_wire. rewrite app_length, be_length. reflexivity. Qed.
Lemma length_width_pos f : (1 <= length_width f)%nat.
Proof. unfold length_width. destruct (extended f); lia. Qed.
Lemma loop_step fuel k mask f c len s : len < 256 ^ N.of_nat (length_width f) ->
  attrs_loop (S fuel) k mask (header_wire f c len ++ s) =
  (if nlen s <? len then Ok ([], header_warnings mask c f len, N.setbit mask c)
   else
     '(v, s2) <~ split_to (N.to_nat len) s ;;
     '(a, we) <~ attr_of_raw k c f v ;;
     '(rest, m) <~ attrs_loop fuel k (N.setbit mask c) s2 ;;
     Ok (a :: fst rest, header_warnings mask c f len ++ we ++ snd rest, m)).
Proof.
  intros H. cbn [attrs_loop]. rewrite app_length, header_wire_length.
  pose proof (length_width_pos f). destruct (Nat.leb_spec 3 (2 + length_width f + length s)); [|lia].
  rewrite header_read by exact H. reflexivity.
Qed.
Definition raw_fit (r : raw_attr) : Prop := nlen (r_value r) < 256 ^ N.of_nat (length_width (r_flag r)).
Lemma raw_ok_fit l : Forall raw_ok l -> Forall raw_fit l.
Proof. apply Forall_impl. unfold raw_ok, raw_fit. tauto. Qed.
Lemma loop_spec k l e : Forall raw_fit l -> end_ok e -> ~ end_in_header e -> forall fuel mask,
  (length (flat_map attr_wire l ++ end_wire e) <= fuel)%nat ->
  attrs_loop fuel k mask (flat_map attr_wire l ++ end_wire e) =
  Ok (map (fun r => fst (attr_out k r)) l, ws_of k mask l e, mask_of mask (headers l e)).
Proof.
  intros Hl He Hn. induction Hl as [|r l Hr Hl IH]; intros fuel mask Hf.
  - cbn [flat_map app map ws_of]. destruct e as [t|f c len rest|]; [| |elim (Hn I)]; cbn [end_wire] in *.
    + destruct He as [Ht _]. destruct fuel; cbn [attrs_loop]; destruct (Nat.leb_spec 3 (length t)); try lia; reflexivity.
    + destruct He as (H1 & H2 & H3 & H4 & H5).
      cbn [flat_map app] in Hf. rewrite app_length, header_wire_length in Hf. destruct fuel; [lia|].
      rewrite loop_step by exact H3. destruct (N.ltb_spec (nlen rest) len); [reflexivity|lia].
  - cbn [flat_map] in *. destruct r as [f c v]. rename Hr into H4. unfold raw_fit in H4. cbn [r_flag r_code r_value] in *.
    unfold attr_wire at 1 in Hf. unfold attr_wire at 1. cbn [r_flag r_code r_value] in *.
    rewrite <- !app_assoc in *. destruct fuel; [rewrite app_length, header_wire_length in Hf; lia|].
    rewrite loop_step by exact H4.
    assert (En : nlen (v ++ flat_map attr_wire l ++ end_wire e) <? nlen v = false).
    { rewrite nlen_app. apply N.ltb_ge. lia. }
    rewrite En. rewrite to_nat_nlen, split_to_app by reflexivity. cbn [rbind].
    pose proof (attr_of_raw_ok k (RawAttr f c v)) as Ea. cbn [r_flag r_code r_value] in Ea. rewrite Ea.
    destruct (attr_out k (RawAttr f c v)) as [a we] eqn:Eo. cbn [rbind].
    rewrite IH.
    + cbn [rbind fst snd map ws_of headers r_flag r_code r_value]. rewrite Eo. reflexivity.
    + rewrite !app_length, header_wire_length in Hf. rewrite app_length. lia.
Qed.
Lemma loop_header_end k l f c x : Forall raw_ok l -> f < 256 -> c < 256 -> x < 256 -> extended f = true -> forall fuel mask,
  (length (flat_map attr_wire l ++ [f; c; x]) <= fuel)%nat ->
  exists er, attrs_loop fuel k mask (flat_map attr_wire l ++ [f; c; x]) = Err er.
Proof.
  intros Hl Hf' Hc Hx He. induction Hl as [|r l Hr Hl IH]; intros fuel mask Hf.
  - cbn [flat_map app] in *. destruct fuel; [cbn in Hf; lia|]. cbn [attrs_loop].
    change (Nat.leb 3 (length [f; c; x])) with true. cbv iota.
    unfold read_attr_header. do 2 rewrite (bind_ok _ _ _ _ _ (read_u8_cons _ _)).
    change (is_extended f) with (extended f). rewrite He. eexists. reflexivity.
  - cbn [flat_map] in *. destruct r as [g d v]. destruct Hr as (H1 & H2 & H3 & H4). cbn [r_flag r_code r_value] in *.
    unfold attr_wire at 1 in Hf. unfold attr_wire at 1. cbn [r_flag r_code r_value] in *.
    rewrite <- !app_assoc in *. destruct fuel; [rewrite app_length, header_wire_length in Hf; lia|].
    rewrite loop_step by exact H4.
    assert (En : nlen (v ++ flat_map attr_wire l ++ [f; c; x]) <? nlen v = false).
    { rewrite nlen_app. apply N.ltb_ge. lia. }
    rewrite En. rewrite to_nat_nlen, split_to_app by reflexivity. cbn [rbind].
    pose proof (attr_of_raw_ok k (RawAttr g d v)) as Ea. cbn [r_flag r_code r_value] in Ea. rewrite Ea.
    destruct (attr_out k (RawAttr g d v)) as [a we] eqn:Eo. cbn [rbind].
    destruct (IH fuel (N.setbit mask d)) as [er E].
    + rewrite !app_length, header_wire_length in Hf. rewrite app_length. lia.
    + rewrite E. exists er. reflexivity.
Qed.
Lemma block_split s : bytes_ok s ->
  exists l e, s = flat_map attr_wire l ++ end_wire e /\ Forall raw_ok l /\ end_ok e.
Proof.
  remember (length s) as n eqn:En. revert s En. induction n as [n IH] using lt_wf_ind. intros s En Hs.
  destruct (Nat.ltb_spec (length s) 3) as [Hl|Hl].
  { exists [], (EndShort s). repeat split; auto. }
  destruct s as [|f [|c [|x s]]]; try (cbn in Hl; lia).
  inversion Hs as [|? ? Hf Hs1]; subst. inversion Hs1 as [|? ? Hc Hs2]; subst. inversion Hs2 as [|? ? Hx Hs3]; subst.
  assert (G : (exists len r, f :: c :: x :: s = header_wire f c len ++ r /\ len < 256 ^ N.of_nat (length_width f) /\ bytes_ok r)
              \/ (extended f = true /\ s = [])).
  { unfold header_wire, length_width. destruct (extended f) eqn:Ef.
    - destruct s as [|y s]; [right; auto|]. inversion Hs3; subst. left.
      exists (be_val [x; y]), s. split; [|split; auto].
      + cbn [app]. do 2 f_equal. change (x :: y :: s) with ([x; y] ++ s). f_equal.
        symmetry. apply (be_be_val [x; y]). repeat constructor; auto.
      + apply (be_val_bound [x; y]). repeat constructor; auto.
    - left. exists x, s. split; [|split; auto]. cbn [app]. rewrite be_1 by auto. reflexivity. }
  destruct G as [(len & r & E & Hlen & Hr)|[Ef ->]].
  - destruct (N.ltb_spec (nlen r) len) as [Hlt|Hge].
    + exists [], (EndCut f c len r). repeat split; auto.
    + assert (Hsp : r = firstn (N.to_nat len) r ++ skipn (N.to_nat len) r) by (symmetry; apply firstn_skipn).
      destruct (IH (length (skipn (N.to_nat len) r))) with (s := skipn (N.to_nat len) r) as (l & e & El & Fl & He).
      * assert (length (f :: c :: x :: s) = length (header_wire f c len ++ r)) by (rewrite E; auto).
        rewrite app_length, header_wire_length in H. rewrite skipn_length. pose proof (length_width_pos f). lia.
      * reflexivity.
      * apply bytes_ok_skipn; auto.
      * exists (RawAttr f c (firstn (N.to_nat len) r) :: l), e. split; [|split; auto].
        -- cbn [flat_map]. rewrite <- app_assoc, <- El. unfold attr_wire. cbn [r_flag r_code r_value].
           assert (Ef : nlen (firstn (N.to_nat len) r) = len).
           { unfold nlen. rewrite firstn_length. unfold nlen in Hge. lia. }
           rewrite Ef, <- app_assoc, <- Hsp. exact E.
        -- constructor; auto. assert (Ef : nlen (firstn (N.to_nat len) r) = len).
           { unfold nlen. rewrite firstn_length. unfold nlen in Hge. lia. }
           repeat split; cbn [r_flag r_code r_value]; auto; [apply bytes_ok_firstn; auto|]. rewrite Ef. exact Hlen.
  - exists [], (EndHeader f c x). repeat split; auto.
Qed.

(** Warnings. *)
Lemma expected_flags_proper c : expected_flags c = proper_flags c.
Proof. destruct c as [|c]; [reflexivity|]. do 6 (try destruct c as [c|c|]); reflexivity. Qed.
Lemma expected_length_fixed c : expected_length c = fixed_length c.
Proof. destruct c as [|c]; [reflexivity|]. do 6 (try destruct c as [c|c|]); reflexivity. Qed.
Lemma no_partial_proper c : mem c no_partial_codes = match proper_flags c with Some 0xC0 => false | Some _ => true | None => false end.
Proof. destruct c as [|c]; [reflexivity|]. do 6 (try destruct c as [c|c|]); reflexivity. Qed.
Lemma mask_of_bit hs : forall m c, N.testbit (mask_of m hs) c = true <-> N.testbit m c = true \/ In c (map h_code hs).
Proof.
  induction hs as [|h hs IH]; intros m c; cbn [mask_of fold_left map In]; [tauto|].
  unfold mask_of in IH. rewrite IH, N.setbit_iff. intuition.
Qed.
Fixpoint header_ws (mask : N) (hs : list header) : list warning :=
  match hs with
  | [] => []
  | h :: hs' => header_warnings mask (h_code h) (h_flag h) (h_len h) ++ header_ws (N.setbit mask (h_code h)) hs'
  end.
Lemma ws_of_In k l e w : forall mask, In w (ws_of k mask l e) <->
  In w (header_ws mask (headers l e)) \/ exists r, In r l /\ In w (snd (attr_out k r)).
Proof.
  induction l as [|r l IH]; intros mask.
  - cbn [ws_of headers map app]. destruct e; cbn [header_ws In]; unfold h_code, h_flag, h_len; cbn [fst snd];
      rewrite ?app_nil_r; firstorder.
  - cbn [ws_of headers map app header_ws]. rewrite !in_app_iff, IH. unfold h_code, h_flag, h_len. cbn [fst snd].
    unfold headers. split.
    + intros [H|[H|[H|(x & Hx & H)]]]; [tauto|right; exists r; cbn; tauto|tauto|right; exists x; cbn; tauto].
    + intros [[H|H]|(x & [->|Hx] & H)]; [tauto|tauto|tauto|]. right; right; right. eauto.
Qed.
Lemma header_ws_In w hs : forall mask, In w (header_ws mask hs) <->
  exists h1 h h2, hs = h1 ++ h :: h2 /\ In w (header_warnings (mask_of mask h1) (h_code h) (h_flag h) (h_len h)).
Proof.
  induction hs as [|h hs IH]; intros mask; cbn [header_ws].
  - split; [intros []|]. intros (h1 & h & h2 & E & _). destruct h1; discriminate.
  - rewrite in_app_iff, IH. split.
    + intros [H|(h1 & x & h2 & -> & H)]; [exists [], h, hs; split; auto|]. exists (h :: h1), x, h2. split; auto.
    + intros ([|y h1] & x & h2 & E & H); cbn in E; injection E as -> ->; [left; exact H|right].
      exists h1, x, h2. split; auto.
Qed.
Lemma flag_warnings_In w c f : In w (flag_warnings c f) <->
  exists e, proper_flags c = Some e /\
    ((w = WFlags c e (N.land f 0xC0) /\ N.land f 0xC0 <> e) \/ (w = WFlags c e f /\ N.testbit f 5 = true /\ e <> 0xC0)).
Proof.
  unfold flag_warnings. rewrite expected_flags_proper. destruct (proper_flags c) as [e|] eqn:E.
  - rewrite in_app_iff. pose proof (no_partial_proper c) as Hp. rewrite E in Hp.
    assert (Hn : mem c no_partial_codes = true <-> e <> 0xC0).
    { rewrite Hp. destruct (N.eq_dec e 0xC0) as [->|Hne]; [split; congruence|].
      split; auto. intros _. destruct e as [|p]; auto. do 8 (try destruct p as [p|p|]); auto. }
    unfold is_partial. split.
    + intros [H|H]; exists e; split; auto.
      * destruct (N.eqb_spec (N.land f 0xC0) e); [elim H|]. destruct H as [<-|[]]. auto.
      * destruct (N.testbit f 5) eqn:Ef; [|elim H]. destruct (mem c no_partial_codes); [|elim H].
        destruct H as [<-|[]]. right. repeat split; auto. apply Hn; auto.
    + intros (e' & Ee & H). injection Ee as <-. destruct H as [[-> H]|(-> & H1 & H2)].
      * left. destruct (N.eqb_spec (N.land f 0xC0) e); [tauto|left; auto].
      * right. rewrite H1. apply Hn in H2. rewrite H2. left; auto.
  - split; [intros []|]. intros (e & H & _). discriminate.
Qed.
Lemma length_warnings_In w c n : In w (length_warnings c n) <->
  exists e, fixed_length c = Some e /\ n <> e /\ w = WLength c (Some e) n.
Proof.
  unfold length_warnings. rewrite expected_length_fixed. destruct (fixed_length c) as [e|]; split.
  - destruct (N.eqb_spec n e); [intros []|]. intros [<-|[]]. eauto.
  - intros (e' & E & H & ->). injection E as <-. destruct (N.eqb_spec n e); [tauto|left; auto].
  - intros [].
  - intros (e & H & _). discriminate.
Qed.

(** The warnings of a block, by kind. *)
Lemma block_ws k l e w : In w (ws_of k 0 l e) <->
  (exists c, w = WDuplicate c /\ exists h1 h h2, headers l e = h1 ++ h :: h2 /\ h_code h = c /\ In c (map h_code h1)) \/
  (exists h ex, In h (headers l e) /\ proper_flags (h_code h) = Some ex /\
     ((w = WFlags (h_code h) ex (N.land (h_flag h) 0xC0) /\ N.land (h_flag h) 0xC0 <> ex) \/
      (w = WFlags (h_code h) ex (h_flag h) /\ N.testbit (h_flag h) 5 = true /\ ex <> 0xC0))) \/
  (exists h ex, In h (headers l e) /\ fixed_length (h_code h) = Some ex /\ h_len h <> ex /\
     w = WLength (h_code h) (Some ex) (h_len h)) \/
  (exists r, In r l /\ In w (snd (attr_out k r))).
Proof.
  rewrite ws_of_In, header_ws_In. unfold header_warnings. split.
  - intros [(h1 & h & h2 & E & H)|H]; [|tauto]. rewrite !in_app_iff, flag_warnings_In, length_warnings_In in H.
    assert (Hin : In h (headers l e)) by (rewrite E; apply in_elt).
    destruct H as [H|[(ex & H1 & H2)|(ex & H1 & H2 & H3)]].
    + left. destruct (N.testbit _ _) eqn:Eb; [|elim H]. destruct H as [<-|[]]. apply mask_of_bit in Eb.
      rewrite N.bits_0 in Eb. destruct Eb as [|Eb]; [discriminate|]. exists (h_code h). split; auto.
      exists h1, h, h2. auto.
    + right; left. exists h, ex. auto.
    + right; right; left. exists h, ex. auto.
  - intros [(c & -> & h1 & h & h2 & E & Hc & Hi)|[(h & ex & Hin & H1 & H2)|[(h & ex & Hin & H1 & H2 & H3)|H]]]; [| | |tauto]; left.
    + exists h1, h, h2. split; auto. apply in_or_app. left. subst c.
      assert (B : N.testbit (mask_of 0 h1) (h_code h) = true) by (apply mask_of_bit; auto). rewrite B. left; auto.
    + apply in_split in Hin as (h1 & h2 & E). exists h1, h, h2. split; auto. apply in_or_app; right. apply in_or_app; left.
      apply flag_warnings_In. eauto.
    + apply in_split in Hin as (h1 & h2 & E). exists h1, h, h2. split; auto. apply in_or_app; right. apply in_or_app; right.
      apply length_warnings_In. eauto.
Qed.
Lemma parse_block k l e : Forall raw_fit l -> end_ok e -> ~ end_in_header e ->
  parse_attributes k (flat_map attr_wire l ++ end_wire e) =
  Ok (Attrs (map (fun r => fst (attr_out k r)) l) (ws_of k 0 l e) (mask_of 0 (headers l e))).
Proof. intros H1 H2 H3. unfold parse_attributes. rewrite loop_spec by auto. reflexivity. Qed.
Lemma parse_block_inv k s A : bytes_ok s -> parse_attributes k s = Ok A ->
  exists l e, s = flat_map attr_wire l ++ end_wire e /\ Forall raw_ok l /\ end_ok e /\ ~ end_in_header e /\
    A = Attrs (map (fun r => fst (attr_out k r)) l) (ws_of k 0 l e) (mask_of 0 (headers l e)).
Proof.
  intros Hs H. destruct (block_split s Hs) as (l & e & -> & Hl & He). exists l, e.
  assert (Hn : ~ end_in_header e).
  { intros Hn. destruct e as [| |f c x]; try elim Hn. destruct He as (H1 & H2 & H3 & H4). unfold parse_attributes in H.
    destruct (loop_header_end k l f c x Hl H1 H2 H3 H4 (length (flat_map attr_wire l ++ [f; c; x])) 0) as [er E]; [lia|].
    cbn [end_wire] in H. rewrite E in H. discriminate. }
  repeat split; auto. rewrite parse_block in H by auto using raw_ok_fit. congruence.
Qed.

(** Round trip of the values. *)
Lemma parse_nlri_zero a sf ps s reachable ap :
  parse_nlri (0 :: s) a sf ps reachable ap = parse_nlri (0 :: s) None None None reachable ap.
Proof. destruct a, sf, ps; reflexivity. Qed.
Lemma reach_zero a sf nh x r : a = AIpv4 \/ a = AIpv6 -> exists t, reach_wire a sf nh x r = 0 :: t.
Proof. intros [->| ->]; eexists; reflexivity. Qed.
Lemma unreach_zero a sf r : a = AIpv4 \/ a = AIpv6 -> exists t, unreach_wire a sf r = 0 :: t.
Proof. intros [->| ->]; eexists; reflexivity. Qed.
Lemma map_wire_exact l : Forall (fun p => wire_exact (p_net p)) l -> map wire_prefix l = l.
Proof.
  induction 1; cbn [map]; auto. f_equal; auto. unfold wire_prefix. rewrite wire_exact_trunc by auto. destruct x; auto.
Qed.
Lemma map_id_Forall {A} (f : A -> A) l : Forall (fun x => f x = x) l -> map f l = l.
Proof. induction 1; cbn [map]; congruence. Qed.
Lemma aggregator_roundtrip l a i : a < match l with Bits16 => 2 ^ 16 | Bits32 => 2 ^ 32 end -> i < 2 ^ 32 ->
  exists b, encode_aggregator l a i = Ok b /\ parse_aggregator b = Ok (a, i).
Proof.
  intros Ha Hi. destruct l; unfold encode_aggregator.
  - unfold check_max. destruct (N.ltb_spec 65535 a); [change (2 ^ 16) with 65536 in Ha; lia|]. cbn [rbind].
    eexists. split; [reflexivity|]. unfold parse_aggregator.
    replace (length (be 2 a ++ be 4 i)) with 6%nat by (rewrite app_length, !be_length; reflexivity).
    unfold run. rewrite (bind_ok _ _ _ a (be 4 i)).
    + rewrite (bind_ok _ _ _ i []); [reflexivity|]. rewrite <- (app_nil_r (be 4 i)). apply read_be_be. exact Hi.
    + apply (read_asn_be Bits16). exact Ha.
  - eexists. split; [reflexivity|]. unfold parse_aggregator.
    replace (length (be 4 a ++ be 4 i)) with 8%nat by (rewrite app_length, !be_length; reflexivity).
    unfold run. rewrite (bind_ok _ _ _ a (be 4 i)).
    + rewrite (bind_ok _ _ _ i []); [reflexivity|]. rewrite <- (app_nil_r (be 4 i)). apply read_be_be. exact Hi.
    + apply (read_asn_be Bits32). exact Ha.
Qed.
Lemma run_read_u32 n : n < 2 ^ 32 -> run read_u32 (be 4 n) = Ok n.
Proof. intros H. unfold run. rewrite <- (app_nil_r (be 4 n)), read_be_be; auto. Qed.
Definition rawish (v : attr_value) : bool :=
  match v with ARaw _ _ | ADeprecated _ _ | AUnknown _ _ | AAttrSet _ => true | _ => false end.
Lemma value_code k v : value_ok k v -> rawish v = false -> decodable (attr_code v).
Proof. destruct v; intros H R; try discriminate R; apply mem_In; reflexivity. Qed.
Lemma labeled_ids ap l : Forall (fun p => is_some (lp_id p) = ap) l ->
  Forall (fun p => lp_id p = None \/ existsb (fun p => match lp_id p with Some _ => true | None => false end) l = true) l.
Proof.
  intros H. apply Forall_forall. intros p Hp. destruct (lp_id p) eqn:E; auto. right.
  apply existsb_exists. exists p. rewrite E. auto.
Qed.
Lemma value_roundtrip k v : value_ok k v -> rawish v = false ->
  exists b, encode_attr_value (ac_asn k) v = Ok b /\ parse_attr_value k (attr_code v) b = Ok v.
Proof.
  intros H R. destruct tlv_roundtrips as (T1 & T2 & T3 & T4 & T5 & T6 & T7).
  destruct v; try discriminate R; cbn [value_ok encode_attr_value attr_code] in *;
    try (eexists; split; [reflexivity|]); cbn [parse_attr_value].
  - destruct o; reflexivity.
  - destruct (path_roundtrip _ _ H) as (b & E1 & E2). exists b. split; auto. cbn. rewrite E2. reflexivity.
  - destruct (path_roundtrip _ _ H) as (b & E1 & E2). exists b. split; auto. cbn. rewrite E2. reflexivity.
  - unfold parse_next_hop. destruct H as [H1 H2]. rewrite <- H2. unfold run.
    rewrite <- (app_nil_r (octets i)), read_address_octets by auto. reflexivity.
  - rewrite run_read_u32 by exact H. reflexivity.
  - rewrite run_read_u32 by exact H. reflexivity.
  - rewrite run_read_u32 by exact H. reflexivity.
  - reflexivity.
  - destruct H as [H1 H2]. destruct (aggregator_roundtrip (ac_asn k) a id H1 H2) as (b & E1 & E2). exists b.
    split; auto. rewrite E2. reflexivity.
  - destruct H as [H1 H2]. destruct (aggregator_roundtrip Bits32 a id H1 H2) as (b & E1 & E2). unfold encode_aggregator in E1.
    assert (Eb : b = be 4 a ++ be 4 id) by congruence. rewrite <- Eb, E2. reflexivity.
  - rewrite regular_roundtrip by exact H. reflexivity.
  - rewrite ext_roundtrip by exact H. reflexivity.
  - rewrite ipv6_ext_roundtrip by exact H. reflexivity.
  - rewrite large_roundtrip by exact H. reflexivity.
  - unfold parse_originator_id. rewrite be_length. cbn [Nat.eqb]. unfold read_ipv4. rewrite run_read_u32 by exact H. reflexivity.
  - unfold parse_clusters. rewrite (many_p_app read_u32 (be 4) (fun n => n < 2 ^ 32)); auto.
    + intros a s Ha. apply read_be_be. exact Ha.
    + intros a _. rewrite be_length. lia.
  - destruct H as (a & h & Ha & Hh & [(sf & l & Hs & [Hl Hx] & ->)|(l & Hl & Hx & ->)]).
    + exists (reach_wire a sf (Some h) 0 (flat_map encode_prefix l)).
      split; [apply encode_plain_reach; auto; destruct Ha; subst; discriminate|].
      destruct (reach_zero a sf (Some h) 0 (flat_map encode_prefix l) Ha) as [t Et]. rewrite Et, parse_nlri_zero, <- Et.
      rewrite parse_plain_reach; auto; [|destruct Ha; subst; discriminate]. rewrite map_wire_exact by auto. reflexivity.
    + exists (reach_wire a SMplsLabel (Some h) 0 (flat_map labeled_wire l)).
      split; [apply encode_labeled_reach; [apply Hl|]; unfold inferred_add_path; cbn [nl_labeled opt_list]; eapply labeled_ids; apply Hl|].
      destruct (reach_zero a SMplsLabel (Some h) 0 (flat_map labeled_wire l) Ha) as [t Et]. rewrite Et, parse_nlri_zero, <- Et.
      rewrite parse_labeled_reach; auto; [|destruct Ha; subst; discriminate]. rewrite map_id_Forall by auto. reflexivity.
  - destruct H as (a & sf & l & Ha & Hs & [Hl Hx] & ->).
    exists (unreach_wire a sf (flat_map encode_prefix l)).
    split; [apply encode_plain_unreach; auto; destruct Ha; subst; discriminate|].
    destruct (unreach_zero a sf (flat_map encode_prefix l) Ha) as [t Et]. rewrite Et, parse_nlri_zero, <- Et.
    rewrite parse_plain_unreach; auto; [|destruct Ha; subst; discriminate]. rewrite map_wire_exact by auto. reflexivity.
  - destruct (ls_roundtrip a _ _ _ H (Permutation_refl _) (Permutation_refl _) (Permutation_refl _)) as (b & E1 & E2).
    exists b. split; [exact E1|]. rewrite E2. reflexivity.
  - destruct H as [H1 H2]. destruct (T7 l H1 H2) as (b & E1 & E2). exists b. split; auto. rewrite E2. reflexivity.
  - rewrite T6 by exact H. reflexivity.
  - destruct (T4 b H) as (c & E1 & E2). exists c. split; auto. rewrite E2. reflexivity.
  - destruct (T2 l H) as (b & E1 & E2). exists b. split; auto. rewrite E2. reflexivity.
  - destruct (T3 l H) as (b & E1 & E2). exists b. split; auto. rewrite E2. reflexivity.
  - destruct (T1 l H) as (b & E1 & E2). exists b. split; auto. rewrite E2. reflexivity.
  - reflexivity.
  - rewrite T5 by exact H. reflexivity.
Qed.
Lemma attr_out_ok k a b : value_ok k (a_value a) -> encode_attr_value (ac_asn k) (a_value a) = Ok b ->
  fst (attr_out k (RawAttr (a_flag a) (attr_code (a_value a)) b)) = a.
Proof.
  intros H E. unfold attr_out, attr_of_raw. cbn [r_code r_flag r_value]. destruct a as [v f]. cbn [a_value a_flag] in *.
  destruct (rawish v) eqn:R.
  - destruct v; try discriminate R; cbn [encode_attr_value attr_code value_ok] in *; try (elim H; fail); injection E as <-.
    + destruct H as (_ & _ & [H|(H & e & He)]).
      * destruct (retained_plain _ H) as (E1 & E2 & E3). rewrite E1, E2, E3. reflexivity.
      * destruct (decodable_plain _ H) as (E1 & E2 & E3). rewrite E1, E2, E3, He. reflexivity.
    + destruct H as (_ & H). apply mem_In in H. change (mem code deprecated_codes = true) in H. rewrite H. reflexivity.
    + destruct H as (_ & Hc & H1 & H2 & H3).
      destruct (mem_class code Hc) as [(_ & D)|[(E1 & E2 & _)|[(_ & _ & _ & D)|(_ & _ & _ & D)]]]; try tauto.
      rewrite E1, E2. reflexivity.
  - destruct (value_roundtrip k v H R) as (b' & E1 & E2). assert (b' = b) by congruence. subst b'.
    destruct (decodable_plain _ (value_code k v H R)) as (E3 & E4 & E5). rewrite E3, E4, E5, E2, N.eqb_refl. reflexivity.
Qed.
Lemma value_encodes k v : value_ok k v -> exists b, encode_attr_value (ac_asn k) v = Ok b.
Proof.
  intros H. destruct (rawish v) eqn:R.
  - destruct v; try discriminate R; cbn in *; eauto. elim H.
  - destruct (value_roundtrip k v H R) as (b & E & _). eauto.
Qed.

(** One attribute on the wire. *)
Lemma encode_attr_iff l a b : a_flag a < 256 -> attr_code (a_value a) < 256 ->
  (encode_attribute l a = Ok b <->
   exists v, encode_attr_value l (a_value a) = Ok v /\ nlen v < 256 ^ N.of_nat (length_width (a_flag a)) /\
     b = attr_wire (RawAttr (a_flag a) (attr_code (a_value a)) v)).
Proof.
  intros Hf Hc. unfold encode_attribute, with_len, attr_wire, header_wire. cbn [r_flag r_code r_value].
  change (if is_extended (a_flag a) then 2%nat else 1%nat) with (length_width (a_flag a)).
  destruct (encode_attr_value l (a_value a)) as [v|e|]; cbn [rbind].
  - split.
    + intros H. apply rbind_inv in H as (x & H1 & H2). apply put_len_slice_inv in H1 as [H1 ->].
      assert (Eb : b = be 1 (a_flag a) ++ be 1 (attr_code (a_value a)) ++ be (length_width (a_flag a)) (nlen v) ++ v) by congruence.
      exists v. split; auto. split; auto. rewrite Eb, !be_1 by auto. reflexivity.
    + intros (w & Ew & Hw & ->). injection Ew as <-. rewrite put_len_slice_ok by auto. cbn [rbind].
      rewrite !be_1 by auto. reflexivity.
  - split; [discriminate|]. intros (v & ? & _). discriminate.
  - split; [discriminate|]. intros (v & ? & _). discriminate.
Qed.
Lemma encode_attr_big l a v : encode_attr_value l (a_value a) = Ok v ->
  256 ^ N.of_nat (length_width (a_flag a)) <= nlen v -> encode_attribute l a = Err EEncTooLarge.
Proof.
  intros E H. unfold encode_attribute, with_len. rewrite E. cbn [rbind].
  change (if is_extended (a_flag a) then 2%nat else 1%nat) with (length_width (a_flag a)).
  rewrite put_len_slice_big by auto. reflexivity.
Qed.
Lemma code_small k v : value_ok k v -> attr_code v < 256.
Proof.
  intros H. destruct v; cbn [attr_code value_ok] in *; try lia; try tauto.
  destruct H as [_ H]. unfold deprecated in H. cbn in H. intuition; subst; reflexivity.
Qed.
Lemma attributes_roundtrip k l : Forall (attr_ok k) l ->
  exists b rs, encode_attributes (ac_asn k) l = Ok b /\ Forall2 (written (ac_asn k)) l rs /\ b = flat_map attr_wire rs /\
    exists A, parse_attributes k b = Ok A /\ at_inner A = l.
Proof.
  intros H.
  assert (G : exists rs, rmap (encode_attribute (ac_asn k)) l = Ok (map attr_wire rs) /\ Forall2 (written (ac_asn k)) l rs /\
                Forall raw_fit rs /\ map (fun r => fst (attr_out k r)) rs = l).
  { induction H as [|a l Ha Hl IH].
    - exists []. repeat split; constructor.
    - destruct IH as (rs & E1 & E2 & E3 & E4). destruct Ha as (Hf & Hv & Hlen).
      destruct (value_encodes k _ Hv) as [v Ev]. exists (RawAttr (a_flag a) (attr_code (a_value a)) v :: rs).
      assert (Ea : encode_attribute (ac_asn k) a = Ok (attr_wire (RawAttr (a_flag a) (attr_code (a_value a)) v))).
      { apply encode_attr_iff; auto; [eapply code_small; eauto|]. exists v. auto. }
      cbn [rmap map]. rewrite Ea, E1. cbn [rbind]. split; [reflexivity|]. split.
      { constructor; auto. repeat split; auto. }
      split; [constructor; auto; unfold raw_fit; cbn [r_flag r_value]; auto|]. rewrite E4. f_equal. apply attr_out_ok; auto. }
  destruct G as (rs & E1 & E2 & E3 & E4). exists (flat_map attr_wire rs), rs. unfold encode_attributes. rewrite E1. cbn [rbind].
  split; [rewrite flat_map_concat_map; reflexivity|]. split; auto. split; auto.
  eexists. split.
  - rewrite <- (app_nil_r (flat_map attr_wire rs)). apply (parse_block k rs (EndShort [])); auto.
    split; [cbn; lia|constructor].
  - exact E4.
Qed.

(** Re-encoding what was parsed. *)
Lemma clusters_inv s l : bytes_ok s -> parse_clusters s = Ok l -> flat_map (be 4) l = s.
Proof.
  intros Hs H. unfold parse_clusters in H.
  apply (many_p_iff read_u32 (be 4) (fun n => n < 256 ^ N.of_nat 4)) in H; auto.
  - destruct H as [_ ->]. reflexivity.
  - intros a r Ha. apply read_be_be. exact Ha.
  - intros t a r E Ht. apply read_be_inv_ok in E; auto. tauto.
  - intros a _. rewrite be_length. lia.
Qed.
Lemma originator_inv s i : bytes_ok s -> parse_originator_id s = Ok i -> be 4 i = s.
Proof.
  intros Hs H. unfold parse_originator_id in H. destruct (Nat.eqb_spec (length s) 4); [|discriminate].
  unfold run in H. destruct (read_ipv4 s) as [[n r]| |] eqn:E; try discriminate.
  assert (n = i) by congruence. subst n. apply read_be_inv_ok in E as (-> & _ & _); auto.
  rewrite app_length, be_length in e. destruct r; [|cbn in e; lia]. rewrite app_nil_r. reflexivity.
Qed.
Lemma verbatim_value k c s v : bytes_ok s -> parse_attr_value k c s = Ok v -> verbatim v = true ->
  encode_attr_value (ac_asn k) v = Ok s.
Proof.
  intros Hs H V. destruct (tlv_reencode s Hs) as (T1 & T2 & T3 & T4 & T5 & T6).
  unfold parse_attr_value in H.
  code_cases c; try discriminate H;
    try (apply res_map_inv in H as (a & H & ->); try destruct a; try discriminate V; cbn [encode_attr_value]);
    first [ apply path_parse_inv in H; [destruct H as [H _]; exact H|exact Hs]
          | apply regular_reencode in H; [destruct H as [-> _]; reflexivity|exact Hs]
          | apply large_reencode in H; [destruct H as [-> _]; reflexivity|exact Hs]
          | apply ipv6_ext_reencode in H; [destruct H as [-> _]; reflexivity|exact Hs]
          | apply clusters_inv in H; [rewrite H; reflexivity|exact Hs]
          | apply originator_inv in H; [rewrite H; reflexivity|exact Hs]
          | apply T1; exact H | apply T2; exact H | apply T3; exact H | apply T4; exact H
          | rewrite (T5 _ H); reflexivity | rewrite (T6 _ H); reflexivity
          | injection H as <-; first [discriminate V | reflexivity] ].
Qed.
Lemma verbatim_attr k r : raw_ok r -> verbatim (a_value (fst (attr_out k r))) = true ->
  encode_attribute (ac_asn k) (fst (attr_out k r)) = Ok (attr_wire r).
Proof.
  intros Hr V. pose proof Hr as (H1 & H2 & H3 & H4).
  destruct (attr_out_spec k r H2) as (Ef & Ec & Er & _).
  apply encode_attr_iff; [congruence|congruence|]. exists (r_value r). rewrite Ef, Ec. split; [|split; [exact H4|destruct r; reflexivity]].
  destruct Er; cbn [encode_attr_value]; try reflexivity. eapply verbatim_value; eauto.
Qed.

(** Accessors. *)
Lemma find_map_some {A B} (f : A -> option B) l b : find_map f l = Some b <->
  exists l1 x l2, l = l1 ++ x :: l2 /\ f x = Some b /\ forall y, In y l1 -> f y = None.
Proof.
  induction l as [|x l IH]; cbn [find_map].
  - split; [discriminate|]. intros (l1 & x & l2 & E & _). destruct l1; discriminate.
  - destruct (f x) as [y|] eqn:E.
    + split.
      * intros H. exists [], x, l. repeat split; auto; [congruence|]. intros ? [].
      * intros (l1 & z & l2 & El & Ez & Hn). destruct l1 as [|w l1]; cbn in El; injection El as -> ->; [congruence|].
        rewrite (Hn w (or_introl eq_refl)) in E. discriminate.
    + rewrite IH. split.
      * intros (l1 & z & l2 & -> & Ez & Hn). exists (x :: l1), z, l2. repeat split; auto. intros y [<-|Hy]; auto.
      * intros (l1 & z & l2 & El & Ez & Hn). destruct l1 as [|w l1]; cbn in El; injection El as -> ->; [congruence|].
        exists l1, z, l2. repeat split; auto. intros y Hy. apply Hn. right; auto.
Qed.
Lemma find_map_none {A B} (f : A -> option B) l : find_map f l = None <-> forall x, In x l -> f x = None.
Proof.
  induction l as [|x l IH]; cbn [find_map].
  - split; auto. intros _ ? [].
  - destruct (f x) eqn:E.
    + split; [discriminate|]. intros H. rewrite (H x (or_introl eq_refl)) in E. discriminate.
    + rewrite IH. split.
      * intros H y [<-|Hy]; auto.
      * intros H y Hy. apply H. right; auto.
Qed.
Definition value_communities (v : attr_value) : list meta_community :=
  match v with
  | ACommunities l => map MPlain l
  | AExtCommunities l => map MExtended l
  | ALargeCommunities l => map MLarge l
  | _ => []
  end.
Lemma community_at_nth v i : community_at v i = nth_error (value_communities v) i.
Proof. destruct v; cbn [community_at value_communities]; try (destruct i; reflexivity); rewrite nth_error_map; destruct (nth_error l i); reflexivity. Qed.
Lemma drain_spec fuel : forall vs i,
  let rest := match vs with [] => [] | v :: vs' => skipn i (value_communities v) ++ flat_map value_communities vs' end in
  (length rest < fuel)%nat -> communities_drain fuel vs i = rest.
Proof.
  assert (N : forall vs i, communities_next vs i =
    match match vs with [] => [] | v :: vs' => skipn i (value_communities v) ++ flat_map value_communities vs' end with
    | [] => None
    | c :: r => communities_next vs i
    end /\
    match communities_next vs i with
    | None => match vs with [] => [] | v :: vs' => skipn i (value_communities v) ++ flat_map value_communities vs' end = []
    | Some (c, (vs', i')) =>
        match vs with [] => [] | v :: vs' => skipn i (value_communities v) ++ flat_map value_communities vs' end =
        c :: match vs' with [] => [] | v :: vs' => skipn i' (value_communities v) ++ flat_map value_communities vs' end
    end).
  { induction vs as [|v vs IH]; intros i; [split; reflexivity|]. cbn [communities_next]. rewrite community_at_nth.
    destruct (nth_error (value_communities v) i) as [c|] eqn:E.
    - assert (S : skipn i (value_communities v) = c :: skipn (S i) (value_communities v)).
      { revert E. generalize (value_communities v). clear. induction i; intros [|x l] E; cbn in *; try discriminate; [congruence|]. apply IHi; auto. }
      rewrite S. cbn [app]. split; reflexivity.
    - apply nth_error_None in E. rewrite (skipn_all2 _ E). cbn [app].
      destruct (IH O) as [IH1 IH2]. destruct vs as [|w vs]; [split; reflexivity|].
      cbn [flat_map] in *. rewrite skipn_O in IH1, IH2. split; auto. }
  induction fuel as [|fuel IH]; intros vs i rest Hf; [lia|]. cbn [communities_drain].
  destruct (N vs i) as [_ N2]. destruct (communities_next vs i) as [[c [vs' i']]|].
  - unfold rest in *. rewrite N2 in Hf |- *. f_equal. apply IH. cbn [length] in Hf. lia.
  - unfold rest. rewrite N2. reflexivity.
Qed.
Lemma compute_mask_bit l : forall m c,
  N.testbit (fold_left (fun m x => N.setbit m (attr_code (a_value x))) l m) c = true <->
  N.testbit m c = true \/ In c (map (fun x => attr_code (a_value x)) l).
Proof.
  induction l as [|x l IH]; intros m c; cbn [fold_left map In]; [tauto|]. rewrite IH, N.setbit_iff. intuition.
Qed.

Lemma block_ws_spec k l e w : Forall raw_ok l -> (In w (ws_of k 0 l e) <-> block_warning k l e w).
Proof.
  intros Hl. rewrite block_ws. split.
  - intros [(c & -> & h1 & h & h2 & E & <- & Hi)|[(h & ex & Hin & H1 & [[-> H2]|(-> & H2 & H3)])|[(h & ex & Hin & H1 & H2 & ->)|(r & Hr & H)]]].
    + eapply bw_duplicate; eauto.
    + apply bw_flags; auto.
    + apply bw_partial; auto.
    + apply bw_length; auto.
    + assert (Hc : r_code r < 256) by (rewrite Forall_forall in Hl; apply Hl in Hr; apply Hr).
      apply (attr_out_spec k r Hc) in H as (er & Hd & He & ->). unfold error_warning, is_partial.
      destruct (N.testbit (r_flag r) 5) eqn:Ep; [apply bw_value_partial; auto|].
      destruct (mem (r_code r) [1; 2; 3; 5]) eqn:Em.
      * apply bw_value_well_known; auto. apply mem_In; auto.
      * apply bw_value_optional; auto. apply mem_not_In; auto.
  - assert (V : forall r x, In r l -> decodable (r_code r) -> parse_attr_value k (r_code r) (r_value r) = Err x ->
              exists r', In r' l /\ In (error_warning (r_code r) (r_flag r) x) (snd (attr_out k r'))).
    { intros r x Hr Hd He. exists r. split; auto. rewrite Forall_forall in Hl. apply attr_out_spec; [apply Hl in Hr; apply Hr|]. eauto. }
    intros H. destruct H as [h1 h h2 E Hi|h x Hin H1 H2|h x Hin H1 H2 H3|h x Hin H1 H2|r x Hr Hd He Hp|r x Hr Hd He Hp Hm|r x Hr Hd He Hp Hm].
    + left. eexists. split; [reflexivity|]. exists h1, h, h2. auto.
    + right; left. exists h, x. auto.
    + right; left. exists h, x. auto 6.
    + right; right; left. exists h, x. auto.
    + right; right; right. destruct (V r x Hr Hd He) as (r' & Hr' & Hw). exists r'. split; auto.
      unfold error_warning, is_partial in Hw. rewrite Hp in Hw. exact Hw.
    + right; right; right. destruct (V r x Hr Hd He) as (r' & Hr' & Hw). exists r'. split; auto.
      unfold error_warning, is_partial in Hw. rewrite Hp in Hw. apply mem_In in Hm. rewrite Hm in Hw. exact Hw.
    + right; right; right. destruct (V r x Hr Hd He) as (r' & Hr' & Hw). exists r'. split; auto.
      unfold error_warning, is_partial in Hw. rewrite Hp in Hw. apply mem_not_In in Hm. rewrite Hm in Hw. exact Hw.
Qed.
Lemma block_spec k l e : Forall raw_ok l -> end_ok e -> ~ end_in_header e ->
  exists A, parse_attributes k (flat_map attr_wire l ++ end_wire e) = Ok A /\
    Forall2 (fun r a => a_flag a = r_flag r /\ attr_code (a_value a) = r_code r /\ reported k r (a_value a)) l (at_inner A) /\
    (forall w, In w (at_warnings A) <-> block_warning k l e w) /\
    (forall c, has_attr A c = true <-> In c (map h_code (headers l e))).
Proof.
  intros Hl He Hn. eexists. split; [apply parse_block; auto using raw_ok_fit|]. cbn [at_inner at_warnings].
  split; [|split].
  - clear - Hl. induction Hl as [|r l Hr Hl IH]; cbn [map]; constructor; auto.
    destruct Hr as (_ & Hc & _). destruct (attr_out_spec k r Hc) as (H1 & H2 & H3 & _). auto.
  - intros w. apply block_ws_spec; auto.
  - intros c. unfold has_attr. cbn [at_mask]. rewrite mask_of_bit, N.bits_0. split; [intros [|]; [discriminate|auto]|auto].
Qed.
Lemma parse_attributes_cases k l e : Forall raw_ok l -> end_ok e ->
  (end_in_header e -> exists er, parse_attributes k (flat_map attr_wire l ++ end_wire e) = Err er).
Proof.
  intros Hl He Hn. destruct e as [| |f c x]; try elim Hn. destruct He as (H1 & H2 & H3 & H4). unfold parse_attributes. cbn [end_wire].
  destruct (loop_header_end k l f c x Hl H1 H2 H3 H4 (length (flat_map attr_wire l ++ [f; c; x])) 0) as [er E]; [lia|].
  rewrite E. exists er. reflexivity.
Qed.
Lemma parse_attributes_np k s : np (parse_attributes k s).
Proof.
  unfold parse_attributes. apply np_rbind; [|intros [[? ?] ?]; discriminate].
  generalize (le_n (length s)). generalize (length s) at 2 3 as fuel. generalize 0 as mask. intros mask fuel. revert mask s.
  induction fuel as [|fuel IH]; intros mask s Hf; cbn [attrs_loop].
  - destruct s; [|cbn in Hf; lia]. discriminate.
  - destruct (Nat.leb_spec 3 (length s)) as [H3|H3]; [|discriminate].
    assert (Hh : np (read_attr_header s)).
    { unfold read_attr_header. apply npp_bind; auto with np. intros f s1. apply npp_bind; auto with np. intros c s2.
      apply npp_bind; [destruct (is_extended f); auto with np|]. intros; discriminate. }
    destruct (read_attr_header s) as [[[[f c] len] s1]| |] eqn:E; cbn [rbind]; [|discriminate|elim (Hh eq_refl)].
    destruct (N.ltb_spec (nlen s1) len) as [Hl|Hl]; [discriminate|].
    assert (Hs1 : (length s1 < length s)%nat).
    { unfold read_attr_header in E. apply bind_inv in E as (f' & t1 & E1 & E). apply bind_inv in E as (c' & t2 & E2 & E).
      apply bind_inv in E as (n' & t3 & E3 & E). apply ret_inv in E as [_ ->].
      apply read_be_len in E1, E2. destruct (is_extended f'); apply read_be_len in E3; lia. }
    assert (Hn2 : (N.to_nat len <= length s1)%nat) by (unfold nlen in Hl; lia).
    rewrite <- (firstn_skipn (N.to_nat len) s1). rewrite split_to_app by (rewrite firstn_length; lia). cbn [rbind].
    pose proof (attr_of_raw_ok k (RawAttr f c (firstn (N.to_nat len) s1))) as Ea. cbn [r_code r_flag r_value] in Ea. rewrite Ea.
    destruct (attr_out _ _) as [a we]. cbn [rbind]. apply np_rbind; [|intros [[? ?] ?]; discriminate].
    apply IH. rewrite skipn_length. lia.
Qed.
Lemma find_map_first {B} (mk : B -> attr_value) (f : attr_value -> option B) l :
  (forall v b, f v = Some b <-> v = mk b) -> first_of mk l (find_map f l).
Proof.
  intros Hf. assert (Hno : forall l', (forall y, In y l' -> f y = None) <-> forall b', ~ In (mk b') l').
  { intros l'. split.
    - intros H b' Hin. apply H in Hin. rewrite (proj2 (Hf _ b') eq_refl) in Hin. discriminate.
    - intros H y Hy. destruct (f y) as [b|] eqn:E; auto. apply Hf in E. subst. elim (H b Hy). }
  destruct (find_map f l) as [b|] eqn:E; cbn [first_of].
  - apply find_map_some in E as (l1 & x & l2 & -> & Ex & Hn). apply Hf in Ex. subst x. exists l1, l2. split; auto. apply Hno; auto.
  - apply Hno. apply find_map_none; auto.
Qed.

(** * AS numbers in the 2-octet form *)
Lemma two_octet_as a b : encode_attribute Bits16 a = Ok b ->
  (forall x i, a_value a = AAggregator x i -> x < 2 ^ 16) /\
  (forall p s x, a_value a = AAsPath p -> In s p -> In x (s_asns s) -> x < 2 ^ 16).
Proof.
  intros H. unfold encode_attribute, with_len in H. apply rbind_inv in H as (y & H & _). apply rbind_inv in H as (v & H & _). split.
  - intros x i E. rewrite E in H. cbn [encode_attr_value encode_aggregator] in H. unfold check_max in H.
    change (2 ^ 16) with 65536. destruct (N.ltb_spec 65535 x); [discriminate|lia].
  - intros p s x E Hs Hx. rewrite E in H. cbn [encode_attr_value] in H. unfold encode_as_path in H. apply rbind_inv in H as (bs & H & _).
    apply rmap_ok in H. clear E. induction H as [|s' b' p bs H _ IH]; [destruct Hs|]. destruct Hs as [->|Hs]; auto.
    apply encode_seg_inv in H as (_ & _ & F). specialize (F eq_refl). rewrite Forall_forall in F. exact (F x Hx).
Qed.
