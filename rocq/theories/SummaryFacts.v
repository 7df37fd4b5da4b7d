(** Proofs about one-line texts. *)
From Coq Require Import String Lia ZifyBool ZifyNat ZifyN.
From Verif Require Import Base BaseFacts Reader Tac Net NetSpec AsPath Mpls Nlri NlriSpec Attr BgpMsg Bgp4mp TableDump Stream Framing FramingFacts MrtRecord Elem JsonSpec Filter FilterFacts Text
  Psv PsvSpec PsvFacts PsvCommFacts PsvLineFacts Render RenderSpec RenderFacts RenderReadFacts RenderTellFacts RangeSpec RangeFacts Summary SummarySpec.
Local Open Scope string_scope.
Local Open Scope list_scope.
Local Open Scope N_scope.

(** * Lines as columns *)
Lemma state_named s : state_name s = name_in states (state_eqb s).
Proof. destruct s; reflexivity. Qed.
Lemma table_named t : In t (map fst table_types) -> v2_name t = name_in table_types (N.eqb t).
Proof. cbn [map fst table_types In]. intros H. repeat (destruct H as [<-|H]; [reflexivity|]). destruct H. Qed.
Lemma record_named t : In t (map fst record_types) -> etype_name t = name_in record_types (N.eqb t).
Proof. cbn [map fst record_types In]. intros H. repeat (destruct H as [<-|H]; [reflexivity|]). destruct H. Qed.
Lemma word_named m : bgp_word m = str (word_name (word_of m)).
Proof. destruct m; reflexivity. Qed.
Lemma bar2 a l : l <> [] -> a ++ str "|" ++ bars l = bars (a :: l).
Proof. destruct l; [congruence|reflexivity]. Qed.
Lemma message_bars T m : brief_ok (brief_of m) -> show_message T m = bars (brief_columns T (brief_of m)).
Proof.
  destruct m as [d|l|[t|r| |t]|[x|x]|[x|x]]; cbn [brief_of brief_ok show_message brief_columns bars join map]; intros O; rewrite <- ?state_named, ?word_named; try reflexivity.
  destruct O as [O _]. rewrite (table_named _ O). reflexivity.
Qed.
Lemma brief_some T b : brief_columns T b <> [].
Proof. destruct b as [| | | | | |[]|]; discriminate. Qed.
Definition head_columns (h : header) : list bytes := [str "MRT"; clock h; name_in record_types (N.eqb (h_type h)); dec (h_sub h)].
Lemma record_bars T r : type_ok (mr_hdr r) -> brief_ok (brief_of (mr_msg r)) ->
  show_record T r = bars (head_columns (mr_hdr r) ++ brief_columns T (brief_of (mr_msg r))).
Proof.
  intros H B. unfold show_record. cbv zeta. rewrite message_bars, record_named by assumption. cbn [head_columns app].
  rewrite <- !bar2 by (try discriminate; apply brief_some). reflexivity.
Qed.
Lemma header_bars h : type_ok h -> show_header h = bars (head_columns h ++ [dec (h_len h)]).
Proof. intros H. unfold show_header. rewrite record_named by assumption. reflexivity. Qed.

(** * No column has a bar *)
Lemma ip_nobar T i : shows_ok T -> ip_ok i -> ~ In 124 (sh_ip T i).
Proof.
  intros (_ & _ & _ & _ & _ & I4 & I6 & _) H. destruct i as [n|n]; [apply (dots_no 124 _ (proj2 (I4 n H))); reflexivity|apply (cols_no 124 _ (proj1 (I6 n H))); reflexivity].
Qed.
Lemma clock_nobar h : ~ In 124 (clock h).
Proof.
  unfold clock. destruct (h_us h); [|apply dec_no; lia]. apply no_app; [apply dec_no; lia|]. apply no_app; [nolit|]. unfold six.
  apply no_app; [|apply dec_no; lia]. intros I. apply repeat_spec in I. discriminate I.
Qed.
Lemma name_nobar {A} (l : list (A * string)) f : forallb (fun x => forallb (fun c => negb (c =? 124)) (str (snd x))) l = true -> ~ In 124 (name_in l f).
Proof.
  intros H. unfold name_in. destruct (List.find _ l) as [x|] eqn:E; [|intros []]. apply find_some in E as [E _]. rewrite forallb_forall in H. apply no_str. exact (H x E).
Qed.
Lemma head_nobar h : Forall (fun s => ~ In 124 s) (head_columns h).
Proof.
  repeat constructor; [nolit|apply clock_nobar|apply name_nobar; reflexivity|apply dec_no; lia].
Qed.
Lemma brief_nobar T b : shows_ok T -> brief_ok b -> Forall (fun s => ~ In 124 s) (brief_columns T b).
Proof.
  intros O. assert (R : forall n, net_ok n -> ~ In 124 (sh_ip T (net_addr n) ++ str "/" ++ dec (net_len n))).
  { intros n [H _]. apply no_app; [apply ip_nobar; assumption|]. apply no_app; [nolit|apply dec_no; lia]. }
  assert (D : forall n, ~ In 124 (dec n)) by (intros; apply dec_no; lia).
  destruct b as [n i|k|k|t n k| |k|old i a s t|old i a w]; cbn [brief_ok brief_columns]; intros B; try destruct B; repeat constructor;
    try nolit; auto; try (apply ip_nobar; auto); try (apply no_app; [auto|nolit]); try (apply name_nobar; reflexivity).
  - destruct old; repeat constructor; try nolit; auto; try (apply ip_nobar; auto); (apply no_app; [|apply no_app; [nolit|]]; apply name_nobar; reflexivity).
  - destruct old; nolit.
  - destruct w; nolit.
Qed.
Lemma record_columns T r : shows_ok T -> type_ok (mr_hdr r) -> brief_ok (brief_of (mr_msg r)) ->
  columns (show_record T r) = head_columns (mr_hdr r) ++ brief_columns T (brief_of (mr_msg r)).
Proof.
  intros O H B. rewrite record_bars by assumption. apply split_join; [discriminate|]. apply Forall_app. split; [apply head_nobar|apply brief_nobar; assumption].
Qed.
Lemma header_columns h : type_ok h -> columns (show_header h) = head_columns h ++ [dec (h_len h)].
Proof.
  intros H. rewrite header_bars by assumption. apply split_join; [discriminate|]. apply Forall_app. split; [apply head_nobar|]. repeat constructor. apply dec_no. lia.
Qed.
Lemma clock_text h : time_text h (clock h).
Proof. unfold time_text, clock. destruct (h_us h) as [us|]; [|reflexivity]. destruct (six_text us) as (z & E & H). exists z. rewrite E. split; [reflexivity|exact H]. Qed.

(** * What the columns tell *)
Lemma record_type_tells s t : In s (map fst record_types) -> In t (map fst record_types) -> name_in record_types (N.eqb s) = name_in record_types (N.eqb t) -> s = t.
Proof.
  cbn [map fst record_types In]. intros S T. repeat (destruct S as [<-|S]; [repeat (destruct T as [<-|T]; [intros E; first [reflexivity|discriminate E]|]); destruct T|]). destruct S.
Qed.
Lemma table_type_tells s t : In s (map fst table_types) -> In t (map fst table_types) -> name_in table_types (N.eqb s) = name_in table_types (N.eqb t) -> s = t.
Proof.
  cbn [map fst table_types In]. intros S T. repeat (destruct S as [<-|S]; [repeat (destruct T as [<-|T]; [intros E; first [reflexivity|discriminate E]|]); destruct T|]). destruct S.
Qed.
Lemma states_tell s t s' t' : name_in states (state_eqb s) ++ str "->" ++ name_in states (state_eqb t) = name_in states (state_eqb s') ++ str "->" ++ name_in states (state_eqb t') -> s = s' /\ t = t'.
Proof. destruct s, s'; destruct t, t'; intros E; first [split; reflexivity|discriminate E]. Qed.
Lemma word_tells v w : str (word_name v) = str (word_name w) -> v = w.
Proof. destruct v, w; intros E; first [reflexivity|discriminate E]. Qed.
Lemma head_tells g h : type_ok g -> type_ok h -> head_columns g = head_columns h -> h_ts g = h_ts h /\ h_us g = h_us h /\ h_type g = h_type h /\ h_sub g = h_sub h.
Proof.
  unfold head_columns. intros G H E. injection E as E1 E2 E3. apply clock_tells in E1 as [A B]. apply record_type_tells in E2; auto. apply dec_inj in E3. auto.
Qed.
Lemma route_tells T m n : shows_ok T -> net_ok m -> net_ok n -> sh_ip T (net_addr m) ++ str "/" ++ dec (net_len m) = sh_ip T (net_addr n) ++ str "/" ++ dec (net_len n) -> m = n.
Proof. intros O M N. apply (net_tells T m n O M N). Qed.
Lemma counts_tell m n (w : bytes) : dec m ++ w = dec n ++ w -> m = n.
Proof. intros E. apply app_inv_tail, dec_inj in E. exact E. Qed.
Lemma brief_tells T b c : shows_ok T -> brief_ok b -> brief_ok c -> brief_columns T b = brief_columns T c -> b = c.
Proof.
  intros O. destruct b as [n i|k|k|t n k| |k|[] i a s t|[] i a w], c as [n' i'|k'|k'|t' n' k'| |k'|[] i' a' s' t'|[] i' a' w']; cbv zeta; cbn [brief_ok brief_columns app];
    intros B C E; try discriminate E; try reflexivity; try (apply (f_equal (@List.length _)) in E; discriminate E).
  - assert (E1 := f_equal (fun l => nth 1 l []) E). assert (E2 := f_equal (fun l => nth 2 l []) E). cbn [nth] in E1, E2. apply route_tells in E1; [|tauto..]. apply (ip_tells T) in E2; [|tauto..]. congruence.
  - assert (E1 := f_equal (fun l => nth 1 l []) E). cbn [nth] in E1. apply counts_tell in E1. congruence.
  - assert (E1 := f_equal (fun l => nth 1 l []) E). cbn [nth] in E1. apply dec_inj in E1. congruence.
  - assert (E1 := f_equal (fun l => nth 1 l []) E). assert (E2 := f_equal (fun l => nth 2 l []) E). assert (E3 := f_equal (fun l => nth 3 l []) E). cbn [nth] in E1, E2, E3.
    apply table_type_tells in E1; [|tauto..]. apply route_tells in E2; [|tauto..]. apply counts_tell in E3. congruence.
  - assert (E1 := f_equal (fun l => nth 1 l []) E). cbn [nth] in E1. apply counts_tell in E1. congruence.
  - assert (E1 := f_equal (fun l => nth 2 l []) E). assert (E2 := f_equal (fun l => nth 3 l []) E). assert (E3 := f_equal (fun l => nth 4 l []) E). cbn [nth] in E1, E2, E3.
    apply (ip_tells T) in E1; [|tauto..]. apply dec_inj in E2. apply states_tell in E3 as [-> ->]. congruence.
  - assert (E1 := f_equal (fun l => nth 1 l []) E). assert (E2 := f_equal (fun l => nth 2 l []) E). assert (E3 := f_equal (fun l => nth 3 l []) E). cbn [nth] in E1, E2, E3.
    apply (ip_tells T) in E1; [|tauto..]. apply dec_inj in E2. apply states_tell in E3 as [-> ->]. congruence.
  - assert (E1 := f_equal (fun l => nth 1 l []) E). assert (E2 := f_equal (fun l => nth 2 l []) E). assert (E3 := f_equal (fun l => nth 3 l []) E). cbn [nth] in E1, E2, E3.
    apply (ip_tells T) in E1; [|tauto..]. apply dec_inj in E2. apply word_tells in E3 as ->. congruence.
  - assert (E1 := f_equal (fun l => nth 1 l []) E). assert (E2 := f_equal (fun l => nth 2 l []) E). assert (E3 := f_equal (fun l => nth 3 l []) E). cbn [nth] in E1, E2, E3.
    apply (ip_tells T) in E1; [|tauto..]. apply dec_inj in E2. apply word_tells in E3 as ->. congruence.
Qed.
Lemma record_tells T r s : shows_ok T -> type_ok (mr_hdr r) -> type_ok (mr_hdr s) -> brief_ok (brief_of (mr_msg r)) -> brief_ok (brief_of (mr_msg s)) ->
  show_record T r = show_record T s <->
  h_ts (mr_hdr r) = h_ts (mr_hdr s) /\ h_us (mr_hdr r) = h_us (mr_hdr s) /\ h_type (mr_hdr r) = h_type (mr_hdr s) /\ h_sub (mr_hdr r) = h_sub (mr_hdr s) /\
  brief_of (mr_msg r) = brief_of (mr_msg s).
Proof.
  intros O R S A B. split.
  - intros E. apply (f_equal columns) in E. rewrite !record_columns in E by assumption.
    assert (E1 := f_equal (firstn 4) E). assert (E2 := f_equal (skipn 4) E). cbn [head_columns app firstn skipn] in E1, E2.
    apply head_tells in E1; auto. apply brief_tells in E2; auto. tauto.
  - intros (E1 & E2 & E3 & E4 & E5). rewrite !record_bars by assumption. unfold head_columns, clock. rewrite E1, E2, E3, E4, E5. reflexivity.
Qed.
Lemma header_tells g h : type_ok g -> type_ok h -> show_header g = show_header h <-> g = h.
Proof.
  intros G H. split; [|intros ->; reflexivity]. intros E. apply (f_equal columns) in E. rewrite !header_columns in E by assumption.
  assert (E1 := f_equal (firstn 4) E). assert (E2 := f_equal (fun l => nth 4 l []) E). cbn [head_columns app firstn nth] in E1, E2.
  apply head_tells in E1; auto. apply dec_inj in E2. destruct g, h. cbn in *. destruct E1 as (-> & -> & -> & ->). congruence.
Qed.

(** * Records that are parsed *)
Lemma mp_state_brief al t s m : bytes_ok s -> parse_mp_state_change al t s = Ok m -> ip_ok (ms_peer m).
Proof.
  intros Hs. unfold parse_mp_state_change. generalize (match al with Bits16 => nlen s =? 8 | Bits32 => false end) as z. intros z.
  apply (y_run _ (fun m => ip_ok (ms_peer m))); auto.
  eapply y_bind; [apply y_asn|]. intros pa _. eapply y_bind; [apply y_asn|]. intros la _. destruct z.
  - eapply y_bind; [exact y_state|]. intros o _. eapply y_bind; [exact y_state|]. intros n _. apply y_ret. reflexivity.
  - eapply y_bind; [exact y_u16|]. intros i _. eapply y_bind; [apply y_afi|]. intros a _.
    eapply (y_bind _ _ (fun _ => True)); [apply y_lift; auto|]. intros k _.
    eapply y_bind; [apply y_addr|]. intros pi Hpi. eapply y_bind; [apply y_addr|]. intros li _.
    eapply y_bind; [exact y_state|]. intros o _. eapply y_bind; [exact y_state|]. intros n _. apply y_ret. exact Hpi.
Qed.
Lemma legacy_brief sub s m : bytes_ok s -> parse_legacy sub s = Ok m -> brief_ok (brief_of (MrtLegacy m)).
Proof.
  intros Hs H. pose proof (legacy_ranged _ _ _ Hs H) as R. destruct m as [x|x]; [exact (proj1 (proj2 R))|]. cbn [brief_of brief_ok].
  assert (G : forall k l, run (pa <- read_u16 ;; pi <- read_ipv4 ;; la <- read_u16 ;; li <- read_ipv4 ;;
           r <- peek ;; m <- lift (parse_legacy_payload k r) ;; ret (LgMessage (LgMsg pa (V4 pi) la (V4 li) m))) s = Ok l -> match l with LgMessage _ => True | _ => False end).
  { intros k l. apply (y_run _ (fun l => match l with LgMessage _ => True | _ => False end)); auto.
    eapply y_bind; [exact y_u16|]. intros pa _. eapply y_bind; [exact y_u32|]. intros pi _. eapply y_bind; [exact y_u16|]. intros la _. eapply y_bind; [exact y_u32|]. intros li _.
    eapply y_bind; [apply y_peek|]. intros r _. eapply (y_bind _ _ (fun _ => True)); [apply y_lift; auto|]. intros b _. apply y_ret. exact I. }
  assert (G2 : forall l, run (pa <- read_u16 ;; pi <- read_ipv4 ;; o <- read_state ;; n <- read_state ;;
           r <- peek ;; match r with [] => ret (LgStateChange (LgState pa (V4 pi) o n)) | _ => fail EParse end) s = Ok l -> match l with LgStateChange x => ip_ok (ls_peer x) | _ => False end).
  { intros l. apply (y_run _ (fun l => match l with LgStateChange x => ip_ok (ls_peer x) | _ => False end)); auto.
    eapply y_bind; [exact y_u16|]. intros pa _. eapply y_bind; [exact y_u32|]. intros pi Hpi. eapply y_bind; [exact y_state|]. intros o _. eapply y_bind; [exact y_state|]. intros n _.
    eapply y_bind; [apply y_peek|]. intros r _. destruct r; [apply y_ret; exact Hpi|apply y_fail]. }
  unfold parse_legacy in H.
  repeat match type of H with match ?x with _ => _ end = _ => destruct x; try discriminate H end; first [destruct (G _ _ H)|exact (G2 _ H)].
Qed.
Lemma rib_brief k s r : bytes_ok s -> parse_rib k s = Ok r -> rb_type r = k /\ rib_family k <> None /\ net_ok (p_net (rb_prefix r)).
Proof.
  intros Hs. unfold parse_rib. destruct (rib_family k) as [[a sf]|]; [|discriminate]. intros H.
  enough (rb_type r = k /\ net_ok (p_net (rb_prefix r))) by (split; [tauto|split; [discriminate|tauto]]). revert H.
  apply (y_run _ (fun r => rb_type r = k /\ net_ok (p_net (rb_prefix r)))); auto.
  eapply y_bind; [exact y_u32|]. intros q _. eapply y_bind; [apply y_prefix|]. intros p Hp. eapply y_bind; [exact y_u16|]. intros c _.
  eapply y_bind; [apply y_peek|]. intros d Hd. eapply (y_bind _ _ (fun _ => True)); [apply y_lift; auto|].
  intros l Hl. apply y_ret. split; [reflexivity|apply Hp].
Qed.
Lemma rib_kinds k : rib_family k <> None -> In k (map fst table_types).
Proof. unfold rib_family. destruct k as [|p]; [intros H; congruence|]. do 4 (try (destruct p as [p|p|])); cbn [map fst table_types In]; intros H; try congruence; tauto. Qed.
Lemma known_types t : etype_known t = true -> In t (map fst record_types).
Proof.
  unfold etype_known. cbn [existsb map fst record_types In]. intros H. 
  assert (t <= 13 \/ t = 16 \/ t = 17 \/ t = 32 \/ t = 33 \/ t = 48 \/ t = 49) by lia.
  assert (t = 0 \/ t = 1 \/ t = 2 \/ t = 3 \/ t = 4 \/ t = 5 \/ t = 6 \/ t = 7 \/ t = 8 \/ t = 9 \/ t = 10 \/ t = 11 \/ t = 12 \/ t = 13 \/ t = 16 \/ t = 17 \/ t = 32 \/ t = 33 \/ t = 48 \/ t = 49) by lia.
  intuition auto.
Qed.
Lemma parsed_brief ty sub s m : bytes_ok s -> parse_mrt_body ty sub s = Ok m -> In ty (map fst record_types) /\ brief_ok (brief_of m).
Proof.
  intros Hs H. pose proof (mrt_body_ranged _ _ _ _ Hs H) as R. unfold parse_mrt_body in H. destruct (etype_known ty) eqn:K; [|discriminate H]. split; [apply known_types, K|]. cbn [negb] in H.
  repeat match type of H with match ?x with _ => _ end = _ => destruct x; try discriminate H end; apply rbind_inv in H as (x & H & E).
  all: try (assert (m = MrtLegacy x) by congruence; subst m; exact (legacy_brief _ _ _ Hs H)).
  all: try (destruct m as [d|l|v|v|v]; try exact I; try (destruct x as [|? x]; [discriminate E|destruct x; discriminate E]); try discriminate E; cbn [brief_of brief_ok body_ranged] in *;
    try (split; apply R)).
  - destruct v as [t|r| |t]; try exact I. assert (x = V2Rib r) by congruence. subst x. unfold parse_dump_v2 in H.
    assert (G : forall k, (y <~ parse_rib k s ;; Ok (V2Rib y)) = Ok (V2Rib r) -> In (rb_type r) (map fst table_types) /\ net_ok (p_net (rb_prefix r))).
    { intros k F. apply rbind_inv in F as (y & F & Q). assert (y = r) by congruence. subst y. apply rib_brief in F as (F1 & F2 & F3); auto. split; [rewrite F1; apply rib_kinds, F2|exact F3]. }
    repeat match type of H with match ?x with _ => _ end = _ => destruct x; try discriminate H end; try exact (G _ H); apply rbind_inv in H as (y & H & Q); discriminate Q.
  - destruct v as [w|w]; [|apply R]. assert (x = MpStateChange w) by congruence. subst x. unfold parse_bgp4mp in H.
    repeat match type of H with match ?x with _ => _ end = _ => destruct x; try discriminate H end; apply rbind_inv in H as (y & H & Q); try discriminate Q;
      assert (y = w) by congruence; subst y; exact (mp_state_brief _ _ _ _ Hs H).
  - destruct v as [w|w]; [|apply R]. assert (x = MpStateChange w) by congruence. subst x. unfold parse_bgp4mp in H.
    repeat match type of H with match ?x with _ => _ end = _ => destruct x; try discriminate H end; apply rbind_inv in H as (y & H & Q); try discriminate Q;
      assert (y = w) by congruence; subst y; exact (mp_state_brief _ _ _ _ Hs H).
Qed.

(** * Next hops *)
Lemma low_no c b : b < 256 -> ~ In c (str "0123456789abcdef") -> ~ In c (low_octet b).
Proof.
  intros B N I. rewrite low_hexadecimal in I by exact B. destruct (octet_halves b B) as (B1 & B2 & _).
  assert (D : forall n, n < 16 -> In (digit_at n) (str "0123456789abcdef")) by (intros n H; apply nth_In; cbn; lia).
  destruct I as [I|[I|[]]]; apply N; rewrite <- I; apply D; assumption.
Qed.
Lemma lows_tell a : forall b, bytes_ok a -> bytes_ok b -> map low_octet a = map low_octet b -> a = b.
Proof.
  induction a as [|x a IH]; intros [|y b] A B E; try discriminate E; [reflexivity|]. apply Forall_cons_iff in A as [X A], B as [Y B]. cbn [map] in E.
  assert (E1 := f_equal (hd []) E). assert (E2 := f_equal (@tl _) E). cbn [hd tl] in E1, E2. apply low_tells in E1; auto. f_equal; auto.
Qed.
Lemma rd_split d : split_on 58 (show_rd d) = map low_octet (be 8 d).
Proof.
  unfold show_rd, colons. apply split_join; [discriminate|]. apply Forall_map. eapply Forall_impl; [|apply (be_ok 8 d)]. intros b B. apply low_no; [exact B|]. apply no_str. reflexivity.
Qed.
Lemma rd_tells d e : d < 2 ^ 64 -> e < 2 ^ 64 -> show_rd d = show_rd e -> d = e.
Proof.
  intros D E H. apply (f_equal (split_on 58)) in H. rewrite !rd_split in H. apply lows_tell in H; [|apply be_ok..].
  apply (f_equal be_val) in H. rewrite !be_val_be_small in H by assumption. exact H.
Qed.
Lemma v6_first T a c t : shows_ok T -> a < 2 ^ 128 -> ~ In c (str "0123456789abcdef:.") -> sh_ip T (V6 a) <> c :: t.
Proof. intros (_ & _ & _ & _ & _ & _ & I6 & _) A N E. destruct (I6 a A) as [F _]. rewrite E in F. apply Forall_cons_iff in F as [F _]. exact (N F). Qed.
Lemma v4_first T a c t : shows_ok T -> a < 2 ^ 32 -> ~ In c (str "0123456789.") -> sh_ip T (V4 a) <> c :: t.
Proof. intros (_ & _ & _ & _ & _ & I4 & _) A N E. destruct (I4 a A) as [_ F]. rewrite E in F. apply Forall_cons_iff in F as [F _]. exact (N F). Qed.
Lemma v6_no T a c : shows_ok T -> a < 2 ^ 128 -> forallb (fun x => negb (x =? c)) (str "0123456789abcdef:.") = true -> ~ In c (sh_ip T (V6 a)).
Proof. intros (_ & _ & _ & _ & _ & _ & I6 & _) A N I. destruct (I6 a A) as [F _]. rewrite Forall_forall in F. apply F in I. revert I. apply no_str, N. Qed.
Lemma rd_no d c : forallb (fun x => negb (x =? c)) (str "0123456789abcdef:") = true -> ~ In c (show_rd d).
Proof.
  intros N. assert (C : c <> 58) by (intros ->; discriminate N). assert (M : ~ In c (str "0123456789abcdef")).
  { apply no_str. rewrite forallb_forall in *. intros x X. apply N. change (str "0123456789abcdef:") with (str "0123456789abcdef" ++ [58]). apply in_or_app. left. exact X. }
  unfold show_rd, colons. pose proof (be_ok 8 d) as B. induction B as [|x l X L IH]; [intros []|]. cbn [map join].
  destruct (map low_octet l) as [|y m] eqn:E; [apply low_no; assumption|]. apply no_app; [apply low_no; assumption|]. apply no_app; [|exact IH]. intros [I|[]]. congruence.
Qed.
Lemma hop_tells T m n : shows_ok T -> nh_ok m -> nh_ok n -> show_hop T m = show_hop T n <-> nh_addr m = nh_addr n.
Proof.
  intros O M N. assert (E : forall n, show_hop T n = sh_ip T (nh_addr n)) by (intros []; reflexivity). rewrite !E.
  apply (ip_tells T); auto; [destruct m|destruct n]; cbn in *; tauto.
Qed.
Lemma debug_hop_tells T m n : shows_ok T -> nh_ok m -> nh_ok n -> debug_hop T m = debug_hop T n <-> m = n.
Proof.
  intros O M N. split; [|intros ->; reflexivity]. intros E.
  assert (P : forall a b, a < 2 ^ 128 -> b < 2 ^ 128 -> sh_ip T (V6 a) = sh_ip T (V6 b) -> a = b).
  { intros a b A B H. apply (ip_tells T) in H; auto. congruence. }
  assert (Q : forall a b, a < 2 ^ 128 -> b < 2 ^ 128 -> sh_ip T (V6 a) ++ str ")" = sh_ip T (V6 b) ++ str ")" -> a = b).
  { intros a b A B H. apply app_inv_tail in H. auto. }
  assert (V : forall a b s t, a < 2 ^ 128 -> b < 2 ^ 128 -> sh_ip T (V6 a) ++ str ", " ++ s = sh_ip T (V6 b) ++ str ", " ++ t -> a = b /\ s = t).
  { intros a b s t A B H. apply (break 44 _ (str " " ++ s) _ (str " " ++ t)) in H; [|apply v6_no; auto..]. destruct H as [H1 H2]. apply app_inv_head in H2. auto. }
  assert (D : forall a b s t, a < 2 ^ 64 -> b < 2 ^ 64 -> show_rd a ++ str ", " ++ s = show_rd b ++ str ", " ++ t -> a = b /\ s = t).
  { intros a b s t A B H. apply (break 44 _ (str " " ++ s) _ (str " " ++ t)) in H; [|apply rd_no; auto..]. destruct H as [H1 H2]. apply app_inv_head in H2. apply rd_tells in H1; auto. }
  assert (X : ~ In 73 (str "0123456789abcdef:.") /\ ~ In 86 (str "0123456789abcdef:.") /\ ~ In 73 (str "0123456789.") /\ ~ In 86 (str "0123456789.")) by (repeat split; nolit).
  destruct X as (X1 & X2 & X3 & X4).
  destruct m as [a|a|a l|d a|d a f l], n as [b|b|b k|e b|e b g k]; cbn [debug_hop nh_ok] in *;
    try (exfalso; first [exact (v4_first T a 73 _ O M X3 E)|exact (v4_first T a 86 _ O M X4 E)|exact (v6_first T a 73 _ O M X1 E)|exact (v6_first T a 86 _ O M X2 E)
      |exact (v4_first T b 73 _ O N X3 (eq_sym E))|exact (v4_first T b 86 _ O N X4 (eq_sym E))|exact (v6_first T b 73 _ O N X1 (eq_sym E))|exact (v6_first T b 86 _ O N X2 (eq_sym E))|discriminate E]).
  - apply (ip_tells T) in E; auto. congruence.
  - apply (ip_tells T) in E; auto. discriminate E.
  - apply (ip_tells T) in E; auto. discriminate E.
  - apply P in E; auto. congruence.
  - apply app_inv_head in E. apply V in E; [|tauto..]. destruct E as [-> E]. apply Q in E; [|tauto..]. congruence.
  - apply app_inv_head in E. apply D in E; [|tauto..]. destruct E as [-> E]. apply Q in E; [|tauto..]. congruence.
  - apply app_inv_head in E. apply D in E; [|tauto..]. destruct E as [-> E]. apply V in E; [|tauto..]. destruct E as [-> E].
    apply D in E; [|tauto..]. destruct E as [-> E]. apply Q in E; [|tauto..]. congruence.
Qed.
Lemma rd_text d : split_on 58 (show_rd d) = map hexadecimal (be 8 d).
Proof.
  rewrite rd_split. apply map_ext_in. intros b I. apply low_hexadecimal. pose proof (be_ok 8 d) as B. unfold bytes_ok in B. rewrite Forall_forall in B. exact (B b I).
Qed.
