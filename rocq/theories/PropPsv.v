(** C88: text forms of elements. *)
From Coq Require Import String Lia ZifyBool ZifyNat ZifyN Floats.SpecFloat.
From Verif Require Import Base BaseFacts Net NetSpec AsPath Community CommunitySpec Attr Elem Filter FilterFacts Text Psv PsvSpec PsvFacts PsvCommFacts PsvLineFacts.

(** ** C88: a line of text has its columns and tells the fields. *)
(** The header names the columns; a line of an element splits at bars into their texts. *)
Theorem C88_header T e : split_on 124 psv_header = map (fun c => str (fst c)) (columns T e).
Proof. reflexivity. Qed.
Print Assumptions C88_header.
Theorem C88_psv T e : shows_ok T -> fields_ok e -> split_on 124 (to_psv T e) = map snd (columns T e).
Proof. exact (psv_columns T e). Qed.
Print Assumptions C88_psv.
(** [Display] has the same but two of the columns, that of a route the first six. *)
Theorem C88_display T e : shows_ok T -> fields_ok e -> split_on 124 (show_elem T e) = map snd (without ["origin_asns"; "only_to_customer"]%string (columns T e)).
Proof. exact (display_columns T e). Qed.
Print Assumptions C88_display.
Theorem C88_route T r : shows_ok T -> route_ok r -> split_on 124 (show_route T r) = map snd (firstn 6 (columns T (elem_of_route r))).
Proof. exact (route_columns T r). Qed.
Print Assumptions C88_route.
(** Each is one line of printable characters. *)
Theorem C88_line T e : shows_ok T -> fields_ok e -> Forall (fun x => 32 <= x <= 126) (to_psv T e) /\ Forall (fun x => 32 <= x <= 126) (show_elem T e).
Proof. exact (line_printable T e). Qed.
Print Assumptions C88_line.
(** Two elements have the same line exactly if their fields are alike. *)
Theorem C88_psv_tells T a b : shows_ok T -> fields_ok a -> fields_ok b -> to_psv T a = to_psv T b <-> psv_alike a b.
Proof. exact (psv_tells T a b). Qed.
Print Assumptions C88_psv_tells.
Theorem C88_display_tells T a b : shows_ok T -> fields_ok a -> fields_ok b -> show_elem T a = show_elem T b <-> elem_alike a b.
Proof. exact (display_tells T a b). Qed.
Print Assumptions C88_display_tells.
Theorem C88_route_tells T a b : shows_ok T -> route_ok a -> route_ok b -> show_route T a = show_route T b <-> route_alike a b.
Proof. exact (route_tells T a b). Qed.
Print Assumptions C88_route_tells.
(** Lists of communities have the same text exactly if they are the same one by one, although
    some texts have spaces within; paths if the same AS numbers and sets follow each other. *)
Theorem C88_communities T l m : shows_ok T -> Forall comm_ok l -> Forall comm_ok m ->
  join [32] (map (show_meta T) l) = join [32] (map (show_meta T) m) <-> Forall2 same_comm l m.
Proof. exact (comms_iff T l m). Qed.
Print Assumptions C88_communities.
Theorem C88_path p q : show_path p = show_path q <-> walk (Some p) = walk (Some q).
Proof. exact (walk_iff (Some p) (Some q)). Qed.
Print Assumptions C88_path.
(** The [Debug] form of a prefix tells its path identifier too. *)
Theorem C88_debug T p q : shows_ok T -> prefix_ok p -> prefix_ok q -> debug_prefix T p = debug_prefix T q <-> p = q.
Proof. exact (debug_tells T p q). Qed.
Print Assumptions C88_debug.

(** Simple texts that meet what is assumed: dotted IPv4 addresses, numbers by sign, mantissa
    and exponent. *)
Definition ex_time (t : f64) : bytes :=
  match t with
  | S754_zero s => (if s then str "-" else []) ++ str "0"
  | S754_infinity s => (if s then str "-" else []) ++ str "inf"
  | S754_nan => str "NaN"
  | S754_finite s m e => (if s then str "-" else []) ++ dec (Npos m) ++ str "." ++ (if (e <? 0)%Z then str "-" else []) ++ dec (Z.abs_N e)
  end.
Definition ex_single (b : N) : bytes := if ((b / 2 ^ 23) mod 256 =? 255) && negb (b mod 2 ^ 23 =? 0) then str "NaN" else dec b.
Definition ex_addr (i : ip) : bytes :=
  match i with
  | V4 n => join [46] [dec (n / 16777216); dec (n / 65536 mod 256); dec (n / 256 mod 256); dec (n mod 256)]
  | V6 n => str "::" ++ dec n
  end.
Definition ex_shows : shows := Shows ex_time ex_single ex_addr.
Lemma dec_listed (s : bytes) n : (forall x, 48 <= x <= 57 -> listed s x = true) -> Forall (fun x => In x s) (dec n).
Proof. intros H. eapply Forall_impl; [|apply dec_digit]. cbn beta. intros x X. apply listed_iff, H, X. Qed.
Lemma digit_in (s : bytes) : forallb (listed s) (str "0123456789") = true -> forall x, 48 <= x <= 57 -> listed s x = true.
Proof.
  intros F x X. rewrite forallb_forall in F. apply F. change (str "0123456789") with [48; 49; 50; 51; 52; 53; 54; 55; 56; 57]. cbn [In]. lia.
Qed.
Lemma listed_all (s t : bytes) : forallb (listed s) t = true -> Forall (fun x => In x s) t.
Proof. rewrite forallb_forall, Forall_forall. intros F x I. apply listed_iff, F, I. Qed.
Lemma ex_time_parts s m e : split_on 46 (ex_time (S754_finite s m e)) = [(if s then str "-" else []) ++ dec (Npos m); (if (e <? 0)%Z then str "-" else []) ++ dec (Z.abs_N e)].
Proof.
  cbn [ex_time]. rewrite app_assoc. change (str "." ++ (if (e <? 0)%Z then str "-" else []) ++ dec (Z.abs_N e)) with (46 :: ((if (e <? 0)%Z then str "-" else []) ++ dec (Z.abs_N e))).
  rewrite split_app, !split_plain; [reflexivity| |]; apply app_no; try (apply dec_no; lia); [destruct (e <? 0)%Z|destruct s]; apply str_no; reflexivity.
Qed.
Lemma sign_dec (a b : bool) m n : (if a then str "-" else []) ++ dec m = (if b then str "-" else []) ++ dec n -> a = b /\ m = n.
Proof.
  intros E. assert (H : forall n t, 45 :: t = dec n -> False) by (intros k t H; pose proof (hd_dec k) as D; rewrite <- H in D; cbn in D; lia).
  destruct a, b; cbn [app] in E; change (str "-") with [45] in E; cbn [app] in E.
  - injection E as E. apply dec_inj in E. auto.
  - exfalso. exact (H _ _ E).
  - exfalso. symmetry in E. exact (H _ _ E).
  - apply dec_inj in E. auto.
Qed.
Lemma ex_time_inj t u : ex_time t = ex_time u -> t = u.
Proof.
  intros E. destruct t as [s|s| |s m e], u as [s'|s'| |s' m' e']; try (destruct s); try (destruct s'); try discriminate E; try reflexivity;
    apply (f_equal (split_on 46)) in E; rewrite ?ex_time_parts in E; try discriminate E.
  all: assert (E1 := f_equal (fun l => nth 0 l []) E); assert (E2 := f_equal (fun l => nth 1 l []) E); cbn [nth] in E1, E2; apply sign_dec in E2 as [E2 E3].
  all: assert (e = e') by (destruct (Z.ltb_spec e 0), (Z.ltb_spec e' 0); try discriminate E2; lia); subst e'.
  1: apply (sign_dec true true) in E1 as [_ E1]. 2: apply (sign_dec true false) in E1 as [E1 _]; discriminate E1. 2: apply (sign_dec false true) in E1 as [E1 _]; discriminate E1. 2: apply (sign_dec false false) in E1 as [_ E1].
  all: injection E1 as ->; reflexivity.
Qed.
Lemma join_listed (s : bytes) c l : In c s -> Forall (Forall (fun x => In x s)) l -> Forall (fun x => In x s) (join [c] l).
Proof. intros C F. apply Forall_forall. intros x I. apply In_join in I as [-> |(t & I & J)]; [exact C|]. rewrite Forall_forall in F. specialize (F t I). rewrite Forall_forall in F. exact (F x J). Qed.
Example C88_ex_shows : shows_ok ex_shows.
Proof.
  assert (DF : forall n, Forall figure (dec n)) by (intros n; apply dec_listed, digit_in; reflexivity).
  assert (LF : forall t, forallb (listed (str "0123456789.-infNa")) t = true -> Forall figure t) by (intros t; apply (listed_all (str "0123456789.-infNa"))).
  split; [|split; [|split; [|split; [|split; [|split; [|split]]]]]]; cbn [sh_time sh_single sh_ip ex_shows].
  - intros [s|s| |s m e] _; cbn [ex_time]; repeat (apply Forall_app; split); try apply DF; try (apply LF; reflexivity); try (destruct s; apply LF; reflexivity). destruct (e <? 0)%Z; apply LF; reflexivity.
  - intros t u _ _. apply ex_time_inj.
  - intros b _. unfold ex_single. destruct (_ && _); [apply LF; reflexivity|apply DF].
  - intros b c _ _. unfold ex_single, nan32. destruct (N.eqb_spec ((b / 2 ^ 23) mod 256) 255) as [B1|B1], (N.eqb_spec (b mod 2 ^ 23) 0) as [B2|B2], (N.eqb_spec ((c / 2 ^ 23) mod 256) 255) as [C1|C1], (N.eqb_spec (c mod 2 ^ 23) 0) as [C2|C2]; cbn [andb negb];
      intros E; try (left; apply dec_inj in E; exact E); try (right; auto; fail);
      (exfalso; match type of E with dec ?n = _ => pose proof (hd_dec n) as H; rewrite E in H | _ = dec ?n => pose proof (hd_dec n) as H; rewrite <- E in H end; vm_compute in H; destruct H as [H1 H2]; first [apply H1; reflexivity|apply H2; reflexivity]).
  - intros b c (B1 & B2) (C1 & C2). unfold ex_single. rewrite (proj2 (N.eqb_eq _ _) B1), (proj2 (N.eqb_eq _ _) C1), (proj2 (N.eqb_neq _ _) B2), (proj2 (N.eqb_neq _ _) C2). reflexivity.
  - intros n _. split; [|apply join_listed; [apply listed_iff; reflexivity|repeat (apply Forall_cons; [apply dec_listed, digit_in; reflexivity|]); apply Forall_nil]].
    cbn [ex_addr join]. pose proof (dec_ne (n / 16777216)). destruct (dec (n / 16777216)); [congruence|discriminate].
  - intros n _. split; [|exists [], [], (dec n); reflexivity]. cbn [ex_addr]. apply Forall_app. split; [apply listed_all; reflexivity|apply dec_listed, digit_in; reflexivity].
  - assert (X : forall a b, ex_addr (V4 a) = ex_addr (V6 b) -> False).
    { intros a b E. cbn [ex_addr join] in E. pose proof (hd_dec (a / 16777216)) as H. pose proof (dec_ne (a / 16777216)). destruct (dec (a / 16777216)); [congruence|]. injection E as E _. cbn [hd] in H. lia. }
    intros [a|a] [b|b] A B E; [|exfalso; exact (X _ _ E)|exfalso; symmetry in E; exact (X _ _ E)|].
    + cbn [ex_addr ip_ok] in *. apply join_inj in E; try discriminate; [|repeat (apply Forall_cons; [apply dec_no; lia|]); apply Forall_nil|repeat (apply Forall_cons; [apply dec_no; lia|]); apply Forall_nil].
      injection E as E1 E2 E3 E4. apply dec_inj in E1, E2, E3, E4. f_equal.
      pose proof (N.div_mod a 256 ltac:(lia)) as A1. pose proof (N.div_mod b 256 ltac:(lia)) as B1.
      pose proof (N.div_mod (a / 256) 256 ltac:(lia)) as A2. pose proof (N.div_mod (b / 256) 256 ltac:(lia)) as B2.
      rewrite N.div_div in A2, B2 by lia. pose proof (N.div_mod (a / 65536) 256 ltac:(lia)) as A3. pose proof (N.div_mod (b / 65536) 256 ltac:(lia)) as B3. rewrite N.div_div in A3, B3 by lia.
      change (256 * 256) with 65536 in *. change (65536 * 256) with 16777216 in *. lia.
    + cbn [ex_addr] in E. apply app_inv_head in E. apply dec_inj in E. subst. reflexivity.
Qed.
(** An element with a path of three kinds of segments and communities of five kinds, one of
    them with spaces in its text. *)
Definition ex_line : elem :=
  Elem (f64_of_N 1700000000) Announce (V4 0xC0000201) 65000 None (Pfx (Net (V4 0x0A000000) 8) (Some 7)) (Some (V4 0xC0000202))
    (Some [Seg KCSeq [64512]; Seg KSeq [65000; 70000]; Seg KSet [1; 2]]) (Some [1; 2]) (Some IGP) (Some 100) None
    (Some [MPlain CNoExport; MExtended (XTrafficRate 65000 1); MLarge (Large 1 2 3); MExtended (XOpaque true 5 [0; 0; 0; 0; 0; 171]); MIpv6Extended (Ipv6Ext TTwoOctetAs 2 1 0 9)])
    true (Some 65000) (Some 0xC0000203) (Some 3356) None None.
Example C88_ex_fields : fields_ok ex_line.
Proof. unfold fields_ok, binary64, net_ok. cbn. repeat split; try reflexivity; try discriminate. repeat (apply Forall_cons || apply Forall_nil); cbn; unfold large_ok, ipv6_ext_ok, octets_of, bytes_ok; cbn; repeat split; repeat constructor. Qed.
Example C88_ex : to_psv ex_shows ex_line =
  str "A|7130316800000000.-22|192.0.2.1|65000|10.0.0.0/8|64512 65000 70000 {1,2}|1 2|IGP|192.0.2.2|100||no-export rate:1 bytes/sec (AS 65000) 1:2:3 3:5:0000000000AB 0:2:::1:0009|true|65000|192.0.2.3|3356" /\
  length (split_on 124 (to_psv ex_shows ex_line)) = 16%nat.
Proof. split; vm_compute; reflexivity. Qed.
(** Findings.  A line does not tell the path identifier, nor an absent list from an empty one,
    nor a confederation segment from an ordinary one, nor where a sequence ends and the next
    begins; in a list built by hand a link bandwidth may have the text of a two octet
    community of the same subtype. *)
Theorem C88_path_id_refuted : exists a b, p_id (e_prefix a) <> p_id (e_prefix b) /\ forall T, to_psv T a = to_psv T b.
Proof.
  exists (Elem (f64_of_N 1) Announce (V4 1) 1 None (Pfx (Net (V4 0) 8) (Some 1)) None None None None None None None false None None None None None),
    (Elem (f64_of_N 1) Announce (V4 1) 1 None (Pfx (Net (V4 0) 8) (Some 2)) None None None None None None None false None None None None None).
  split; [discriminate|reflexivity].
Qed.
Print Assumptions C88_path_id_refuted.
Theorem C88_segments_refuted : exists p q r s, show_path p = show_path q /\ show_path q = show_path r /\ show_path [] = show_path s /\ p <> q /\ q <> r /\ s <> [] /\
  p = [Seg KCSeq [1]; Seg KSeq [2]] /\ q = [Seg KSeq [1; 2]].
Proof. exists [Seg KCSeq [1]; Seg KSeq [2]], [Seg KSeq [1; 2]], [Seg KSeq [1]; Seg KSeq [2]], [Seg KSeq []]. repeat split; discriminate. Qed.
Print Assumptions C88_segments_refuted.
Theorem C88_bandwidth_refuted : exists a b l c, (forall T, sh_single T b = show_hex l -> show_ext T (XLinkBandwidth true a b) = show_ext T (XTwoOctet true 4 a l)) /\
  c = XTwoOctet true 4 a l /\ length l = 4%nat /\ show_ext ex_shows (XLinkBandwidth true a b) = show_ext ex_shows c.
Proof.
  exists 65000, 12345678, [0x12; 0x34; 0x56; 0x78], (XTwoOctet true 4 65000 [0x12; 0x34; 0x56; 0x78]).
  split; [intros T E; cbn [show_ext]; rewrite E; reflexivity|]. repeat split.
Qed.
Print Assumptions C88_bandwidth_refuted.
