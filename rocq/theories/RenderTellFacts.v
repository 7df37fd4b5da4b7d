(** Proofs about what the layered text tells of a record. *)
From Coq Require Import String Lia ZifyBool ZifyNat ZifyN.
From Verif Require Import Base BaseFacts Tac Net NetSpec AsPath Community CommunitySpec Mpls Nlri LinkState Tlv Attr BgpError Cap BgpMsg Bgp4mp TableDump Framing MrtRecord Elem ElemSpec ElemFacts
  Filter FilterFacts Text Psv PsvSpec PsvFacts PsvCommFacts PsvLineFacts Render RenderSpec RenderFacts RenderReadFacts.
Local Open Scope string_scope.
Local Open Scope list_scope.
Local Open Scope N_scope.

(** * Separators *)
Lemma break (c : N) (a b a' b' : bytes) : ~ In c a -> ~ In c a' -> a ++ c :: b = a' ++ c :: b' -> a = a' /\ b = b'.
Proof.
  revert a'. induction a as [|x a IH]; intros [|y a'] H H' E; cbn [app] in E.
  - injection E as ->. auto.
  - injection E as E1 E2. destruct H'. left. exact (eq_sym E1).
  - injection E as E1 E2. destruct H. left. exact E1.
  - injection E as E1 E2. destruct (IH a') as [-> ->]; auto; [intros I; apply H; right; exact I|intros I; apply H'; right; exact I|]. subst y. auto.
Qed.
Lemma no_app (c : N) a b : ~ In c a -> ~ In c b -> ~ In c (a ++ b).
Proof. intros A B I. apply in_app_or in I. destruct I; auto. Qed.
Lemma no_str (c : N) b : forallb (fun x => negb (x =? c)) b = true -> ~ In c b.
Proof. rewrite forallb_forall. intros F I. apply F in I. lia. Qed.
Ltac nolit := apply no_str; reflexivity.
Lemma ip_no32 T i : shows_ok T -> ip_ok i -> ~ In 32 (sh_ip T i).
Proof.
  intros (_ & _ & _ & _ & _ & I4 & I6 & _) H. destruct i as [n|n]; [apply (dots_no 32 _ (proj2 (I4 n H))); reflexivity|apply (cols_no 32 _ (proj1 (I6 n H))); reflexivity].
Qed.
Lemma net_no32 T n : rtexts_ok T -> net_ok n -> ~ In 32 (net_text T n).
Proof. intros O [H _]. unfold net_text. apply no_app; [apply ip_no32; [apply O|exact H]|]. apply no_app; [nolit|apply dec_no; lia]. Qed.
Lemma nets_tell T m n : rtexts_ok T -> net_ok m -> net_ok n -> net_text T m = net_text T n -> m = n.
Proof. intros O M N E. apply (net_tells (rt T) m n); auto. apply O. Qed.
Lemma ips_tell T i j : rtexts_ok T -> ip_ok i -> ip_ok j -> sh_ip (rt T) i = sh_ip (rt T) j -> i = j.
Proof. intros O A B. apply ip_tells; auto. apply O. Qed.
Lemma ends_tell T x y : rtexts_ok T -> ip_ok (fst x) -> ip_ok (fst y) -> end_text T x = end_text T y -> x = y.
Proof.
  intros O A B E. unfold end_text in E. apply (break 32 _ (str "AS" ++ dec (snd x)) _ (str "AS" ++ dec (snd y))) in E; [|apply ip_no32; [apply O|assumption]..].
  destruct E as [E F]. apply ips_tell in E; auto. apply app_inv_head, dec_inj in F. destruct x, y. cbn in *. congruence.
Qed.
Lemma family_no a s : ~ In 32 (family_text a s).
Proof. destruct a, s; nolit. Qed.
Lemma family_tells a s b t : family_text a s = family_text b t -> a = b /\ s = t.
Proof. destruct a, s, b, t; intros E; first [split; reflexivity|discriminate E]. Qed.

(** * Attributes *)
Lemma path_tells p q : show_path p = show_path q -> walk (Some p) = walk (Some q).
Proof. intros E. apply walk_iff. exact E. Qed.
Lemma comms_tell {A} T (f : A -> meta_community) l m : rtexts_ok T -> Forall (fun c => comm_ok (f c)) l -> Forall (fun c => comm_ok (f c)) m ->
  join (str " ") (map (fun c => show_meta (rt T) (f c)) l) = join (str " ") (map (fun c => show_meta (rt T) (f c)) m) -> Forall2 same_comm (map f l) (map f m).
Proof.
  intros O L M E. apply (proj1 (comms_iff (rt T) (map f l) (map f m) (proj1 O) (proj2 (Forall_map _ _ _) L) (proj2 (Forall_map _ _ _) M))).
  rewrite !map_map. exact E.
Qed.
Lemma sized_tells m n : dec m ++ str " bytes" = dec n ++ str " bytes" -> m = n.
Proof. intros E. apply app_inv_tail, dec_inj in E. exact E. Qed.
Lemma typed_tells c d m n : dec c ++ str "): " ++ dec m ++ str " bytes" = dec d ++ str "): " ++ dec n ++ str " bytes" -> c = d /\ m = n.
Proof.
  intros E. apply (break 41 _ (str ": " ++ dec m ++ str " bytes") _ (str ": " ++ dec n ++ str " bytes")) in E; [|apply dec_no; lia..].
  destruct E as [E F]. apply dec_inj in E. apply app_inv_head, sized_tells in F. auto.
Qed.
Lemma by_tells T a i b j : rtexts_ok T -> i < 2 ^ 32 -> j < 2 ^ 32 ->
  dec a ++ str " by " ++ sh_ip (rt T) (V4 i) = dec b ++ str " by " ++ sh_ip (rt T) (V4 j) -> a = b /\ i = j.
Proof.
  intros O I J E. apply (break 32 _ (str "by " ++ sh_ip (rt T) (V4 i)) _ (str "by " ++ sh_ip (rt T) (V4 j))) in E; [|apply dec_no; lia..].
  destruct E as [E F]. apply dec_inj in E. apply app_inv_head, ips_tell in F; auto. injection F as ->. auto.
Qed.
Lemma hop_tells T n m : rtexts_ok T -> all_opt (fun h => ip_ok (nh_addr h)) (nl_next n) -> all_opt (fun h => ip_ok (nh_addr h)) (nl_next m) ->
  family_text (nl_afi n) (nl_safi n) ++ match option_map nh_addr (nl_next n) with Some i => str " next-hop " ++ sh_ip (rt T) i | None => [] end =
  family_text (nl_afi m) (nl_safi m) ++ match option_map nh_addr (nl_next m) with Some i => str " next-hop " ++ sh_ip (rt T) i | None => [] end ->
  nl_afi n = nl_afi m /\ nl_safi n = nl_safi m /\ option_map nh_addr (nl_next n) = option_map nh_addr (nl_next m).
Proof.
  intros O N M E. destruct (nl_next n) as [h|], (nl_next m) as [k|]; cbn [option_map all_opt] in *.
  - apply (break 32 _ (str "next-hop " ++ sh_ip (rt T) (nh_addr h)) _ (str "next-hop " ++ sh_ip (rt T) (nh_addr k))) in E; try apply family_no.
    destruct E as [E F]. apply family_tells in E. destruct E as [-> ->]. apply app_inv_head, ips_tell in F; auto. rewrite F. auto.
  - rewrite app_nil_r in E. destruct (family_no (nl_afi m) (nl_safi m)). rewrite <- E. apply in_or_app. right. left. reflexivity.
  - rewrite app_nil_r in E. destruct (family_no (nl_afi n) (nl_safi n)). rewrite E. apply in_or_app. right. left. reflexivity.
  - rewrite !app_nil_r in E. apply family_tells in E. destruct E as [-> ->]. auto.
Qed.
Lemma comm2_eq {A} (f : A -> meta_community) l m : (forall x y, same_comm (f x) (f y) -> x = y) -> Forall2 same_comm (map f l) (map f m) -> l = m.
Proof.
  intros H. revert m. induction l as [|x l IH]; intros [|y m] F; cbn [map] in F; inversion F; subst; [reflexivity|]. f_equal; auto.
Qed.
Ltac same E := repeat apply app_inv_head in E.
Lemma attr_tells T v w : rtexts_ok T -> attr_fine v -> attr_fine w -> attr_text T v = attr_text T w -> attr_alike T v w.
Proof.
  intros O F G E. destruct v as [[]| | | | | | | | | | | | | | | | | | | | | | | | | | | | | | ], w as [[]| | | | | | | | | | | | | | | | | | | | | | | | | | | | | | ];
    try discriminate E; cbn [attr_fine] in F, G; cbn [attr_alike]; try reflexivity; cbn [attr_text] in E; try (do 2 apply app_inv_head in E; exact E); same E.
  all: try (apply dec_inj in E; subst; reflexivity).
  all: try exact E.
  all: try (apply path_tells, E).
  all: try (apply sized_tells, E).
  all: try (apply typed_tells, E).
  all: try (apply hop_tells in E; [exact E|assumption|apply F|apply G]; fail).
  all: try (apply family_tells, E; fail).
  all: try (apply by_tells in E; [destruct E as [-> ->]; reflexivity|assumption..]; fail).
  all: try (apply ips_tell in E; [injection E as ->; reflexivity|assumption..]; fail).
  all: try (apply ips_tell in E; [subst; reflexivity|assumption..]; fail).
  all: try (apply (join_decs_inj 32) in E; [subst; reflexivity|lia]; fail).
  - apply comms_tell in E; [|exact O|apply Forall_forall; intros; exact I..]. f_equal. apply (comm2_eq MPlain); [|exact E]. intros x y [H|[]]. injection H as ->. reflexivity.
  - apply comms_tell in E; [exact E|exact O|exact F|exact G].
  - apply comms_tell in E; [|exact O|exact F|exact G]. f_equal. apply (comm2_eq MIpv6Extended); [|exact E]. intros x y [H|[]]. injection H as ->. reflexivity.
  - apply comms_tell in E; [|exact O|exact F|exact G]. f_equal. apply (comm2_eq MLarge); [|exact E]. intros x y [H|[]]. injection H as ->. reflexivity.
Qed.

(** * Warnings *)
Definition octets256 : bytes := map N.of_nat (seq 0 256).
Lemma octet_in c : c < 256 -> In c octets256.
Proof. intros H. unfold octets256. apply in_map_iff. exists (N.to_nat c). split; [lia|]. apply in_seq. lia. Qed.
Lemma atype_tells c d : c < 256 -> d < 256 -> atype_name c = atype_name d -> c = d.
Proof.
  assert (A : forallb (fun c => forallb (fun d => if bytes_eqb (atype_name c) (atype_name d) then c =? d else true) octets256) octets256 = true) by (vm_compute; reflexivity).
  intros C D E. rewrite forallb_forall in A. specialize (A c (octet_in c C)). rewrite forallb_forall in A. specialize (A d (octet_in d D)). rewrite E in A. rewrite bytes_eqb_refl in A. lia.
Qed.
Lemma atype_no c : c < 256 -> ~ In 58 (atype_name c).
Proof.
  assert (A : forallb (fun c => forallb (fun x => negb (x =? 58)) (atype_name c)) octets256 = true) by (vm_compute; reflexivity).
  intros C. rewrite forallb_forall in A. apply no_str, A, octet_in, C.
Qed.
Lemma low_tells a b : a < 256 -> b < 256 -> low_octet a = low_octet b -> a = b.
Proof.
  intros A B E. destruct (octet_halves a A) as (A1 & A2 & A3), (octet_halves b B) as (B1 & B2 & B3). unfold low_octet in E. injection E as E1 E2.
  assert (L : forall x y, x < 16 -> y < 16 -> low_digit x = low_digit y -> x = y) by (unfold low_digit; intros x y X Y; destruct (N.ltb_spec x 10), (N.ltb_spec y 10); lia).
  apply L in E1; auto. apply L in E2; auto. lia.
Qed.
Lemma named_tells c d a b : c < 256 -> d < 256 -> atype_name c ++ 58 :: a = atype_name d ++ 58 :: b -> c = d /\ a = b.
Proof. intros C D E. apply break in E; [|apply atype_no; assumption..]. destruct E as [E F]. apply atype_tells in E; auto. Qed.
Lemma warn_tells T v w : warn_fine v -> warn_fine w -> warn_text T v = warn_text T w -> warn_alike T v w.
Proof.
  intros F G E. destruct v as [c e a|c [e|] a|c|c|c e|c e|c e|[] e b|s|s n], w as [c' e' a'|c' [e'|] a'|c'|c'|c' e'|c' e'|c' e'|[] e' b'|s'|s' n'];
    try discriminate E; cbn [warn_fine] in F, G; cbn [warn_alike]; cbn [warn_text] in E; rewrite <- ?app_assoc, ?app_nil_r in E; same E.
  all: try (apply atype_tells in E; [subst; reflexivity|assumption..]; fail).
  all: try exact E.
  all: try (split; [reflexivity|exact E]).
  - destruct F as (F1 & F2 & F3), G as (G1 & G2 & G3).
    apply (named_tells c c' (str " expected 0x" ++ low_octet e ++ str ", got 0x" ++ low_octet a) (str " expected 0x" ++ low_octet e' ++ str ", got 0x" ++ low_octet a') F1 G1) in E.
    destruct E as [-> E]. apply app_inv_head in E. assert (L : low_octet e = low_octet e') by (injection E as L1 L2 _; unfold low_octet; congruence).
    apply low_tells in L; auto. subst e'. same E. apply low_tells in E; auto. subst. reflexivity.
  - apply (named_tells c c' (str " expected " ++ dec e ++ str ", got " ++ dec a) (str " expected " ++ dec e' ++ str ", got " ++ dec a') F G) in E.
    destruct E as [-> E]. apply app_inv_head in E. apply (break 44 _ (str " got " ++ dec a) _ (str " got " ++ dec a')) in E; [|apply dec_no; lia..].
    destruct E as [E1 E2]. apply dec_inj in E1. apply app_inv_head, dec_inj in E2. subst. reflexivity.
  - apply (named_tells c c' (str " expected " ++ dec e ++ str ", got " ++ dec a) (str " invalid length " ++ dec a') F G) in E. destruct E as [_ E]. discriminate E.
  - apply (named_tells c c' (str " invalid length " ++ dec a) (str " expected " ++ dec e' ++ str ", got " ++ dec a') F G) in E. destruct E as [_ E]. discriminate E.
  - apply (named_tells c c' (str " invalid length " ++ dec a) (str " invalid length " ++ dec a') F G) in E.
    destruct E as [-> E]. apply app_inv_head, dec_inj in E. subst. reflexivity.
  - apply (named_tells c c' (str " " ++ rt_reason T e) (str " " ++ rt_reason T e') F G) in E. destruct E as [-> E]. apply app_inv_head in E. auto.
  - apply (named_tells c c' (str " " ++ rt_reason T e) (str " " ++ rt_reason T e') F G) in E. destruct E as [-> E]. apply app_inv_head in E. auto.
  - apply dec_inj in E. subst. reflexivity.
  - apply (break 58 _ (str " body is " ++ dec n ++ str " bytes, expected 4") _ (str " body is " ++ dec n' ++ str " bytes, expected 4")) in E; [|apply dec_no; lia..].
    destruct E as [E1 E2]. apply dec_inj in E1. apply app_inv_head, app_inv_tail, dec_inj in E2. subst. reflexivity.
Qed.

(** * Routes *)
Lemma commas_tell l m : join (str ", ") (map dec l) = join (str ", ") (map dec m) -> l = m.
Proof.
  revert m. assert (N : forall x (k : list N), join (str ", ") (map dec (x :: k)) <> []).
  { intros x k H. destruct (dec_ok x) as (D & _ & _). destruct k; cbn [map join] in H; [exact (D H)|]. apply app_eq_nil in H. exact (D (proj1 H)). }
  assert (C : forall x, ~ In 44 (dec x)) by (intros x; apply dec_no; lia).
  induction l as [|x l IH]; intros [|y m] E; [reflexivity|destruct (N y m (eq_sym E))|destruct (N x l E)|].
  destruct l as [|x' l], m as [|y' m]; cbn [map join] in E.
  - apply dec_inj in E. subst. reflexivity.
  - destruct (C x). rewrite E. apply in_or_app. right. left. reflexivity.
  - destruct (C y). rewrite <- E. apply in_or_app. right. left. reflexivity.
  - apply (break 44 (dec x) (32 :: join (str ", ") (map dec (x' :: l))) (dec y) (32 :: join (str ", ") (map dec (y' :: m)))) in E; auto.
    destruct E as [E F]. apply dec_inj in E. injection F as F. specialize (IH (y' :: m) F). congruence.
Qed.
Lemma commas_no l : ~ In 93 (join (str ", ") (map dec l)).
Proof.
  induction l as [|x l IH]; [nolit|]. assert (D : ~ In 93 (dec x)) by (apply dec_no; lia). destruct l; [exact D|].
  change (join (str ", ") (map dec (x :: n :: l))) with (dec x ++ str ", " ++ join (str ", ") (map dec (n :: l))). apply no_app; [exact D|]. apply no_app; [nolit|exact IH].
Qed.
Lemma labeled_tells T p q : rtexts_ok T -> net_ok (lp_net p) -> net_ok (lp_net q) -> labeled_text T p = labeled_text T q -> p = q.
Proof.
  intros O P Q E. unfold labeled_text in E.
  apply (break 32 (net_text T (lp_net p)) (str "labels=[" ++ join (str ", ") (map dec (lp_labels p)) ++ str "]" ++ match lp_id p with Some i => str " path-id " ++ dec i | None => [] end)
           (net_text T (lp_net q)) (str "labels=[" ++ join (str ", ") (map dec (lp_labels q)) ++ str "]" ++ match lp_id q with Some i => str " path-id " ++ dec i | None => [] end)) in E; [|apply net_no32; assumption..].
  destruct E as [E F]. apply nets_tell in E; auto. apply app_inv_head in F.
  apply (break 93 (join (str ", ") (map dec (lp_labels p))) (match lp_id p with Some i => str " path-id " ++ dec i | None => [] end)
           (join (str ", ") (map dec (lp_labels q))) (match lp_id q with Some i => str " path-id " ++ dec i | None => [] end)) in F; [|apply commas_no..].
  destruct F as [F G]. apply commas_tell in F. destruct p as [a l [i|]], q as [b m [j|]]; cbn [lp_net lp_labels lp_id] in *; try discriminate G; subst; [|reflexivity].
  apply app_inv_head, dec_inj in G. subst. reflexivity.
Qed.
Lemma map_tells {A} (P : A -> Prop) (f : A -> bytes) (R : A -> A -> Prop) l m : (forall x y, P x -> P y -> f x = f y -> R x y) -> Forall P l -> Forall P m -> map f l = map f m -> Forall2 R l m.
Proof.
  intros H L. revert m. induction L as [|x l X L IH]; intros [|y m] M E; try discriminate E; [constructor|]. cbn [map] in E. injection E as E1 E2. inversion M; subst. constructor; auto.
Qed.
Lemma Forall2_eq {A} (l m : list A) : Forall2 eq l m -> l = m.
Proof. induction 1; congruence. Qed.
Lemma Forall2_map {A B} (f : A -> B) l m : Forall2 (fun x y => f x = f y) l m -> map f l = map f m.
Proof. induction 1; cbn; congruence. Qed.

(** * Time *)
Lemma zeros_val z s : digits_val 0 (repeat 48 z ++ s) = digits_val 0 s.
Proof. induction z as [|z IH]; [reflexivity|]. exact IH. Qed.
Lemma six_tells a b : six a = six b -> a = b.
Proof.
  unfold six. intros E. apply (f_equal (digits_val 0)) in E. rewrite !zeros_val in E. destruct (dec_ok a) as (_ & _ & A), (dec_ok b) as (_ & _ & B). congruence.
Qed.
Lemma clock_tells g h : clock g = clock h -> h_ts g = h_ts h /\ h_us g = h_us h.
Proof.
  assert (C : forall x, ~ In 46 (dec x)) by (intros x; apply dec_no; lia).
  unfold clock. intros E. destruct (h_us g) as [a|], (h_us h) as [b|].
  - apply (break 46 (dec (h_ts g)) (six a) (dec (h_ts h)) (six b)) in E; auto. destruct E as [E F]. apply dec_inj in E. apply six_tells in F. subst. auto.
  - destruct (C (h_ts h)). rewrite <- E. apply in_or_app. right. left. reflexivity.
  - destruct (C (h_ts g)). rewrite E. apply in_or_app. right. left. reflexivity.
  - apply dec_inj in E. auto.
Qed.

(** * Headings *)
Definition below (x : bytes) : Prop := hd 0 x = 32 \/ x = str "RIB_ENTRY:".
Lemma below_deep d l : Forall below (map (deep (S d)) l).
Proof. apply Forall_map, Forall_forall. intros x _. left. reflexivity. Qed.
Lemma below_sect d h l : Forall below (sect (S d) h l).
Proof. destruct l; [constructor|]. unfold sect. constructor; [left; reflexivity|apply below_deep]. Qed.
Lemma below_attrs T d a : Forall below (lay_attrs T (S d) a).
Proof. unfold lay_attrs. apply Forall_app. split; apply below_sect. Qed.
Lemma below_count n k e : Forall below (count_line n k e).
Proof. unfold count_line. destruct (0 <? n); repeat constructor. Qed.
Lemma below_msg T m : Forall below (tl (lay_msg T m)).
Proof.
  destruct m as [o|u|n| |f]; cbn [lay_msg tl app]; try (repeat constructor; fail).
  - repeat (apply Forall_cons; [left; reflexivity|]). destruct (o_params o); [constructor|]. constructor; [left; reflexivity|apply below_deep].
  - unfold lay_update. repeat (apply Forall_app; split); first [apply below_sect|apply below_count].
Qed.
Lemma below_body T r : Forall below (tl (lay_body T r)).
Proof.
  unfold lay_body. destruct (mr_msg r) as [m|l|[t|b| |t]|[m|m]|[m|m]]; cbn [lay_v2 tl]; try apply below_msg; try (repeat constructor; fail).
  - unfold lay_dump. cbn [app tl]. repeat (apply Forall_cons; [left; reflexivity|]). apply below_attrs.
  - apply Forall_flat. intros m. unfold lay_dump. cbn [app]. apply Forall_cons; [right; reflexivity|]. repeat (apply Forall_cons; [left; reflexivity|]). apply below_attrs.
  - apply Forall_map, Forall_forall. intros x _. left. reflexivity.
  - apply Forall_flat. intros m. unfold lay_entry. cbn [app]. repeat (apply Forall_cons; [left; reflexivity|]). apply below_attrs.
Qed.
Definition heads : list string := ["OPEN:"; "UPDATE:"; "NOTIFICATION:"; "KEEPALIVE:"; "ROUTE_REFRESH:"; "STATE_CHANGE:"].
Lemma head_first T r h : In h heads -> In (str h) (lay T r) -> exists t, lay_body T r = str h :: t.
Proof.
  intros H I. rewrite lay_context in I. apply in_app_or in I. destruct I as [I|I].
  - unfold context in I. exfalso.
    repeat (destruct H as [<-|H]; [repeat (apply in_app_or in I; destruct I as [I|I]); destruct (from_in r), (to_in r); cbn [lay_end] in I; repeat (destruct I as [I|I]; try discriminate I); exact I|]). exact H.
  - pose proof (below_body T r) as B. destruct (lay_body T r) as [|x t]; [destruct I|]. destruct I as [->|I]; [eauto|]. exfalso. cbn [tl] in B. rewrite Forall_forall in B. specialize (B _ I).
    repeat (destruct H as [<-|H]; [destruct B as [B|B]; discriminate B|]). exact H.
Qed.
Lemma head_message T r m : message_in r = Some m -> In (str (msg_heading m)) (lay T r).
Proof. intros M. rewrite lay_context, (msg_body T r m M). apply in_or_app. right. destruct m; left; reflexivity. Qed.
Lemma message_head T r h : In h heads -> h <> "STATE_CHANGE:" -> In (str h) (lay T r) -> exists m, message_in r = Some m /\ msg_heading m = h.
Proof.
  intros H N I. destruct (head_first T r h H I) as [t E]. unfold lay_body in E. unfold message_in.
  assert (M : forall m, lay_msg T m = str h :: t -> msg_heading m = h).
  { intros m X. destruct m; cbn [lay_msg app] in X; injection X as X _; repeat (destruct H as [<-|H]; [first [reflexivity|discriminate X]|]); destruct H. }
  destruct (mr_msg r) as [m|l|[x|b| |x]|[m|m]|[m|m]]; cbn [lay_v2] in E; eauto; exfalso;
    repeat (destruct H as [<-|H]; [first [discriminate E|apply N; reflexivity]|]); destruct H.
Qed.
Lemma head_states T r : In (str "STATE_CHANGE:") (lay T r) <-> states_in r <> None.
Proof.
  split.
  - intros I. destruct (head_first T r "STATE_CHANGE:") as [t E]; [cbn; tauto|exact I|]. unfold lay_body in E. unfold states_in.
    destruct (mr_msg r) as [m|l|[x|b| |x]|[m|m]|[m|m]]; cbn [lay_v2] in E; try discriminate E; try discriminate; [destruct (mm_bgp m)|destruct (lg_bgp m)]; discriminate E.
  - intros N. rewrite lay_context. apply in_or_app. right. unfold lay_body. unfold states_in in N. destruct (mr_msg r) as [m|l|[x|b| |x]|[m|m]|[m|m]]; try (destruct N; reflexivity); left; reflexivity.
Qed.
Lemma state_tells a b : state_name a = state_name b -> a = b.
Proof. destruct a, b; intros E; first [reflexivity|discriminate E]. Qed.
Lemma states_tell T r s : lay T r = lay T s -> states_in r = states_in s.
Proof.
  intros E. destruct (states_in r) as [[o n]|] eqn:R, (states_in s) as [[o' n']|] eqn:S; auto.
  - destruct (states_ok T r o n R) as [A B], (states_ok T s o' n' S) as [C D]. rewrite E in A, B. rewrite A in C. rewrite B in D. injection C as C. injection D as D. apply state_tells in C, D. congruence.
  - assert (I : In (str "STATE_CHANGE:") (lay T r)) by (apply head_states; congruence). rewrite E in I. apply head_states in I. congruence.
  - assert (I : In (str "STATE_CHANGE:") (lay T s)) by (apply head_states; congruence). rewrite <- E in I. apply head_states in I. congruence.
Qed.
Lemma ends_opt_tell T a b : rtexts_ok T -> all_opt (fun x => ip_ok (fst x)) a -> all_opt (fun x => ip_ok (fst x)) b -> option_map (end_text T) a = option_map (end_text T) b -> a = b.
Proof. intros O A B E. destruct a, b; try discriminate E; [|reflexivity]. injection E as E. apply ends_tell in E; auto. congruence. Qed.
Lemma session_tells T r s : rtexts_ok T -> all_opt (fun x => ip_ok (fst x)) (from_in r) -> all_opt (fun x => ip_ok (fst x)) (to_in r) ->
  all_opt (fun x => ip_ok (fst x)) (from_in s) -> all_opt (fun x => ip_ok (fst x)) (to_in s) -> lay T r = lay T s ->
  h_ts (mr_hdr r) = h_ts (mr_hdr s) /\ h_us (mr_hdr r) = h_us (mr_hdr s) /\ from_in r = from_in s /\ to_in r = to_in s /\ states_in r = states_in s /\
  option_map msg_heading (message_in r) = option_map msg_heading (message_in s).
Proof.
  intros O R1 R2 S1 S2 E.
  assert (C : clock (mr_hdr r) = clock (mr_hdr s)). { pose proof (f_equal (hd []) E) as H. cbn [lay app hd] in H. apply app_inv_head in H. exact H. }
  apply clock_tells in C. destruct C as [C1 C2].
  pose proof (from_ok T r) as A. pose proof (to_ok T r) as B. rewrite E, from_ok in A. rewrite E, to_ok in B. apply ends_opt_tell in A, B; auto.
  split; [exact C1|]. split; [exact C2|]. split; [auto|]. split; [auto|]. split; [apply (states_tell T), E|].
  assert (H : forall r s, lay T r = lay T s -> forall m, message_in r = Some m -> option_map msg_heading (message_in s) = Some (msg_heading m)).
  { clear. intros r s E m M. pose proof (head_message T r m M) as I. rewrite E in I. apply message_head in I; [|destruct m; cbn; tauto|destruct m; discriminate].
    destruct I as (m' & -> & <-). reflexivity. }
  destruct (message_in r) as [m|] eqn:M; [cbn [option_map]; symmetry; apply (H r s E m M)|].
  destruct (message_in s) as [m|] eqn:N; [|reflexivity]. pose proof (H s r (eq_sym E) m N) as X. rewrite M in X. discriminate X.
Qed.
Lemma attr_nets v : attr_fine v -> Forall (fun p => net_ok (p_net p)) (mp_withdrawn v) /\ Forall (fun p => net_ok (p_net p)) (mp_announced v) /\ Forall (fun p => net_ok (lp_net p)) (mp_labeled v).
Proof.
  destruct v; cbn [attr_fine mp_withdrawn mp_announced mp_labeled]; intros F; repeat split; try constructor; try apply F. destruct (nl_labeled n) as [l|]; [apply F|constructor].
Qed.
Lemma Forall_flat_of {A B} (P : A -> Prop) (Q : B -> Prop) (f : A -> list B) l : (forall x, P x -> Forall Q (f x)) -> Forall P l -> Forall Q (flat_map f l).
Proof. intros H. induction 1; cbn [flat_map]; [constructor|]. apply Forall_app. split; auto. Qed.
Lemma update_tells T r s u v : rtexts_ok T -> update_in r = Some u -> update_in s = Some v -> update_fine u -> update_fine v -> lay T r = lay T s ->
  map p_net (u_withdrawn u ++ flat_map mp_withdrawn (values (u_attrs u))) = map p_net (u_withdrawn v ++ flat_map mp_withdrawn (values (u_attrs v))) /\
  map p_net (u_announced u ++ flat_map mp_announced (values (u_attrs u))) = map p_net (u_announced v ++ flat_map mp_announced (values (u_attrs v))) /\
  flat_map mp_labeled (values (u_attrs u)) = flat_map mp_labeled (values (u_attrs v)) /\
  Forall2 (attr_alike T) (values (u_attrs u)) (values (u_attrs v)) /\ Forall2 (warn_alike T) (at_warnings (u_attrs u)) (at_warnings (u_attrs v)).
Proof.
  intros O U V (F1 & F2 & F3) (G1 & G2 & G3) E. apply Forall_app in F1, G1. destruct F1 as [FW FA], G1 as [GW GA].
  destruct (update_sections T r u U) as (A1 & A2 & A3 & A4 & A5), (update_sections T s v V) as (B1 & B2 & B3 & B4 & B5). rewrite E in A1, A2, A3, A4, A5.
  rewrite A1 in B1. rewrite A2 in B2. rewrite A3 in B3. rewrite A4 in B4. rewrite A5 in B5.
  refine (conj _ (conj _ (conj _ (conj _ _)))).
  - apply Forall2_map. refine (map_tells (fun p => net_ok (p_net p)) _ _ _ _ _ _ _ B1); [intros x y; apply nets_tell, O| |];
      apply Forall_app; (split; [assumption|]); apply (Forall_flat_of attr_fine); auto; intros x X; apply attr_nets, X.
  - apply Forall2_map. refine (map_tells (fun p => net_ok (p_net p)) _ _ _ _ _ _ _ B2); [intros x y; apply nets_tell, O| |];
      apply Forall_app; (split; [assumption|]); apply (Forall_flat_of attr_fine); auto; intros x X; apply attr_nets, X.
  - apply Forall2_eq. refine (map_tells (fun p => net_ok (lp_net p)) _ _ _ _ _ _ _ B3); [intros x y; apply labeled_tells, O| |]; apply (Forall_flat_of attr_fine); auto; intros x X; apply attr_nets, X.
  - refine (map_tells attr_fine _ _ _ _ _ F2 G2 B4). intros x y. apply attr_tells, O.
  - refine (map_tells warn_fine _ _ _ _ _ F3 G3 B5). intros x y. apply warn_tells.
Qed.

(** * Elements *)
Lemma elements_read T el r u l el' : update_in r = Some u -> record_to_elems el r = Ok (l, el') ->
  Forall (fun e => value 0 "FROM: " (lay T r) = Some (end_text T (e_peer e, e_asn e)) /\
    In (route_text T (e_prefix e)) (under 1 (match e_type e with Announce => "ANNOUNCED:" | Withdraw => "WITHDRAWN:" end) (lay T r))) l.
Proof.
  intros U E. destruct (record_elems_ok el r) as (l' & E' & R). rewrite E in E'. injection E' as <- _.
  destruct (update_sections T r u U) as (A1 & A2 & _). rewrite from_ok.
  assert (R' : exists t pi pa, from_in r = Some (pi, pa) /\ update_elems u t pi pa l).
  { unfold record_elems in R. unfold update_in, message_in in U. unfold from_in. destruct (mr_msg r) as [m|ds|[x|b| |x]|[m|m]|[m|m]]; try discriminate U.
    - destruct (mm_bgp m); try discriminate U. injection U as <-. eauto.
    - destruct (lg_bgp m); try discriminate U. injection U as <-. eauto. }
  destruct R' as (t & pi & pa & -> & reach & unreach & p & p4 & path & LR & LU & _ & _ & _ & M & F).
  assert (RI : incl (prefixes_of reach) (flat_map mp_announced (values (u_attrs u)))).
  { destruct reach as [n|]; [|intros x []]. destruct LR as (b & v & a & LR & V & _). unfold values. rewrite LR. intros x X. apply in_flat_map. exists v. split; [apply in_or_app; right; left; reflexivity|].
    destruct v; try discriminate V. injection V as ->. exact X. }
  assert (UI : incl (prefixes_of unreach) (flat_map mp_withdrawn (values (u_attrs u)))).
  { destruct unreach as [n|]; [|intros x []]. destruct LU as (b & v & a & LU & V & _). unfold values. rewrite LU. intros x X. apply in_flat_map. exists v. split; [apply in_or_app; right; left; reflexivity|].
    destruct v; try discriminate V. injection V as ->. exact X. }
  apply Forall_forall. intros e I. rewrite Forall_forall in F. destruct (F e I) as (_ & -> & -> & _). split; [reflexivity|].
  assert (J : In (e_type e, e_prefix e) (map (fun e => (e_type e, e_prefix e)) l)) by (apply (in_map (fun e => (e_type e, e_prefix e))), I). rewrite M in J. apply in_app_or in J.
  destruct J as [J|J]; apply in_map_iff in J; destruct J as (q & Q & J); injection Q as <- <-; [rewrite A2|rewrite A1]; apply in_map; apply in_app_or in J; apply in_or_app; destruct J; auto.
Qed.

(** * Put together *)
Lemma kinds T r :
  (In (str "OPEN:") (lay T r) <-> exists o, message_in r = Some (MOpen o)) /\ (In (str "UPDATE:") (lay T r) <-> exists u, message_in r = Some (MUpdate u)) /\
  (In (str "NOTIFICATION:") (lay T r) <-> exists n, message_in r = Some (MNotif n)) /\ (In (str "KEEPALIVE:") (lay T r) <-> message_in r = Some MKeepAlive) /\
  (In (str "ROUTE_REFRESH:") (lay T r) <-> exists f, message_in r = Some (MRefresh f)) /\ (In (str "STATE_CHANGE:") (lay T r) <-> states_in r <> None).
Proof.
  assert (K : forall h, In h heads -> h <> "STATE_CHANGE:" -> In (str h) (lay T r) <-> exists m, message_in r = Some m /\ msg_heading m = h).
  { intros h H N. split; [apply message_head; assumption|]. intros (m & M & <-). apply head_message, M. }
  refine (conj _ (conj _ (conj _ (conj _ (conj _ (head_states T r)))))); (rewrite K by first [discriminate|cbn; tauto]; split;
    [intros (m & -> & H); destruct m; try discriminate H; eauto|intros H; try match type of H with ex _ => destruct H as [? H] end; rewrite H; eauto]).
Qed.
Lemma Forall2_same {A B} (R : A -> B -> Prop) (f : A -> B) l : (forall x, R x (f x)) -> Forall2 R l (map f l).
Proof. intros H. induction l; constructor; auto. Qed.
Lemma rib_all T r b : mr_msg r = MrtV2 (V2Rib b) ->
  value 0 "RIB_AFI: " (lay T r) = Some (v2_name (rb_type b) ++ str " PREFIX: " ++ route_text T (rb_prefix b) ++ str " (" ++ dec (nlen (rb_entries b)) ++ str " entries)") /\
  Forall2 (fun e p => value 2 "PEER_INDEX: " p = Some (dec (re_peer e)) /\ value 2 "ORIGINATED: " p = Some (dec (re_time e)) /\
      under 2 "ATTRIBUTES:" p = map (attr_text T) (values (re_attrs e)) /\ under 2 "WARNINGS:" p = map (warn_text T) (at_warnings (re_attrs e)))
    (rb_entries b) (parts (is_line 1 "RIB_ENTRY:") (lay T r)).
Proof. intros M. split; [apply rib_read, M|]. rewrite (rib_parts T r b M). apply Forall2_same. intros e. apply entry_read. Qed.
Lemma dumps_all T r l : dumps_in r = Some l ->
  Forall2 (fun m p => value 1 "PREFIX: " p = Some (route_text T (td_prefix m)) /\ value 1 "PEER: " p = Some (end_text T (td_peer m, td_asn m)) /\
      value 1 "ORIGINATED: " p = Some (dec (td_time m)) /\
      under 1 "ATTRIBUTES:" p = map (attr_text T) (values (td_attrs m)) /\ under 1 "WARNINGS:" p = map (warn_text T) (at_warnings (td_attrs m)))
    l (parts (is_line 0 "RIB_ENTRY:") (lay T r)).
Proof. intros M. rewrite (dump_parts T r l M). apply Forall2_same. intros e. apply dump_read. Qed.
Lemma low_digit_at n : n < 16 -> low_digit n = digit_at n.
Proof.
  intros H. destruct n as [|p]; [reflexivity|]. do 4 (try (destruct p as [p|p|]; try reflexivity)); lia.
Qed.
Lemma low_hexadecimal b : b < 256 -> low_octet b = hexadecimal b.
Proof.
  intros B. destruct (octet_halves b B) as (B1 & B2 & _). unfold low_octet, hexadecimal. f_equal; [|f_equal]; apply low_digit_at; assumption.
Qed.
Lemma names_ok :
  Forall (fun x => etype_name (fst x) = str (snd x)) record_types /\ Forall (fun x => mp_name (fst x) = str (snd x)) bgp4mp_types /\
  Forall (fun x => v2_name (fst x) = str (snd x)) table_types /\
  Forall (fun x => afi_name (fst x) = str (snd x)) families /\ Forall (fun x => safi_name (fst x) = str (snd x)) subfamilies /\
  (forall b, b < 256 -> low_octet b = hexadecimal b) /\
  Forall (fun x => cap_name (fst x) = str (snd x)) capabilities /\ (forall n, ~ In n (map fst capabilities) -> cap_name n = str "Unknown(" ++ dec n ++ str ")") /\
  Forall (fun x => atype_name (fst x) = str (snd x)) attribute_types /\ (forall n, ~ In n (map fst attribute_types) -> atype_name n = str "Unknown(" ++ dec n ++ str ")").
Proof.
  refine (conj _ (conj _ (conj _ (conj _ (conj _ (conj _ (conj _ (conj _ (conj _ _))))))))); try (repeat (apply Forall_cons; [reflexivity|]); apply Forall_nil);
    intros n N; [apply low_hexadecimal, N| |]; [unfold cap_name|unfold atype_name]; destruct n as [|p]; try (destruct N; cbn; tauto); try reflexivity;
    do 8 (try (destruct p as [p|p|]; try reflexivity)); destruct N; cbn; tauto.
Qed.
