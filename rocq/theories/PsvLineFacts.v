(** Proofs about the text forms of elements. *)
From Coq Require Import String Lia ZifyBool ZifyNat ZifyN.
From Verif Require Import Base BaseFacts Net NetSpec AsPath Community CommunitySpec Attr Elem Filter FilterFacts Text Psv PsvSpec PsvFacts PsvCommFacts.

Lemma ip_field T i : shows_ok T -> ip_ok i -> Forall fieldc (sh_ip T i).
Proof. intros (_ & _ & _ & _ & _ & I4 & I6 & _) H. destruct i as [n|n]; [apply dotted_field, I4, H|apply coloned_field, I6, H]. Qed.
Lemma ip_ne T i : shows_ok T -> ip_ok i -> sh_ip T i <> [].
Proof.
  intros (_ & _ & _ & _ & _ & I4 & I6 & _) H. destruct i as [n|n]; [apply I4, H|]. destruct (I6 n H) as (_ & a & b & c & ->). destruct a; discriminate.
Qed.
Lemma ip_no T i : shows_ok T -> ip_ok i -> ~ In 47 (sh_ip T i).
Proof.
  intros (_ & _ & _ & _ & _ & I4 & I6 & _) H. destruct i as [n|n]; [apply (dots_no 47 _ (proj2 (I4 n H))); reflexivity|apply (cols_no 47 _ (proj1 (I6 n H))); reflexivity].
Qed.
Lemma net_field T n : shows_ok T -> net_ok n -> Forall fieldc (show_net T n).
Proof. intros O [H _]. unfold show_net. apply Forall_app. split; [apply ip_field; assumption|]. apply Forall_app. split; [apply fieldcb_all; reflexivity|apply dec_field]. Qed.
Lemma net_tells T m n : shows_ok T -> net_ok m -> net_ok n -> show_net T m = show_net T n <-> m = n.
Proof.
  intros O [M _] [N _]. split; [|intros ->; reflexivity]. unfold show_net. intros E. apply (f_equal (split_on 47)) in E. cbn [app] in E.
  rewrite !split_app, !split_plain in E by (first [apply ip_no; assumption|apply dec_no; lia]). injection E as E1 E2. apply dec_inj in E2. pose proof O as (_ & _ & _ & _ & _ & _ & _ & II). apply II in E1; auto.
  destruct m as [m1 m2], n as [n1 n2]; cbn [net_addr net_len] in *. subst. reflexivity.
Qed.
Lemma debug_tells T p q : shows_ok T -> prefix_ok p -> prefix_ok q -> debug_prefix T p = debug_prefix T q <-> p = q.
Proof.
  intros O [P _] [Q _]. split; [|intros ->; reflexivity].
  assert (N : forall n, net_ok n -> ~ In 35 (show_net T n)).
  { intros n [H _] I. unfold show_net in I. apply in_app_iff in I as [I|I].
    - pose proof O as (_ & _ & _ & _ & _ & I4 & I6 & _). destruct (net_addr n) as [k|k]; revert I; [apply (dots_no 35 _ (proj2 (I4 k H))); reflexivity|apply (cols_no 35 _ (proj1 (I6 k H))); reflexivity].
    - cbn [app In] in I. destruct I as [I|I]; [discriminate|]. revert I. apply dec_no. lia. }
  destruct p as [p i], q as [q j]. unfold debug_prefix. cbn [p_net p_id] in *. intros E. apply (f_equal (split_on 35)) in E.
  destruct i as [i|], j as [j|]; cbn [app] in E; rewrite ?split_app in E; rewrite ?(split_plain 35 (show_net T p)), ?(split_plain 35 (show_net T q)) in E by auto;
    rewrite ?(fun n => split_plain 35 (dec n) (dec_no 35 n ltac:(lia))) in E; cbn [app] in E; try discriminate E; injection E; intros; repeat match goal with H : dec _ = dec _ |- _ => apply dec_inj in H; subst end;
    match goal with H : show_net T p = show_net T q |- _ => apply (net_tells T) in H; auto; subst; reflexivity end.
Qed.

(** Texts of optional fields. *)
Lemma opt_tells {A} (P : A -> Prop) (f : A -> bytes) a b : (forall x, P x -> f x <> []) -> (forall x y, P x -> P y -> f x = f y -> x = y) -> all_opt P a -> all_opt P b ->
  show_opt f a = show_opt f b <-> a = b.
Proof.
  intros N I Ha Hb. split; [|intros ->; reflexivity]. intros E. destruct a as [a|], b as [b|]; cbn [show_opt all_opt] in *; [rewrite (I a b Ha Hb E); reflexivity|exfalso; exact (N _ Ha E)|exfalso; symmetry in E; exact (N _ Hb E)|reflexivity].
Qed.
Lemma opt_dec a b : show_opt dec a = show_opt dec b <-> a = b.
Proof. apply (opt_tells (fun _ => True)); [intros; apply dec_ne|intros x y _ _; apply dec_inj|destruct a; exact I|destruct b; exact I]. Qed.
Lemma opt_ip T a b : shows_ok T -> all_opt ip_ok a -> all_opt ip_ok b -> show_opt (sh_ip T) a = show_opt (sh_ip T) b <-> a = b.
Proof. intros O. apply (opt_tells ip_ok); [intros; apply ip_ne; assumption|]. intros x y X Y. apply O; assumption. Qed.
Lemma opt_ip4 T a b : shows_ok T -> all_opt (fun n => n < 2 ^ 32) a -> all_opt (fun n => n < 2 ^ 32) b -> show_opt (fun n => sh_ip T (V4 n)) a = show_opt (fun n => sh_ip T (V4 n)) b <-> a = b.
Proof.
  intros O. apply (opt_tells (fun n => n < 2 ^ 32)); [intros x X; apply (ip_ne T (V4 x)); assumption|]. intros x y X Y E. assert (G : V4 x = V4 y) by (apply O; assumption). injection G as ->. reflexivity.
Qed.
Lemma opt_origin a b : show_opt show_origin a = show_opt show_origin b <-> a = b.
Proof. split; [|intros ->; reflexivity]. destruct a as [[]|], b as [[]|]; intros E; try discriminate E; reflexivity. Qed.
Lemma type_tells a b : show_type a = show_type b <-> a = b.
Proof. split; [|intros ->; reflexivity]. destruct a, b; intros E; try discriminate E; reflexivity. Qed.
Lemma bool_tells a b : show_bool a = show_bool b <-> a = b.
Proof. split; [|intros ->; reflexivity]. destruct a, b; intros E; try discriminate E; reflexivity. Qed.
Lemma vec_dec a b : show_vec dec a = show_vec dec b <-> items a = items b.
Proof.
  assert (G : forall o, show_vec dec o = join [32] (map dec (items o))) by (intros [l|]; reflexivity). rewrite !G. split; [|intros ->; reflexivity]. apply join_decs_inj. lia.
Qed.
Lemma vec_comms T a b : shows_ok T -> all_opt (Forall comm_ok) a -> all_opt (Forall comm_ok) b -> show_vec (show_meta T) a = show_vec (show_meta T) b <-> Forall2 same_comm (items a) (items b).
Proof.
  intros O A B. assert (G : forall o, show_vec (show_meta T) o = join [32] (map (show_meta T) (items o))) by (intros [l|]; reflexivity). rewrite !G.
  apply comms_iff; auto; [destruct a|destruct b]; cbn [items all_opt] in *; auto.
Qed.
Lemma opt_field {A} (P : A -> Prop) (f : A -> bytes) o : (forall x, P x -> Forall fieldc (f x)) -> all_opt P o -> Forall fieldc (show_opt f o).
Proof. intros F H. destruct o; [apply F, H|constructor]. Qed.
Lemma any_opt {A} (o : option A) : all_opt (fun _ => True) o.
Proof. destruct o; exact I. Qed.
Lemma vec_field {A} (P : A -> Prop) (f : A -> bytes) o : (forall x, P x -> Forall fieldc (f x)) -> all_opt (Forall P) o -> Forall fieldc (show_vec f o).
Proof. intros F H. destruct o as [l|]; [|constructor]. apply join_field; [unfold fieldc; lia|]. apply Forall_map. eapply Forall_impl; [|exact H]. exact F. Qed.

(** The columns have no bar. *)
Lemma columns_field T e : shows_ok T -> fields_ok e -> Forall (Forall fieldc) (map snd (columns T e)).
Proof.
  intros O (Ft & Fp & Fn & Fh & Fc & Fa).
  assert (F : Forall (Forall fieldc) [show_type (e_type e); sh_time T (e_time e); sh_ip T (e_peer e); show_asn (e_asn e); show_prefix T (e_prefix e);
    show_opt show_path (e_path e); show_vec show_asn (e_origins e); show_opt show_origin (e_origin e); show_opt (sh_ip T) (e_hop e);
    show_opt dec (e_pref e); show_opt dec (e_med e); show_vec (show_meta T) (e_comms e); show_bool (e_atomic e);
    show_opt show_asn (e_aggr_asn e); show_opt (fun n => sh_ip T (V4 n)) (e_aggr_ip e); show_opt show_asn (e_otc e)]).
  { apply Forall_cons; [destruct (e_type e); apply fieldcb_all; reflexivity|]. apply Forall_cons; [apply figure_field, O, Ft|]. apply Forall_cons; [apply ip_field; assumption|]. apply Forall_cons; [apply dec_field|].
    apply Forall_cons; [apply net_field; assumption|]. apply Forall_cons; [apply path_field|].
    apply Forall_cons; [apply (vec_field (fun _ => True)); [intros; apply dec_field|]; destruct (e_origins e); [apply Forall_forall; intros; exact I|exact I]|].
    apply Forall_cons; [apply (opt_field (fun _ => True)); [intros [] _; apply fieldcb_all; reflexivity|apply any_opt]|].
    apply Forall_cons; [apply (opt_field ip_ok); [intros; apply ip_field; assumption|exact Fh]|].
    apply Forall_cons; [apply (opt_field (fun _ => True)); [intros; apply dec_field|apply any_opt]|]. apply Forall_cons; [apply (opt_field (fun _ => True)); [intros; apply dec_field|apply any_opt]|].
    apply Forall_cons; [apply (vec_field comm_ok); [intros; apply meta_field; assumption|exact Fc]|]. apply Forall_cons; [destruct (e_atomic e); apply fieldcb_all; reflexivity|].
    apply Forall_cons; [apply (opt_field (fun _ => True)); [intros; apply dec_field|apply any_opt]|].
    apply Forall_cons; [apply (opt_field (fun n => n < 2 ^ 32)); [intros x X; apply (ip_field T (V4 x)); assumption|exact Fa]|].
    apply Forall_cons; [apply (opt_field (fun _ => True)); [intros; apply dec_field|apply any_opt]|apply Forall_nil]. }
  exact F.
Qed.
Lemma field_no s : Forall fieldc s -> ~ In 124 s.
Proof. intros F I. rewrite Forall_forall in F. apply F in I. destruct I as [_ I]. apply I. reflexivity. Qed.
Lemma fields_no l : Forall (Forall fieldc) l -> Forall (fun s => ~ In 124 s) l.
Proof. intros F. eapply Forall_impl; [|exact F]. exact field_no. Qed.
Lemma psv_bars T e : to_psv T e = bars (map snd (columns T e)).
Proof. reflexivity. Qed.
Lemma display_bars T e : show_elem T e = bars (map snd (without ["origin_asns"; "only_to_customer"]%string (columns T e))).
Proof. reflexivity. Qed.
Lemma route_bars T r : show_route T r = bars (map snd (firstn 6 (columns T (elem_of_route r)))).
Proof. reflexivity. Qed.
Lemma psv_columns T e : shows_ok T -> fields_ok e -> split_on 124 (to_psv T e) = map snd (columns T e).
Proof. intros O F. rewrite psv_bars. apply split_join; [discriminate|]. apply fields_no, columns_field; assumption. Qed.
Lemma without_field T e l : shows_ok T -> fields_ok e -> Forall (Forall fieldc) (map snd (without l (columns T e))).
Proof.
  intros O F. pose proof (columns_field T e O F) as C. rewrite Forall_forall in *. intros x I. apply C. apply in_map_iff in I as (y & <- & I). apply in_map. unfold without in I. apply filter_In in I as [I _]. exact I.
Qed.
Lemma display_columns T e : shows_ok T -> fields_ok e -> split_on 124 (show_elem T e) = map snd (without ["origin_asns"; "only_to_customer"]%string (columns T e)).
Proof. intros O F. rewrite display_bars. apply split_join; [discriminate|]. apply fields_no, without_field; assumption. Qed.
Lemma elem_of_route_ok r : route_ok r -> fields_ok (elem_of_route r).
Proof. intros (A & B & C). repeat split; auto; apply C. Qed.
Lemma route_columns T r : shows_ok T -> route_ok r -> split_on 124 (show_route T r) = map snd (firstn 6 (columns T (elem_of_route r))).
Proof.
  intros O F. rewrite route_bars. apply split_join; [discriminate|]. apply fields_no. pose proof (columns_field T _ O (elem_of_route_ok r F)) as C.
  change (map snd (firstn 6 (columns T (elem_of_route r)))) with (firstn 6 (map snd (columns T (elem_of_route r)))). rewrite Forall_forall in *. intros x I. apply C. rewrite <- (firstn_skipn 6 (map snd _)). apply in_or_app. left. exact I.
Qed.
Lemma bars_printable l : Forall (Forall fieldc) l -> Forall (fun x => 32 <= x <= 126) (bars l).
Proof.
  intros F. apply Forall_forall. intros x I. apply In_join in I as [-> |(s & I & J)]; [lia|]. rewrite Forall_forall in F. specialize (F s I). rewrite Forall_forall in F. apply F in J. unfold fieldc in J. lia.
Qed.
Lemma line_printable T e : shows_ok T -> fields_ok e -> Forall (fun x => 32 <= x <= 126) (to_psv T e) /\ Forall (fun x => 32 <= x <= 126) (show_elem T e).
Proof. intros O F. rewrite psv_bars, display_bars. split; apply bars_printable; [apply columns_field|apply without_field]; assumption. Qed.
Lemma time_tells T t u : shows_ok T -> binary64 t -> binary64 u -> sh_time T t = sh_time T u <-> t = u.
Proof. intros O A B. split; [apply O; assumption|intros ->; reflexivity]. Qed.
Lemma ip_tells T i j : shows_ok T -> ip_ok i -> ip_ok j -> sh_ip T i = sh_ip T j <-> i = j.
Proof. intros O A B. split; [apply O; assumption|intros ->; reflexivity]. Qed.
Lemma dec_tells m n : dec m = dec n <-> m = n.
Proof. split; [apply dec_inj|intros ->; reflexivity]. Qed.
Lemma cons_eq {A} (a b : A) l m : a :: l = b :: m <-> a = b /\ l = m.
Proof. split; [intros E; injection E; auto|intros [-> ->]; reflexivity]. Qed.
Lemma psv_tells T a b : shows_ok T -> fields_ok a -> fields_ok b -> to_psv T a = to_psv T b <-> psv_alike a b.
Proof.
  intros O A B. assert (G : to_psv T a = to_psv T b <-> map snd (columns T a) = map snd (columns T b)).
  { split; [intros E; rewrite <- !psv_columns by assumption; rewrite E; reflexivity|intros E; rewrite !psv_bars, E; reflexivity]. }
  rewrite G. clear G. destruct A as (At & Ap & An & Ah & Ac & Aa), B as (Bt & Bp & Bn & Bh & Bc & Ba).
  change (map snd (columns T a)) with [show_type (e_type a); sh_time T (e_time a); sh_ip T (e_peer a); dec (e_asn a); show_net T (p_net (e_prefix a));
    show_opt show_path (e_path a); show_vec dec (e_origins a); show_opt show_origin (e_origin a); show_opt (sh_ip T) (e_hop a);
    show_opt dec (e_pref a); show_opt dec (e_med a); show_vec (show_meta T) (e_comms a); show_bool (e_atomic a);
    show_opt dec (e_aggr_asn a); show_opt (fun n => sh_ip T (V4 n)) (e_aggr_ip a); show_opt dec (e_otc a)].
  change (map snd (columns T b)) with [show_type (e_type b); sh_time T (e_time b); sh_ip T (e_peer b); dec (e_asn b); show_net T (p_net (e_prefix b));
    show_opt show_path (e_path b); show_vec dec (e_origins b); show_opt show_origin (e_origin b); show_opt (sh_ip T) (e_hop b);
    show_opt dec (e_pref b); show_opt dec (e_med b); show_vec (show_meta T) (e_comms b); show_bool (e_atomic b);
    show_opt dec (e_aggr_asn b); show_opt (fun n => sh_ip T (V4 n)) (e_aggr_ip b); show_opt dec (e_otc b)].
  rewrite !cons_eq. rewrite type_tells, (time_tells T), (ip_tells T), dec_tells, (net_tells T), walk_iff, vec_dec, opt_origin, (opt_ip T), !opt_dec, (vec_comms T), bool_tells, (opt_ip4 T) by assumption.
  unfold psv_alike, elem_alike. tauto.
Qed.
Lemma display_tells T a b : shows_ok T -> fields_ok a -> fields_ok b -> show_elem T a = show_elem T b <-> elem_alike a b.
Proof.
  intros O A B. assert (G : show_elem T a = show_elem T b <-> map snd (without ["origin_asns"; "only_to_customer"]%string (columns T a)) = map snd (without ["origin_asns"; "only_to_customer"]%string (columns T b))).
  { split; [intros E; rewrite <- !display_columns by assumption; rewrite E; reflexivity|intros E; rewrite !display_bars, E; reflexivity]. }
  rewrite G. clear G. destruct A as (At & Ap & An & Ah & Ac & Aa), B as (Bt & Bp & Bn & Bh & Bc & Ba).
  change (map snd (without ["origin_asns"; "only_to_customer"]%string (columns T a))) with [show_type (e_type a); sh_time T (e_time a); sh_ip T (e_peer a); dec (e_asn a); show_net T (p_net (e_prefix a));
    show_opt show_path (e_path a); show_opt show_origin (e_origin a); show_opt (sh_ip T) (e_hop a);
    show_opt dec (e_pref a); show_opt dec (e_med a); show_vec (show_meta T) (e_comms a); show_bool (e_atomic a);
    show_opt dec (e_aggr_asn a); show_opt (fun n => sh_ip T (V4 n)) (e_aggr_ip a)].
  change (map snd (without ["origin_asns"; "only_to_customer"]%string (columns T b))) with [show_type (e_type b); sh_time T (e_time b); sh_ip T (e_peer b); dec (e_asn b); show_net T (p_net (e_prefix b));
    show_opt show_path (e_path b); show_opt show_origin (e_origin b); show_opt (sh_ip T) (e_hop b);
    show_opt dec (e_pref b); show_opt dec (e_med b); show_vec (show_meta T) (e_comms b); show_bool (e_atomic b);
    show_opt dec (e_aggr_asn b); show_opt (fun n => sh_ip T (V4 n)) (e_aggr_ip b)].
  rewrite !cons_eq. rewrite type_tells, (time_tells T), (ip_tells T), dec_tells, (net_tells T), walk_iff, opt_origin, (opt_ip T), !opt_dec, (vec_comms T), bool_tells, (opt_ip4 T) by assumption.
  unfold elem_alike. tauto.
Qed.
Lemma route_tells T a b : shows_ok T -> route_ok a -> route_ok b -> show_route T a = show_route T b <-> route_alike a b.
Proof.
  intros O A B. assert (G : show_route T a = show_route T b <-> map snd (firstn 6 (columns T (elem_of_route a))) = map snd (firstn 6 (columns T (elem_of_route b)))).
  { split; [intros E; rewrite <- !route_columns by assumption; rewrite E; reflexivity|intros E; rewrite !route_bars, E; reflexivity]. }
  rewrite G. clear G. destruct A as (At & Ap & An), B as (Bt & Bp & Bn).
  change (map snd (firstn 6 (columns T (elem_of_route a)))) with [show_type (ro_type a); sh_time T (ro_time a); sh_ip T (ro_peer a); dec (ro_asn a); show_net T (p_net (ro_prefix a)); show_opt show_path (ro_path a)].
  change (map snd (firstn 6 (columns T (elem_of_route b)))) with [show_type (ro_type b); sh_time T (ro_time b); sh_ip T (ro_peer b); dec (ro_asn b); show_net T (p_net (ro_prefix b)); show_opt show_path (ro_path b)].
  rewrite !cons_eq. rewrite type_tells, (time_tells T), (ip_tells T), dec_tells, (net_tells T), walk_iff by assumption. unfold route_alike. tauto.
Qed.
