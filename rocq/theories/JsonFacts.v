(** Proofs about JSON forms. *)
From Coq Require Import String Floats.SpecFloat Lia ZifyBool ZifyNat ZifyN.
From Verif Require Import Base BaseFacts Net NetSpec AsPath Community Attr Elem Text Filter Json JsonSpec.

Lemma all_of_map {A B C} (f : B -> option C) (g : A -> B) (h : A -> C) l : Forall (fun a => f (g a) = Some (h a)) l -> all_of f (map g l) = Some (map h l).
Proof. induction 1 as [|a l E _ IH]; cbn [all_of map]; auto. rewrite E. cbn [obind]. rewrite IH. reflexivity. Qed.
Lemma all_of_id {A B} (f : B -> option A) (g : A -> B) l : Forall (fun a => f (g a) = Some a) l -> all_of f (map g l) = Some l.
Proof. intros H. rewrite (all_of_map f g (fun a => a) l H). rewrite map_id. reflexivity. Qed.
Lemma all_of_app {A B} (f : A -> option B) l l' r r' : all_of f l = Some r -> all_of f l' = Some r' -> all_of f (l ++ l') = Some (r ++ r').
Proof.
  revert r. induction l as [|a l IH]; cbn [all_of app]; intros r E E'. - inversion E. exact E'.
  - destruct (f a) as [b|]; [|discriminate]. cbn [obind] in *. destruct (all_of f l) as [bs|]; [|discriminate]. inversion E. rewrite (IH bs eq_refl E'). reflexivity.
Qed.
Lemma de_num_ok b n : n < b -> de_num b (JNum n) = Some n.
Proof. intros H. unfold de_num. apply N.ltb_lt in H. rewrite H. reflexivity. Qed.
Lemma de_list_num b l : Forall (fun a => a < b) l -> de_list (de_num b) (JList (map JNum l)) = Some l.
Proof. intros H. cbn [de_list]. apply all_of_id. eapply Forall_impl; [|exact H]. intros a. apply de_num_ok. Qed.
Lemma de_array_num b n l : Forall (fun a => a < b) l -> nlen l = n -> de_array (N.to_nat n) (de_num b) (JList (map JNum l)) = Some l.
Proof. intros H L. unfold de_array. rewrite de_list_num by exact H. cbn [obind]. replace (Nat.eqb (length l) (N.to_nat n)) with true; [reflexivity|]. symmetry. apply Nat.eqb_eq. unfold nlen in L. lia. Qed.

(** * AS paths *)
Lemma de_asns l : u32s l -> de_list de_asn (JList (map ser_asn l)) = Some l.
Proof. exact (de_list_num (2 ^ 32) l). Qed.
Lemma de_seg_ser s : u32s (s_asns s) -> de_seg (ser_seg s) = Some s.
Proof.
  destruct s as [k l]. cbn [s_asns]. intros U. unfold de_seg, ser_seg. cbn [s_kind s_asns].
  replace (de_object ["ty"; "values"]%string (jobj [("ty"%string, JText (str (kind_name k))); ("values"%string, JList (map ser_asn l))]))
    with (Some [(str "ty", JText (str (kind_name k))); (str "values", JList (map ser_asn l))]) by (destruct k; reflexivity).
  cbn [obind]. replace (field "ty" de_kind _) with (Some k) by (destruct k; reflexivity). cbn [obind].
  replace (field "values" (de_list de_asn) _) with (de_list de_asn (JList (map ser_asn l))) by (destruct k; reflexivity).
  rewrite (de_asns l U). reflexivity.
Qed.
Definition pes (s : seg) : list path_element :=
  match s_kind s with KSeq => map PEAsn (s_asns s) | KSet => [PESet (s_asns s)] | _ => [] end.
Lemma items_read p : path_u32 p -> all_of de_element (flat_map ser_items p) = Some (flat_map pes p).
Proof.
  induction 1 as [|s p U _ IH]; cbn [flat_map]; auto. apply all_of_app; auto. destruct s as [[] l]; unfold ser_items, pes; cbn [s_kind s_asns] in *; auto.
  - apply all_of_map. eapply Forall_impl; [|exact U]. intros a H. unfold de_element, de_asn, ser_asn. rewrite de_num_ok by exact H. reflexivity.
  - cbn [all_of]. unfold de_element. cbn [de_asn de_num]. change (de_asn (JList (map ser_asn l))) with (@None asn). rewrite (de_asns l U). reflexivity.
Qed.
Definition ends_seq (p : aspath) : bool := match rev p with Seg KSeq _ :: _ => true | _ => false end.
Lemma ends_seq_app p s : ends_seq (p ++ [s]) = match s_kind s with KSeq => true | _ => false end.
Proof. unfold ends_seq. rewrite rev_app_distr. destruct s as [[] l]; reflexivity. Qed.
Lemma push_last p l a : push_asn (p ++ [Seg KSeq l]) a = p ++ [Seg KSeq (l ++ [a])].
Proof.
  induction p as [|s p IH]; cbn [app]; auto. cbn [push_asn]. rewrite IH. destruct s as [[] l']; auto. destruct p; reflexivity.
Qed.
Lemma push_new p a : ends_seq p = false -> push_asn p a = p ++ [Seg KSeq [a]].
Proof.
  induction p as [|s p IH]; intros E; auto. cbn [push_asn app].
  assert (E' : p <> [] -> ends_seq p = false).
  { intros Np. unfold ends_seq in *. cbn [rev] in E. destruct (rev p) as [|x y] eqn:R; [|exact E]. apply (f_equal (@rev seg)) in R. rewrite rev_involutive in R. elim (Np R). }
  destruct p as [|t p]; [destruct s as [[] l]; try reflexivity; discriminate E|]. rewrite IH by (apply E'; discriminate). destruct s as [[] l]; reflexivity.
Qed.
Lemma fold_asns l p m : fold_left add_element (map PEAsn l) (p ++ [Seg KSeq m]) = p ++ [Seg KSeq (m ++ l)].
Proof.
  revert m. induction l as [|a l IH]; intros m; cbn [map fold_left add_element]; [rewrite app_nil_r; auto|]. rewrite push_last, IH, <- app_assoc. reflexivity.
Qed.
Definition solid (s : seg) : bool := match s with Seg KSeq [] => false | _ => true end.
Lemma fold_plain p : forall prev acc, simplified prev p = true -> (ends_seq acc = true -> prev = true) ->
  fold_left add_element (flat_map pes p) acc = acc ++ List.filter solid p.
Proof.
  induction p as [|[k l] p IH]; intros prev acc S H; cbn [flat_map fold_left List.filter]; [rewrite app_nil_r; auto|]. rewrite fold_left_app.
  destruct k; cbn [simplified] in S; try discriminate S.
  - apply andb_prop in S as [Np S]. destruct prev; [discriminate Np|]. assert (E : ends_seq acc = false) by (destruct (ends_seq acc); auto; discriminate (H eq_refl)).
    unfold pes. cbn [s_kind s_asns]. destruct l as [|a l].
    + cbn [map fold_left solid]. apply (IH true); auto.
    + cbn [map fold_left add_element solid]. rewrite push_new by exact E. rewrite fold_asns. rewrite (IH true) by auto. rewrite <- app_assoc. reflexivity.
  - unfold pes. cbn [s_kind s_asns map fold_left add_element]. rewrite (IH false); [|exact S|rewrite ends_seq_app; discriminate]. rewrite <- app_assoc. destruct l; reflexivity.
Qed.
Lemma fold_segs l acc : fold_left add_element (map PESeg l) acc = acc ++ l.
Proof. revert acc. induction l as [|s l IH]; intros acc; cbn [map fold_left add_element]; [rewrite app_nil_r; auto|]. rewrite IH, <- app_assoc. reflexivity. Qed.
Lemma read_path p : path_u32 p -> de_path (ser_path p) = Some (if simplified false p then List.filter solid p else p).
Proof.
  intros U. unfold de_path, ser_path. destruct (simplified false p) eqn:S.
  - cbn [de_list]. rewrite items_read by exact U. cbn [obind]. f_equal. apply (fold_plain p false []); auto.
  - cbn [de_list]. rewrite (all_of_map de_element ser_seg PESeg p).
    + cbn [obind]. f_equal. apply (fold_segs p []).
    + eapply Forall_impl; [|exact U]. intros s H. unfold de_element. change (de_asn (ser_seg s)) with (@None asn). change (de_list de_asn (ser_seg s)) with (@None (list asn)).
      rewrite de_seg_ser by exact H. reflexivity.
Qed.
Lemma simplified_plain p : forall prev, simplified prev p = true <-> plain p /\ (prev = true -> match p with s :: _ => s_kind s <> KSeq | [] => True end).
Proof.
  induction p as [|s p IH]; intros prev.
  - cbn [simplified]. split; auto. intros _. split; auto. split; [intros s []|]. intros a s t b E. destruct a; discriminate E.
  - assert (T : plain (s :: p) <-> (s_kind s = KSeq \/ s_kind s = KSet) /\ plain p /\ (s_kind s = KSeq -> match p with t :: _ => s_kind t <> KSeq | [] => True end)).
    { split.
      - intros [A B]. split; [apply A; left; auto|]. split.
        + split; [intros t I; apply A; right; auto|]. intros a x y b E. apply (B (s :: a) x y b). cbn [app]. f_equal. exact E.
        + intros K. destruct p as [|t p]; auto. intros K'. exact (B [] s t p eq_refl K K').
      - intros (A & [B C] & D). split; [intros x [<-|I]; auto|]. intros a x y b E K K'. destruct a as [|z a]; cbn [app] in E; inversion E; subst.
        + exact (D K K'). + exact (C a x y b eq_refl K K'). }
    rewrite T. destruct s as [[] l]; cbn [simplified s_kind].
    + rewrite andb_true_iff, (IH true). destruct prev; cbn [negb]; split.
      * intros [E _]; discriminate E. * intros [_ H]. elim (H eq_refl eq_refl).
      * intros [_ [P Q]]. split; [|discriminate]. split; [auto|]. split; [exact P|intros _; exact (Q eq_refl)]. * intros [(_ & P & Q) _]. split; [reflexivity|]. split; [exact P|intros _; exact (Q eq_refl)].
    + rewrite (IH false). split; [intros [P _]|intros [(_ & P & _) _]]; split; auto; try discriminate. split; auto. split; auto. discriminate.
    + split; [discriminate|]. intros [([E|E] & _) _]; discriminate E.
    + split; [discriminate|]. intros [([E|E] & _) _]; discriminate E.
Qed.
Lemma simplified_iff p : simplified false p = true <-> plain p.
Proof. rewrite simplified_plain. split; [tauto|]. intros H. split; auto. discriminate. Qed.
Lemma solid_all p : List.filter solid p = p <-> ~ Exists hollow p.
Proof.
  assert (L : forall q, (length (List.filter solid q) <= length q)%nat) by (intros q; induction q as [|s q IH]; cbn [List.filter length]; auto; destruct (solid s); cbn [length]; lia).
  induction p as [|s p IH]; cbn [List.filter]. - split; auto. intros _ X. inversion X.
  - destruct (solid s) eqn:S.
    + split.
      * intros E. injection E as E. apply IH in E. intros X. inversion X as [? ? Y|? ? Y]; subst; auto. rewrite Y in S. discriminate S.
      * intros X. f_equal. apply IH. intros Y. apply X. right. exact Y.
    + split.
      * intros E. pose proof (L p) as Lp. rewrite E in Lp. cbn [length] in Lp. lia.
      * intros X. elim X. left. destruct s as [[] [|]]; try discriminate S. reflexivity.
Qed.
Lemma path_roundtrip p : path_u32 p -> (de_path (ser_path p) = Some p <-> path_kept p).
Proof.
  intros U. rewrite (read_path p U). unfold path_kept. destruct (simplified false p) eqn:S.
  - apply simplified_iff in S. split; [intros E _; inversion E as [E']|intros H; f_equal].
    + apply solid_all. congruence. + apply solid_all. auto.
  - split; auto. intros _ P. apply simplified_iff in P. congruence.
Qed.
Lemma path_form p : (plain p -> exists l, Forall2 short p l /\ ser_path p = JList (concat l)) /\
  (~ plain p -> exists l, Forall2 long p l /\ ser_path p = JList l).
Proof.
  split; intros H.
  - exists (map ser_items p). unfold ser_path. rewrite (proj2 (simplified_iff p) H). split; [|rewrite flat_map_concat_map; auto].
    destruct H as [H _]. induction p as [|[k l] p IH]; cbn [map]; constructor.
    + destruct (H _ (or_introl eq_refl)) as [E|E]; cbn [s_kind] in E; subst; constructor. + apply IH. intros s I. apply H. right. exact I.
  - exists (map ser_seg p). unfold ser_path. destruct (simplified false p) eqn:S; [elim (H (proj1 (simplified_iff p) S))|]. split; auto.
    clear. induction p as [|[k l] p IH]; cbn [map]; constructor; auto. destruct k; reflexivity.
Qed.

(** * Communities *)
Lemma de_bytes n l : octets_n (N.of_nat n) l -> de_array n de_byte (ser_bytes l) = Some l.
Proof. intros [L B]. rewrite <- (Nnat.Nat2N.id n). exact (de_array_num 256 (N.of_nat n) l B L). Qed.
Lemma sub_read {A} (f : json -> option A) g n st a l : st < 256 -> f (g a) = Some a -> octets_n (N.of_nat n) l -> de_sub f n (ser_sub st g a l) = Some (st, a, l).
Proof.
  intros S E O. transitivity (st' <<- de_byte (JNum st) ;; a' <<- f (g a) ;; b <<- de_array n de_byte (ser_bytes l) ;; Some (st', a', b)); [reflexivity|].
  unfold de_byte at 1. rewrite de_num_ok by exact S. cbn [obind]. rewrite E. cbn [obind]. rewrite (de_bytes n l O). reflexivity.
Qed.
Lemma opaque_read st v : st < 256 -> octets_n 6 v -> de_opaque (jobj [("subtype"%string, JNum st); ("value"%string, ser_bytes v)]) = Some (st, v).
Proof.
  intros S O. transitivity (st' <<- de_byte (JNum st) ;; b <<- de_array 6 de_byte (ser_bytes v) ;; Some (st', b)); [reflexivity|].
  unfold de_byte at 1. rewrite de_num_ok by exact S. cbn [obind]. rewrite (de_bytes 6 v O). reflexivity.
Qed.
Lemma f32_read b : single_finite b -> de_f32 (ser_f32 b) = Some b.
Proof. intros F. unfold ser_f32, f32_finite. apply N.eqb_neq in F. rewrite F. reflexivity. Qed.
Lemma ext_read ps tx x : texts_ok ps tx -> ext_ranged x -> meta_finite (MExtended x) -> de_ext ps (ser_ext tx x) = Some x.
Proof.
  intros (T1 & T2 & T3) X F. destruct x as [t st a l|t st a l|t st a l|t st v|a r|a t s|st a l|a d|t a b|b]; cbn [ext_ranged meta_finite] in X, F.
  - destruct X as (S & A & O). destruct t.
    + transitivity ('(st', a', b) <<- de_sub de_asn 4 (ser_sub st ser_asn a l) ;; Some (XTwoOctet true st' a' b)); [reflexivity|].
      rewrite (sub_read de_asn ser_asn 4 st a l S (de_num_ok _ _ A) O). reflexivity.
    + transitivity ('(st', a', b) <<- de_sub de_asn 4 (ser_sub st ser_asn a l) ;; Some (XTwoOctet false st' a' b)); [reflexivity|].
      rewrite (sub_read de_asn ser_asn 4 st a l S (de_num_ok _ _ A) O). reflexivity.
  - destruct X as (S & A & O). destruct t.
    + transitivity ('(st', a', b) <<- de_sub (de_ip4 ps) 2 (ser_sub st (ser_ip4 tx) a l) ;; Some (XIpv4 true st' a' b)); [reflexivity|].
      rewrite (sub_read (de_ip4 ps) (ser_ip4 tx) 2 st a l S (T2 a A) O). reflexivity.
    + transitivity ('(st', a', b) <<- de_sub (de_ip4 ps) 2 (ser_sub st (ser_ip4 tx) a l) ;; Some (XIpv4 false st' a' b)); [reflexivity|].
      rewrite (sub_read (de_ip4 ps) (ser_ip4 tx) 2 st a l S (T2 a A) O). reflexivity.
  - destruct X as (S & A & O). destruct t.
    + transitivity ('(st', a', b) <<- de_sub de_asn 2 (ser_sub st ser_asn a l) ;; Some (XFourOctet true st' a' b)); [reflexivity|].
      rewrite (sub_read de_asn ser_asn 2 st a l S (de_num_ok _ _ A) O). reflexivity.
    + transitivity ('(st', a', b) <<- de_sub de_asn 2 (ser_sub st ser_asn a l) ;; Some (XFourOctet false st' a' b)); [reflexivity|].
      rewrite (sub_read de_asn ser_asn 2 st a l S (de_num_ok _ _ A) O). reflexivity.
  - destruct X as (S & O). destruct t.
    + transitivity ('(st', b) <<- de_opaque (jobj [("subtype"%string, JNum st); ("value"%string, ser_bytes v)]) ;; Some (XOpaque true st' b)); [reflexivity|].
      rewrite opaque_read by auto. reflexivity.
    + transitivity ('(st', b) <<- de_opaque (jobj [("subtype"%string, JNum st); ("value"%string, ser_bytes v)]) ;; Some (XOpaque false st' b)); [reflexivity|].
      rewrite opaque_read by auto. reflexivity.
  - rename X into A. transitivity (a' <<- de_num (2 ^ 16) (JNum a) ;; r' <<- de_f32 (ser_f32 r) ;; Some (XTrafficRate a' r')); [reflexivity|].
    rewrite de_num_ok by exact A. cbn [obind]. rewrite f32_read by exact F. reflexivity.
  - transitivity (a' <<- de_num (2 ^ 16) (JNum a) ;; Some (XTrafficAction a' t s)); [reflexivity|]. rewrite de_num_ok by exact X. reflexivity.
  - destruct X as (S & A & O). transitivity ('(st', a', b) <<- de_sub de_asn 4 (ser_sub st ser_asn a l) ;; Some (XRedirect st' a' b)); [reflexivity|].
    rewrite (sub_read de_asn ser_asn 4 st a l S (de_num_ok _ _ A) O). reflexivity.
  - destruct X as (A & D). transitivity (a' <<- de_num (2 ^ 16) (JNum a) ;; d' <<- de_num 256 (JNum d) ;; Some (XTrafficMarking a' d')); [reflexivity|].
    rewrite !de_num_ok by assumption. reflexivity.
  - rename X into A. transitivity (a' <<- de_num (2 ^ 16) (JNum a) ;; r' <<- de_f32 (ser_f32 b) ;; Some (XLinkBandwidth t a' r')); [reflexivity|].
    rewrite de_num_ok by exact A. cbn [obind]. rewrite f32_read by exact F. reflexivity.
  - transitivity (b' <<- de_array 8 de_byte (ser_bytes b) ;; Some (XRaw b')); [reflexivity|]. rewrite (de_bytes 8 b X). reflexivity.
Qed.
Lemma ect_read t : match t with TUnknown n => n < 256 | _ => True end -> de_ect (ser_ect t) = Some t.
Proof. destruct t as [| | | | | | | |n]; intros H; try reflexivity. transitivity (n' <<- de_byte (JNum n) ;; Some (TUnknown n')); [reflexivity|]. unfold de_byte. rewrite de_num_ok by exact H. reflexivity. Qed.
Lemma ipv6_read ps tx c : texts_ok ps tx -> meta_ranged (MIpv6Extended c) -> de_ipv6_ext ps (ser_ipv6_ext tx c) = Some c.
Proof.
  intros (T1 & _) (E & S & V & A & B). destruct c as [t st a x y]. cbn [ie_type ie_subtype ie_admin ie_l0 ie_l1] in *.
  transitivity (t' <<- de_ect (ser_ect t) ;; st' <<- de_byte (JNum st) ;; a' <<- de_ip6 ps (ser_ip6 tx a) ;;
    match de_array 2 de_byte (JList (map JNum [x; y])) with Some [x'; y'] => Some (Ipv6Ext t' st' a' x' y') | _ => None end); [reflexivity|].
  rewrite ect_read by exact E. cbn [obind]. unfold de_byte at 1. rewrite de_num_ok by exact S. cbn [obind]. unfold de_ip6, de_ip, ser_ip6. cbn [de_text obind]. rewrite (T1 (V6 a) V). cbn [obind].
  assert (H : de_array (N.to_nat 2) de_byte (JList (map JNum [x; y])) = Some [x; y]) by (apply de_array_num; auto).
  change (N.to_nat 2) with 2%nat in H. rewrite H. reflexivity.
Qed.
Lemma large_read c : meta_ranged (MLarge c) -> de_large (ser_large c) = Some c.
Proof.
  intros (A & B & C). destruct c as [a x y]. cbn [lc_admin lc_d0 lc_d1] in *.
  transitivity (a' <<- de_num (2 ^ 32) (JNum a) ;; match de_array 2 (de_num (2 ^ 32)) (JList (map JNum [x; y])) with Some [x'; y'] => Some (Large a' x' y') | _ => None end); [reflexivity|].
  rewrite de_num_ok by exact A. cbn [obind].
  assert (H : de_array (N.to_nat 2) (de_num (2 ^ 32)) (JList (map JNum [x; y])) = Some [x; y]) by (apply de_array_num; auto).
  change (N.to_nat 2) with 2%nat in H. rewrite H. reflexivity.
Qed.
Lemma meta_read ps tx m : texts_ok ps tx -> meta_ranged m -> meta_finite m -> de_meta ps (ser_meta tx m) = Some m.
Proof.
  intros T M F. destruct m as [c|x|c|c]; cbn [ser_meta]; unfold de_meta.
  - assert (E : de_plain (ser_plain c) = Some c).
    { destruct c as [| | |a v]; try reflexivity. destruct M as [A V].
      transitivity (a' <<- de_num (2 ^ 32) (JNum a) ;; v' <<- de_num (2 ^ 16) (JNum v) ;; Some (CCustom a' v')); [reflexivity|]. rewrite !de_num_ok by assumption. reflexivity. }
    rewrite E. reflexivity.
  - assert (E : de_plain (ser_ext tx x) = None) by (destruct x as [[]|[]|[]|[]| | | | |[]|]; reflexivity). rewrite E, ext_read by assumption. reflexivity.
  - assert (E : de_plain (ser_ipv6_ext tx c) = None) by reflexivity. assert (E' : de_ext ps (ser_ipv6_ext tx c) = None) by reflexivity.
    rewrite E, E', ipv6_read by assumption. reflexivity.
  - assert (E : de_plain (ser_large c) = None) by reflexivity. assert (E' : de_ext ps (ser_large c) = None) by reflexivity.
    assert (E'' : de_ipv6_ext ps (ser_large c) = None) by reflexivity. rewrite E, E', E'', large_read by assumption. reflexivity.
Qed.

(** * Elements *)
Lemma option_read {A} (f : json -> option A) g o : (forall a, g a <> JNull) -> opt_all (fun a => f (g a) = Some a) o -> de_option f (jopt g o) = Some o.
Proof.
  intros G H. destruct o as [a|]; [|reflexivity]. cbn [jopt]. unfold de_option. cbn [opt_all] in H. specialize (G a). destruct (g a); try (elim (G eq_refl); fail); rewrite H; reflexivity.
Qed.
Lemma raw_read r : raw_ranged r -> de_raw (ser_raw r) = Some r.
Proof.
  intros [C B]. destruct r as [c b]. cbn [fst snd] in *. transitivity (c' <<- de_byte (JNum c) ;; b' <<- de_list de_byte (ser_bytes b) ;; Some (c', b')); [reflexivity|].
  unfold de_byte at 1. rewrite de_num_ok by exact C. cbn [obind]. unfold ser_bytes, de_byte. rewrite (de_list_num 256 b B). reflexivity.
Qed.
Lemma prefix_read ps tx p : texts_ok ps tx -> prefix_ok p -> de_prefix ps (ser_prefix tx p) = Some p.
Proof.
  intros (_ & _ & T) [V I]. destruct p as [n [i|]]; cbn [p_id p_net id_ok] in I, V.
  - transitivity (n' <<- ps_net ps (tx_net tx n) ;; i' <<- de_num (2 ^ 32) (JNum i) ;; Some (Pfx n' (Some i'))); [reflexivity|]. rewrite T by exact V. cbn [obind]. rewrite de_num_ok by exact I. reflexivity.
  - unfold ser_prefix, de_prefix, de_net. cbn [p_id p_net de_text obind]. rewrite T by exact V. reflexivity.
Qed.
Lemma elem_read ps tx e : texts_ok ps tx -> elem_ranged e -> elem_finite e -> opt_all path_kept (e_path e) -> de_elem ps (ser_elem tx e) = Some e.
Proof.
  intros T H F K. destruct e as [tm ty pi pa bi px nh ap oa og lp md cs at_ aa ai ot un de].
  unfold elem_ranged, elem_finite in H, F. cbn [e_time e_peer e_asn e_id e_hop e_aggr_ip e_prefix e_path e_origins e_pref e_med e_comms e_aggr_asn e_otc e_unknown e_depr] in H, F, K.
  destruct F as (H1 & F). destruct H as (P1 & H2 & P2 & H3 & P3 & H4 & H5 & H6 & H7 & H8 & H9 & P4 & H10 & H11 & H12).
  assert (G1 : forall n, n < 2 ^ 32 -> de_ip4 ps (ser_ip4 tx n) = Some n) by (intros n; exact (proj1 (proj2 T) n)).
  assert (G2 : forall i, ip_ok i -> de_ip ps (ser_ip tx i) = Some i) by (intros i; exact (proj1 T i)).
  assert (G3 : forall {A} (P Q : A -> Prop) (o : option A), (forall a, P a -> Q a) -> opt_all P o -> opt_all Q o) by (intros A P Q [a|] X Y; cbn in *; auto).
  transitivity (
    tm' <<- de_f64 (ser_f64 tm) ;; ty' <<- de_type (ser_type ty) ;; pi' <<- de_ip ps (ser_ip tx pi) ;; pa' <<- de_asn (ser_asn pa) ;;
    bi' <<- de_option (de_ip4 ps) (jopt (ser_ip4 tx) bi) ;; px' <<- de_prefix ps (ser_prefix tx px) ;; nh' <<- de_option (de_ip ps) (jopt (ser_ip tx) nh) ;;
    ap' <<- de_option de_path (jopt ser_path ap) ;; oa' <<- de_option (de_list de_asn) (jopt (fun l => JList (map ser_asn l)) oa) ;;
    og' <<- de_option de_origin (jopt ser_origin og) ;; lp' <<- de_option (de_num (2 ^ 32)) (jopt JNum lp) ;; md' <<- de_option (de_num (2 ^ 32)) (jopt JNum md) ;;
    cs' <<- de_option (de_list (de_meta ps)) (jopt (fun l => JList (map (ser_meta tx) l)) cs) ;; at' <<- de_bool (JBool at_) ;;
    aa' <<- de_option de_asn (jopt ser_asn aa) ;; ai' <<- de_option (de_ip4 ps) (jopt (ser_ip4 tx) ai) ;; ot' <<- de_option de_asn (jopt ser_asn ot) ;;
    un' <<- de_option (de_list de_raw) (jopt (fun l => JList (map ser_raw l)) un) ;; de' <<- de_option (de_list de_raw) (jopt (fun l => JList (map ser_raw l)) de) ;;
    Some (Elem tm' ty' pi' pa' bi' px' nh' ap' oa' og' lp' md' cs' at' aa' ai' ot' un' de')); [reflexivity|].
  replace (de_f64 (ser_f64 tm)) with (Some tm) by (destruct tm; cbn in H1; try reflexivity; elim H1). cbn [obind].
  replace (de_type (ser_type ty)) with (Some ty) by (destruct ty; reflexivity). cbn [obind]. rewrite G2 by exact P1. cbn [obind].
  unfold de_asn at 1, ser_asn at 1. rewrite de_num_ok by exact H2. cbn [obind].
  rewrite (option_read (de_ip4 ps)); [|discriminate|exact (G3 _ _ _ _ G1 P2)]. cbn [obind]. rewrite prefix_read by assumption. cbn [obind].
  rewrite (option_read (de_ip ps)); [|discriminate|exact (G3 _ _ _ _ G2 P3)]. cbn [obind].
  rewrite (option_read de_path).
  2:{ intros a. unfold ser_path. destruct (simplified false a); discriminate. }
  2:{ destruct ap as [p|]; cbn [opt_all] in *; auto. apply path_roundtrip; assumption. }
  cbn [obind]. rewrite (option_read (de_list de_asn)); [|discriminate|destruct oa as [l|]; cbn [opt_all] in *; auto; apply de_asns; auto]. cbn [obind].
  rewrite (option_read de_origin); [|discriminate|destruct og as [[]|]; cbn; auto]. cbn [obind].
  rewrite (option_read (de_num (2 ^ 32)) JNum lp); [|discriminate|destruct lp; cbn [opt_all] in *; auto; apply de_num_ok; auto]. cbn [obind].
  rewrite (option_read (de_num (2 ^ 32)) JNum md); [|discriminate|destruct md; cbn [opt_all] in *; auto; apply de_num_ok; auto]. cbn [obind].
  rewrite (option_read (de_list (de_meta ps))); [|discriminate|destruct cs as [l|]; cbn [opt_all] in *; auto].
  2:{ cbn [de_list]. apply all_of_id. rewrite Forall_forall in *. intros m M. apply meta_read; auto. }
  cbn [obind de_bool].
  rewrite (option_read de_asn ser_asn aa); [|discriminate|destruct aa; cbn [opt_all] in *; auto; apply de_num_ok; auto]. cbn [obind].
  rewrite (option_read (de_ip4 ps)); [|discriminate|exact (G3 _ _ _ _ G1 P4)]. cbn [obind].
  rewrite (option_read de_asn ser_asn ot); [|discriminate|destruct ot; cbn [opt_all] in *; auto; apply de_num_ok; auto]. cbn [obind].
  rewrite (option_read (de_list de_raw) (fun l => JList (map ser_raw l)) un); [|discriminate|destruct un as [l|]; cbn [opt_all] in *; auto].
  2:{ cbn [de_list]. apply all_of_id. eapply Forall_impl; [|exact H11]. apply raw_read. }
  cbn [obind].
  rewrite (option_read (de_list de_raw) (fun l => JList (map ser_raw l)) de); [|discriminate|destruct de as [l|]; cbn [opt_all] in *; auto].
  2:{ cbn [de_list]. apply all_of_id. eapply Forall_impl; [|exact H12]. apply raw_read. }
  reflexivity.
Qed.

(** * Accepted elements *)
Lemma obind_inv {A B} (x : option A) (f : A -> option B) b : obind x f = Some b -> exists a, x = Some a /\ f a = Some b.
Proof. destruct x as [a|]; [eauto|discriminate]. Qed.
Lemma num_in b j n : de_num b j = Some n -> n < b.
Proof. destruct j; try discriminate. cbn [de_num]. destruct (n0 <? b) eqn:E; [|discriminate]. intros [= <-]. apply N.ltb_lt, E. Qed.
Lemma all_of_in {A B} (P : B -> Prop) (f : A -> option B) l : (forall a b, f a = Some b -> P b) -> forall r, all_of f l = Some r -> Forall P r.
Proof.
  intros F. induction l as [|a l IH]; cbn [all_of]; intros r H; [inversion H; constructor|].
  apply obind_inv in H. destruct H as (b & Eb & H). apply obind_inv in H. destruct H as (bs & Es & H). injection H as <-. constructor; eauto.
Qed.
Lemma list_in {A} (P : A -> Prop) (f : json -> option A) j l : (forall j a, f j = Some a -> P a) -> de_list f j = Some l -> Forall P l.
Proof. intros F. destruct j; try discriminate. apply all_of_in, F. Qed.
Lemma array_in n j l : de_array n de_byte j = Some l -> octets_n (N.of_nat n) l.
Proof.
  unfold de_array. intros H. apply obind_inv in H. destruct H as (l' & E & H). destruct (Nat.eqb (length l') n) eqn:L; [|discriminate]. injection H as ->.
  apply Nat.eqb_eq in L. split; [unfold nlen; rewrite L; reflexivity|]. eapply list_in; [|exact E]. intros; eapply num_in; eauto.
Qed.
Lemma option_in {A} (P : A -> Prop) (f : json -> option A) j o : (forall j a, f j = Some a -> P a) -> de_option f j = Some o -> opt_all P o.
Proof. intros F. unfold de_option. destruct j; intros H; try (injection H as <-; exact I); apply obind_inv in H; destruct H as (a & E & H); injection H as <-; cbn; eauto. Qed.
Lemma opt_in {A} (P : A -> Prop) k (f : json -> option A) l o : (forall j a, f j = Some a -> P a) -> opt_field k f l = Some o -> opt_all P o.
Proof. intros F. unfold opt_field. destruct (jget (str k) l); [apply option_in, F|]. intros [= <-]. exact I. Qed.
Lemma field_in {A} (P : A -> Prop) k (f : json -> option A) l a : (forall j a, f j = Some a -> P a) -> field k f l = Some a -> P a.
Proof. intros F H. unfold field in H. apply obind_inv in H. destruct H as (j & _ & H). eauto. Qed.
Lemma num_field k b l n : field k (de_num b) l = Some n -> n < b.
Proof. apply (field_in (fun n => n < b)). intros j a. apply num_in. Qed.
Lemma asns_in j l : de_list de_asn j = Some l -> u32s l.
Proof. apply list_in. intros; eapply num_in; eauto. Qed.
Lemma seg_in j s : de_seg j = Some s -> u32s (s_asns s).
Proof.
  unfold de_seg. intros H. apply obind_inv in H. destruct H as (l & _ & H). apply obind_inv in H. destruct H as (k & _ & H). apply obind_inv in H. destruct H as (v & V & H).
  injection H as <-. cbn [s_asns]. revert V. apply (field_in u32s). intros j'. apply asns_in.
Qed.
Lemma push_in p a : path_u32 p -> a < 2 ^ 32 -> path_u32 (push_asn p a).
Proof.
  intros H A. unfold path_u32 in *. induction H as [|s p S H IH]; [repeat constructor; exact A|]. destruct s as [k l].
  assert (D : push_asn (Seg k l :: p) a = Seg k l :: push_asn p a \/ push_asn (Seg k l :: p) a = [Seg KSeq (l ++ [a])])
    by (destruct k; [|left; destruct p; reflexivity ..]; destruct p; [|left; reflexivity]; destruct l; auto).
  destruct D as [-> | ->]; repeat constructor; auto. cbn [s_asns] in *. apply Forall_app. split; auto.
Qed.
Lemma path_in j p : de_path j = Some p -> path_u32 p.
Proof.
  unfold de_path. intros H. apply obind_inv in H. destruct H as (l & L & H). injection H as <-.
  apply (list_in (fun e => match e with PEAsn a => a < 2 ^ 32 | PESet v => u32s v | PESeg s => u32s (s_asns s) end)) in L.
  2:{ intros j' e. unfold de_element. destruct (de_asn j') eqn:E; [intros [= <-]; eapply num_in; eauto|]. destruct (de_list de_asn j') eqn:E'; [intros [= <-]; eapply asns_in; eauto|].
      intros H. apply obind_inv in H. destruct H as (s & S & H). injection H as <-. eapply seg_in; eauto. }
  assert (G : forall q, path_u32 q -> path_u32 (fold_left add_element l q)); [|apply G; constructor].
  induction L as [|e l E L IH]; intros q Q; cbn [fold_left]; auto. apply IH. unfold path_u32 in *. destruct e; cbn [add_element]; [apply push_in; auto| |];
    (apply Forall_app; split; [exact Q|constructor; [exact E|constructor]]).
Qed.
Lemma sub_in {A} (P : A -> Prop) (f : json -> option A) n j st a l : (forall j a, f j = Some a -> P a) -> de_sub f n j = Some (st, a, l) -> st < 256 /\ P a /\ octets_n (N.of_nat n) l.
Proof.
  intros F H. unfold de_sub in H. apply obind_inv in H. destruct H as (o & _ & H). apply obind_inv in H. destruct H as (s & S & H). apply obind_inv in H. destruct H as (b & B & H).
  apply obind_inv in H. destruct H as (c & C & H). injection H as <- <- <-. repeat split.
  - revert S. apply num_field.
  - revert B. apply (field_in P), F.
  - revert C. apply (field_in (fun c => nlen c = N.of_nat n)). intros j' c' E. apply array_in in E. apply E.
  - revert C. apply (field_in (fun c => bytes_ok c)). intros j' c' E. apply array_in in E. apply E.
Qed.
Lemma opaque_in j st v : de_opaque j = Some (st, v) -> st < 256 /\ octets_n 6 v.
Proof.
  unfold de_opaque. intros H. apply obind_inv in H. destruct H as (o & _ & H). apply obind_inv in H. destruct H as (s & S & H). apply obind_inv in H. destruct H as (b & B & H). injection H as <- <-. split.
  - revert S. apply num_field.
  - revert B. apply (field_in (octets_n 6)). intros j' c' E. apply array_in in E. exact E.
Qed.
Lemma asn_sub_in n j st a l : de_sub de_asn n j = Some (st, a, l) -> st < 256 /\ a < 2 ^ 32 /\ octets_n (N.of_nat n) l.
Proof. apply (sub_in (fun a => a < 2 ^ 32)). intros; eapply num_in; eauto. Qed.
Lemma ip_in ps j i : parsers_typed ps -> de_ip ps j = Some i -> ip_ok i.
Proof. intros (T & _) H. apply obind_inv in H. destruct H as (s & _ & H). eauto. Qed.
Lemma ip4_in ps j n : parsers_typed ps -> de_ip4 ps j = Some n -> n < 2 ^ 32.
Proof. intros (_ & T & _) H. apply obind_inv in H. destruct H as (s & _ & H). eauto. Qed.
Lemma ip4_sub_in ps n j st a l : parsers_typed ps -> de_sub (de_ip4 ps) n j = Some (st, a, l) -> st < 256 /\ a < 2 ^ 32 /\ octets_n (N.of_nat n) l.
Proof. intros T. apply (sub_in (fun a => a < 2 ^ 32)). intros j' a' H. eapply ip4_in; eauto. Qed.
Lemma ext_in ps j x : parsers_typed ps -> de_ext ps j = Some x -> ext_ranged x.
Proof.
  unfold de_ext. intros T H. apply obind_inv in H. destruct H as ([k v] & _ & H).
  assert (N16 : forall k l n, field k (de_num (2 ^ 16)) l = Some n -> n < 2 ^ 16) by (intros k' l' n'; apply num_field).
  assert (N8 : forall k l n, field k de_byte l = Some n -> n < 256) by (intros k' l' n'; apply num_field).
  repeat match type of H with
  | (if ?c then _ else _) = _ => destruct c
  end;
  try discriminate;
  repeat match type of H with
  | obind _ _ = Some _ => let E := fresh "E" in apply obind_inv in H; destruct H as (? & E & H)
  | (let (_, _) := ?p in _) = _ => destruct p
  | Some _ = Some _ => injection H as <-
  end; cbn [ext_ranged];
  try (apply asn_sub_in in E; exact E); try (apply ip4_sub_in in E; [exact E|exact T]); try (apply opaque_in in E; exact E); try (apply array_in in E; exact E); eauto.
Qed.
Lemma array2_in b k l x y : field k (de_array 2 (de_num b)) l = Some [x; y] -> x < b /\ y < b.
Proof.
  intros H. assert (F : Forall (fun n => n < b) [x; y]).
  { revert H. apply (field_in (Forall (fun n => n < b))). intros j a E. unfold de_array in E. apply obind_inv in E. destruct E as (l' & E & E'). destruct (Nat.eqb (length l') 2); [|discriminate].
    injection E' as ->. revert E. apply list_in. intros; eapply num_in; eauto. }
  inversion F as [|? ? ? F']; inversion F'; auto.
Qed.
Lemma ect_in j t : de_ect j = Some t -> match t with TUnknown n => n < 256 | _ => True end.
Proof.
  unfold de_ect. intros H. assert (G : forall k v, (if bytes_eqb k (str "Unknown") then n <<- de_byte v ;; Some (TUnknown n) else None) = Some t -> match t with TUnknown n => n < 256 | _ => True end).
  { intros k v E. destruct (bytes_eqb k (str "Unknown")); [|discriminate]. apply obind_inv in E. destruct E as (n & E & E'). injection E' as <-. eapply num_in; eauto. }
  destruct j; try (apply obind_inv in H; destruct H as ([k v] & _ & H); exact (G _ _ H)).
  apply find_some in H. destruct H as [H _]. cbn [In] in H. intuition (subst; exact I).
Qed.
Lemma meta_in ps j m : parsers_typed ps -> de_meta ps j = Some m -> meta_ranged m.
Proof.
  unfold de_meta. intros PT H. destruct (de_plain j) as [c|] eqn:E1.
  { injection H as <-. destruct c as [| | |a v]; try exact I. cbn [meta_ranged].
    assert (G : forall k w, (if bytes_eqb k (str "Custom") then match w with JList [x; y] => a <<- de_asn x ;; n <<- de_num (2 ^ 16) y ;; Some (CCustom a n) | _ => None end else None) = Some (CCustom a v) -> a < 2 ^ 32 /\ v < 2 ^ 16).
    { intros k w E. destruct (bytes_eqb k (str "Custom")); [|discriminate]. destruct w as [| | | | | |[|x [|y [|z w]]]|]; try discriminate.
      apply obind_inv in E. destruct E as (a' & A & E). apply obind_inv in E. destruct E as (v' & V & E). injection E as <- <-. split; eapply num_in; eauto. }
    unfold de_plain in E1. destruct j; try (apply obind_inv in E1; destruct E1 as ([k w] & _ & E1); exact (G _ _ E1)).
    repeat match type of E1 with (if ?c then _ else _) = _ => destruct c end; discriminate. }
  destruct (de_ext ps j) as [x|] eqn:E2; [injection H as <-; exact (ext_in _ _ _ PT E2)|].
  destruct (de_ipv6_ext ps j) as [c|] eqn:E3.
  { injection H as <-. unfold de_ipv6_ext in E3. apply obind_inv in E3. destruct E3 as (l & _ & E). apply obind_inv in E. destruct E as (t & T & E). apply obind_inv in E. destruct E as (st & S & E).
    apply obind_inv in E. destruct E as (a & A & E). destruct (field "local_admin" (de_array 2 de_byte) l) as [[|x [|y [|z w]]]|] eqn:F; try discriminate. injection E as <-. cbn [meta_ranged ie_type ie_subtype ie_admin ie_l0 ie_l1].
    apply array2_in in F. repeat split; try tauto.
    - revert T. apply (field_in (fun t => match t with TUnknown n => n < 256 | _ => True end)). apply ect_in.
    - revert S. apply num_field.
    - revert A. apply (field_in (fun a => a < 2 ^ 128)). intros j' a'. unfold de_ip6. destruct (de_ip ps j') as [[n|n]|] eqn:V; try discriminate. intros [= <-]. exact (ip_in _ _ _ PT V). }
  apply obind_inv in H. destruct H as (c & C & H). injection H as <-. unfold de_large in C. apply obind_inv in C. destruct C as (l & _ & C). apply obind_inv in C. destruct C as (a & A & C).
  destruct (field "local_data" (de_array 2 (de_num (2 ^ 32))) l) as [[|x [|y [|z w]]]|] eqn:F; try discriminate. injection C as <-. cbn [meta_ranged lc_admin lc_d0 lc_d1].
  apply array2_in in F. repeat split; try tauto. revert A. apply num_field.
Qed.
Lemma raw_in j r : de_raw j = Some r -> raw_ranged r.
Proof.
  unfold de_raw. intros H. apply obind_inv in H. destruct H as (l & _ & H). apply obind_inv in H. destruct H as (c & C & H). apply obind_inv in H. destruct H as (b & B & H). injection H as <-.
  split; cbn [fst snd]; [revert C; apply num_field|]. revert B. apply (field_in bytes_ok). intros j' l'. apply list_in. intros; eapply num_in; eauto.
Qed.
Lemma net_in ps j n : parsers_typed ps -> de_net ps j = Some n -> net_ok n.
Proof. intros (_ & _ & T) H. apply obind_inv in H. destruct H as (s & _ & H). eauto. Qed.
Lemma prefix_in ps j p : parsers_typed ps -> de_prefix ps j = Some p -> prefix_ok p.
Proof.
  intros T. unfold de_prefix. destruct (de_net ps j) eqn:V; [intros [= <-]; split; [exact (net_in _ _ _ T V)|exact I]|]. intros H. apply obind_inv in H. destruct H as (l & _ & H).
  match type of H with (if ?c then _ else _) = _ => destruct c end; [|discriminate].
  apply obind_inv in H. destruct H as (n & W & H). apply obind_inv in H. destruct H as (k & K & H). injection H as <-. split; cbn [p_net p_id id_ok]; [|revert K; apply num_field].
  revert W. apply (field_in net_ok). intros j' n'. apply net_in, T.
Qed.
Lemma elem_in ps j e : parsers_typed ps -> de_elem ps j = Some e -> elem_ranged e.
Proof.
  unfold de_elem. intros T H.
  repeat match type of H with obind _ _ = Some _ => let E := fresh "E" in apply obind_inv in H; destruct H as (? & E & H) end.
  injection H as <-. unfold elem_ranged. cbn [e_peer e_asn e_id e_hop e_aggr_ip e_prefix e_path e_origins e_pref e_med e_comms e_aggr_asn e_otc e_unknown e_depr].
  assert (N32 : forall j a, de_num (2 ^ 32) j = Some a -> a < 2 ^ 32) by (intros; eapply num_in; eauto).
  repeat match goal with |- _ /\ _ => split end.
  - revert E2. apply (field_in ip_ok). intros j' i'. apply ip_in, T.
  - revert E3. apply num_field.
  - revert E4. apply opt_in. intros j' i'. apply ip4_in, T.
  - revert E5. apply (field_in prefix_ok). intros j' i'. apply prefix_in, T.
  - revert E6. apply opt_in. intros j' i'. apply ip_in, T.
  - revert E7. apply opt_in, path_in.
  - revert E8. apply opt_in, asns_in.
  - revert E10. apply opt_in, N32.
  - revert E11. apply opt_in, N32.
  - revert E12. apply opt_in. intros j' l'. apply list_in. intros j'' m. apply meta_in, T.
  - revert E14. apply opt_in, N32.
  - revert E15. apply opt_in. intros j' i'. apply ip4_in, T.
  - revert E16. apply opt_in, N32.
  - revert E17. apply opt_in. intros j' l'. apply list_in, raw_in.
  - revert E18. apply opt_in. intros j' l'. apply list_in, raw_in.
Qed.

(** * What is not finite is not read *)
Lemma f32_unread b : ~ single_finite b -> ser_f32 b = JNull.
Proof. intros F. unfold ser_f32, f32_finite. destruct (N.eqb_spec ((b / 2 ^ 23) mod 256) 255) as [_|E]; [reflexivity|]. destruct (F E). Qed.
Lemma meta_unread ps tx m : ~ meta_finite m -> de_meta ps (ser_meta tx m) = None.
Proof.
  intros F. destruct m as [c|x|c|c]; try (destruct F; exact I). destruct x; try (destruct F; exact I); cbn [meta_finite] in F; apply f32_unread in F; cbn [ser_meta ser_ext]; rewrite F; cbn [ser_asn]; unfold de_meta, de_ext;
  cbn; unfold de_asn, de_num; cbn [obind]; repeat match goal with |- context [if ?b then _ else _] => destruct b; cbn end; reflexivity.
Qed.
Lemma elem_read_finite ps tx e e' : de_elem ps (ser_elem tx e) = Some e' -> elem_finite e.
Proof.
  unfold de_elem. destruct (de_object elem_fields (ser_elem tx e)) as [l|] eqn:O; [|discriminate]. cbn [obind].
  assert (T : field "timestamp" de_f64 l = de_f64 (ser_f64 (e_time e))) by (injection O as <-; reflexivity).
  assert (C : opt_field "communities" (de_list (de_meta ps)) l = de_option (de_list (de_meta ps)) (jopt (fun l => JList (map (ser_meta tx) l)) (e_comms e))) by (injection O as <-; reflexivity).
  rewrite T, C. clear O T C. intros H. split.
  - destruct (e_time e); cbn in *; try exact I; discriminate.
  - destruct (e_comms e) as [ms|]; cbn [opt_all]; [|exact I].
    destruct (de_option (de_list (de_meta ps)) (jopt (fun l => JList (map (ser_meta tx) l)) (Some ms))) as [o|] eqn:D;
      [|repeat match type of H with obind ?x _ = Some _ => destruct x; cbn [obind] in H; [|discriminate H] end; discriminate H].
    cbn [jopt de_option de_list] in D. clear H. destruct (all_of (de_meta ps) (map (ser_meta tx) ms)) as [xs|] eqn:A; [|discriminate]. clear D. revert xs A. induction ms as [|m ms IH]; intros xs A; [constructor|].
    cbn [map all_of] in A. destruct (de_meta ps (ser_meta tx m)) as [x|] eqn:M; [|discriminate]. cbn [obind] in A. destruct (all_of _ (map _ ms)) as [ys|] eqn:Y; [|discriminate].
    constructor; [|eapply IH; eauto]. destruct m as [c|x'|c|c]; cbn [meta_finite]; try exact I.
    assert (W : meta_finite (MExtended x') \/ ~ meta_finite (MExtended x')).
    { destruct x'; cbn [meta_finite]; auto; unfold single_finite; match goal with |- ?a <> ?b \/ _ => destruct (N.eq_dec a b); [right; auto|left; assumption] end. }
    destruct W as [W|W]; [exact W|]. rewrite (meta_unread ps tx _ W) in M. discriminate.
Qed.
