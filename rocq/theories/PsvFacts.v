(** Proofs about text forms. *)
From Coq Require Import String Lia ZifyBool ZifyNat ZifyN Floats.SpecFloat.
From Verif Require Import Base BaseFacts Net NetSpec AsPath Community CommunitySpec Attr Elem Filter FilterFacts Text Psv PsvSpec.

(** * Characters *)
Lemma no_in (P : N -> Prop) x s : Forall P s -> ~ P x -> ~ In x s.
Proof. rewrite Forall_forall. intros F N I. exact (N (F x I)). Qed.
Definition listed (s : bytes) (x : N) : bool := existsb (N.eqb x) s.
Lemma listed_iff s x : listed s x = true <-> In x s.
Proof. unfold listed. rewrite existsb_exists. split; [intros (y & I & E); apply N.eqb_eq in E; subst; exact I|intros I; exists x; split; [exact I|apply N.eqb_refl]]. Qed.
Ltac not_listed := let H := fresh in intros H; apply listed_iff in H; vm_compute in H; discriminate H.
(** Characters of a field: printable, no bar. *)
Definition fieldc (x : N) : Prop := 32 <= x <= 125 /\ x <> 124.
Definition fieldcb (x : N) : bool := (32 <=? x) && (x <=? 125) && negb (x =? 124).
Lemma fieldcb_all s : forallb fieldcb s = true -> Forall fieldc s.
Proof. rewrite forallb_forall, Forall_forall. intros F x I. apply F in I. unfold fieldcb, fieldc in *. lia. Qed.
Lemma fieldc_in a s : forallb fieldcb a = true -> Forall (fun x => In x a) s -> Forall fieldc s.
Proof. intros A F. apply fieldcb_all in A. rewrite Forall_forall in *. intros x I. apply A, F, I. Qed.
Lemma figure_field s : Forall figure s -> Forall fieldc s.
Proof. apply fieldc_in. reflexivity. Qed.
Lemma dotted_field s : Forall dotted s -> Forall fieldc s.
Proof. apply fieldc_in. reflexivity. Qed.
Lemma coloned_field s : Forall coloned s -> Forall fieldc s.
Proof. apply fieldc_in. reflexivity. Qed.
Lemma dec_digit n : Forall (fun x => 48 <= x <= 57) (dec n).
Proof. apply Forall_forall. apply dec_chars. Qed.
Lemma dec_field n : Forall fieldc (dec n).
Proof. eapply Forall_impl; [|apply dec_digit]. unfold fieldc. cbn. intros; lia. Qed.
Lemma hex_digit_chars n : n < 16 -> 48 <= hex_digit n <= 57 \/ 65 <= hex_digit n <= 70.
Proof. unfold hex_digit. destruct (N.ltb_spec n 10); lia. Qed.
Lemma octet_halves a : a < 256 -> a / 16 < 16 /\ a mod 16 < 16 /\ a = 16 * (a / 16) + a mod 16.
Proof. intros A. split; [apply N.div_lt_upper_bound; lia|]. split; [apply N.mod_lt; lia|apply N.div_mod; lia]. Qed.
Lemma show_hex_chars b : bytes_ok b -> Forall (fun x => 48 <= x <= 57 \/ 65 <= x <= 70) (show_hex b).
Proof.
  intros H. unfold show_hex. apply Forall_flat_map. eapply Forall_impl; [|exact H]. cbn beta. intros a A. destruct (octet_halves a A) as (B & C & _).
  unfold hex_octet. apply Forall_cons; [apply hex_digit_chars, B|]. apply Forall_cons; [apply hex_digit_chars, C|apply Forall_nil].
Qed.
Lemma show_hex_field b : bytes_ok b -> Forall fieldc (show_hex b).
Proof. intros H. eapply Forall_impl; [|apply show_hex_chars, H]. unfold fieldc. cbn. intros; lia. Qed.
Lemma join_field c l : fieldc c -> Forall (Forall fieldc) l -> Forall fieldc (join [c] l).
Proof.
  intros C F. apply Forall_forall. intros x I. apply In_join in I as [-> |(s & I & J)]; [exact C|]. rewrite Forall_forall in F. specialize (F s I). rewrite Forall_forall in F. exact (F x J).
Qed.
Lemma dec_inj m n : dec m = dec n -> m = n.
Proof. intros E. destruct (dec_ok m) as (_ & _ & A), (dec_ok n) as (_ & _ & B). rewrite <- A, <- B, E. reflexivity. Qed.
Lemma join_inj c l m : Forall (fun s => ~ In c s) l -> Forall (fun s => ~ In c s) m -> l <> [] -> m <> [] -> join [c] l = join [c] m -> l = m.
Proof. intros A B C D E. rewrite <- (split_join c l C A), <- (split_join c m D B), E. reflexivity. Qed.
Lemma map_inj {A B} (f : A -> B) l m : (forall x y, In x l -> In y m -> f x = f y -> x = y) -> map f l = map f m -> l = m.
Proof.
  revert m. induction l as [|x l IH]; intros [|y m] H E; try discriminate E; [reflexivity|]. cbn [map] in E. injection E as E1 E2. f_equal; [apply H; cbn; auto|apply IH; [|exact E2]]. intros; apply H; cbn; auto.
Qed.

(** * Paths *)
Definition step_text (x : step) : bytes :=
  match x with Gap => [] | One a => dec a | Several l => [123] ++ join [44] (map dec l) ++ [125] end.
Lemma seg_steps_ne s : seg_steps s <> [].
Proof. destruct s as [k l]. unfold seg_steps. cbn [s_kind s_asns]. destruct k, l; discriminate. Qed.
Lemma join_app c l m : l <> [] -> m <> [] -> join [c] (l ++ m) = join [c] l ++ c :: join [c] m.
Proof.
  intros L M. induction l as [|x l IH]; [congruence|]. destruct l as [|y l].
  - cbn [app]. destruct m as [|z m]; [congruence|]. reflexivity.
  - specialize (IH ltac:(discriminate)). cbn [app] in IH |- *. change (join [c] (x :: y :: l ++ m)) with (x ++ [c] ++ join [c] (y :: l ++ m)). rewrite IH.
    change (join [c] (x :: y :: l)) with (x ++ [c] ++ join [c] (y :: l)). rewrite <- !app_assoc. reflexivity.
Qed.
Lemma join_flat {A} c (f : A -> list bytes) l : Forall (fun x => f x <> []) l -> join [c] (map (fun x => join [c] (f x)) l) = join [c] (flat_map f l).
Proof.
  induction 1 as [|x l X F IH]; [reflexivity|]. destruct l as [|y l]; [cbn [map flat_map join]; rewrite app_nil_r; reflexivity|].
  change (flat_map f (x :: y :: l)) with (f x ++ flat_map f (y :: l)). assert (flat_map f (y :: l) <> []) by (inversion F; subst; cbn [flat_map]; destruct (f y); [congruence|discriminate]).
  rewrite join_app by assumption. rewrite <- IH. reflexivity.
Qed.
Lemma show_seg_steps s : show_seg s = join [32] (map step_text (seg_steps s)).
Proof. destruct s as [k l]. unfold show_seg, seg_steps, show_asn. cbn [s_kind s_asns]. destruct k; try reflexivity; destruct l as [|a l]; try reflexivity; rewrite map_map; reflexivity. Qed.
Lemma show_path_walk p : show_opt show_path p = join [32] (map step_text (walk p)).
Proof.
  destruct p as [[|s p]|]; try reflexivity. cbn [show_opt walk]. set (q := s :: p). clearbody q. unfold show_path.
  rewrite (map_ext _ (fun s => join [32] (map step_text (seg_steps s)))) by (intros; apply show_seg_steps).
  rewrite (join_flat 32 (fun s => map step_text (seg_steps s))).
  - f_equal. induction q as [|x q IH]; [reflexivity|]. cbn [flat_map]. rewrite map_app, IH. reflexivity.
  - apply Forall_forall. intros x _. pose proof (seg_steps_ne x). destruct (seg_steps x); [congruence|discriminate].
Qed.
Lemma walk_ne p : walk p <> [].
Proof.
  destruct p as [[|s p]|]; try discriminate. cbn [walk flat_map]. pose proof (seg_steps_ne s). destruct (seg_steps s); [congruence|discriminate].
Qed.
Lemma dec_no c n : c < 48 \/ 57 < c -> ~ In c (dec n).
Proof. intros H I. apply dec_chars in I. lia. Qed.
Lemma decs_no c l : c < 48 \/ 57 < c -> Forall (fun s => ~ In c s) (map dec l).
Proof. intros H. apply Forall_map. apply Forall_forall. intros n _. apply dec_no, H. Qed.
Lemma decs_inj l m : map dec l = map dec m -> l = m.
Proof. apply map_inj. intros x y _ _. apply dec_inj. Qed.
Lemma dec_ne n : dec n <> [].
Proof. apply dec_ok. Qed.
Lemma join_decs_inj c l m : c < 48 \/ 57 < c -> join [c] (map dec l) = join [c] (map dec m) -> l = m.
Proof.
  intros C E. assert (Z : forall a l, [] = join [c] (map dec (a :: l)) -> False).
  { intros a k H. apply (f_equal (@length N)) in H. pose proof (dec_ne a). destruct (dec a) eqn:D; [congruence|]. cbn [map] in H. rewrite D in H. destruct k; discriminate H. }
  destruct l as [|a l], m as [|b m]; [reflexivity|exfalso; exact (Z b m E)|exfalso; symmetry in E; exact (Z a l E)|].
  apply decs_inj. apply (join_inj c); [apply decs_no, C|apply decs_no, C|discriminate|discriminate|exact E].
Qed.
Lemma step_text_inj x y : step_text x = step_text y -> x = y.
Proof.
  intros E. assert (D : forall a, hd 0 (dec a) = 123 -> False).
  { intros a H. pose proof (dec_ne a). destruct (dec a) as [|z s] eqn:K; [congruence|]. assert (I : In z (dec a)) by (rewrite K; left; reflexivity). apply dec_chars in I. cbn in H. lia. }
  destruct x as [|a|l], y as [|b|m]; cbn [step_text] in E; try discriminate E; try reflexivity.
  - symmetry in E. apply dec_ne in E. contradiction.
  - apply dec_ne in E. contradiction.
  - apply dec_inj in E. subst. reflexivity.
  - exfalso. apply (D a). rewrite E. reflexivity.
  - exfalso. apply (D b). rewrite <- E. reflexivity.
  - cbn [app] in E. injection E as E. apply app_inj_tail in E as [E _]. apply join_decs_inj in E; [subst; reflexivity|lia].
Qed.
Lemma step_text_no x : ~ In 32 (step_text x).
Proof.
  destruct x as [|a|l]; cbn [step_text]; [intros []|apply dec_no; lia|]. intros I. apply in_app_iff in I as [I|I]; [cbn in I; intuition discriminate|].
  apply in_app_iff in I as [I|I]; [|cbn in I; intuition discriminate]. apply In_join in I as [I|(s & I & J)]; [discriminate|]. apply in_map_iff in I as (n & <- & _). apply dec_chars in J. lia.
Qed.
Lemma walk_iff p q : show_opt show_path p = show_opt show_path q <-> walk p = walk q.
Proof.
  rewrite !show_path_walk. split; [|intros ->; reflexivity]. intros E.
  assert (N : forall p, Forall (fun s => ~ In 32 s) (map step_text (walk p))) by (intros r; apply Forall_map, Forall_forall; intros x _; apply step_text_no).
  apply (map_inj step_text); [intros x y _ _; apply step_text_inj|]. apply (join_inj 32); auto; intros C; apply map_eq_nil in C; exact (walk_ne _ C).
Qed.
Lemma path_field p : Forall fieldc (show_opt show_path p).
Proof.
  rewrite show_path_walk. apply join_field; [unfold fieldc; lia|]. apply Forall_map, Forall_forall. intros x _. destruct x as [|a|l]; cbn [step_text]; [constructor|apply dec_field|].
  apply Forall_app. split; [apply fieldcb_all; reflexivity|]. apply Forall_app. split; [|apply fieldcb_all; reflexivity]. apply join_field; [unfold fieldc; lia|]. apply Forall_map, Forall_forall. intros; apply dec_field.
Qed.
