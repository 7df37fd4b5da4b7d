(** Proofs about BMP messages. *)
From Coq Require Import ZifyBool ZifyNat ZifyN Lia.
From Verif Require Import Base BaseFacts Reader ReaderFacts Tac Net NetSpec NetFacts Utf8 Tlv TlvFacts BgpMsg MsgSpec MsgFacts Elem Bmp BmpSpec.
Ltac Zify.zify_post_hook ::= Z.div_mod_to_equations.

(** * Pieces *)
(** [p] reads exactly the octets [wire] allows. *)
Definition reads {A} (p : P A) (wire : bytes -> A -> Prop) : Prop :=
  forall s x r, bytes_ok s -> (p s = Ok (x, r) <-> exists w, s = w ++ r /\ wire w x).
Lemma skip_app n z r : nlen z = n -> skip n (z ++ r) = Ok (tt, r).
Proof.
  intros H. unfold skip. rewrite (bind_ok _ _ _ tt (z ++ r)) by (apply has_n_ok; rewrite nlen_app; lia).
  rewrite (bind_ok _ _ _ z r) by (apply split_to_app; unfold nlen in H; lia). reflexivity.
Qed.
Lemma skip_inv n s u r : skip n s = Ok (u, r) -> exists z, s = z ++ r /\ nlen z = n.
Proof.
  unfold skip. intros H. apply bind_inv in H as (v & s' & H1 & H). apply has_n_inv in H1 as [-> H1].
  apply bind_inv in H as (z & s' & H2 & H). apply split_to_inv in H2 as [-> H2]. apply ret_inv in H as [_ <-]. exists z. split; auto. unfold nlen. lia.
Qed.
Lemma npp_skip n : npp (skip n).
Proof.
  intros s. unfold skip. apply np_bind; [apply npp_has_n|]. intros u s' H. apply has_n_inv in H as [-> H].
  apply np_bind; [apply np_split_to; unfold nlen in H; lia|]. intros; apply npp_ret.
Qed.
Lemma addr_reads v6 : reads (read_peer_addr v6) (fun w i => addr16 w i /\ match i with V4 _ => v6 = false | V6 _ => v6 = true end).
Proof.
  intros s x r Hs. unfold read_peer_addr. destruct v6; split.
  - intros H. pstep H. apply ret_inv in H as [<- <-]. lits. exists (be 16 a). repeat split; auto.
  - intros (w & -> & A & E). destruct x as [n|n]; [discriminate|]. destruct A as [A ->]. rewrite (bind_ok _ _ _ n r) by (apply read_be_be; fits). reflexivity.
  - intros H. apply bind_inv in H as (u & s1 & H1 & H). apply skip_inv in H1 as (z & -> & Z). apply bytes_ok_app in Hs as [_ Hs]. pstep H. apply ret_inv in H as [<- <-]. lits.
    exists (z ++ be 4 a). rewrite <- app_assoc. repeat split; auto. exists z. split; auto. unfold nlen in Z. lia.
  - intros (w & -> & A & E). destruct x as [n|n]; [|discriminate]. destruct A as (A & z & Z & ->). rewrite <- app_assoc.
    rewrite (bind_ok _ _ _ tt (be 4 n ++ r)) by (apply skip_app; unfold nlen; lia). rstep. reflexivity.
Qed.
Lemma npp_addr v6 : npp (read_peer_addr v6).
Proof.
  unfold read_peer_addr. destruct v6; [apply npp_bind; [apply npp_read_be|intros; apply npp_ret]|].
  apply npp_bind; [apply npp_skip|]. intros. apply npp_bind; [apply npp_read_be|intros; apply npp_ret].
Qed.
Lemma asn_reads l : reads (match l with Bits16 => skip 2 ;;; read_u16 | Bits32 => read_u32 end) (fun w a => asn4 w l a).
Proof.
  intros s x r Hs. destruct l; split.
  - intros H. apply bind_inv in H as (u & s1 & H1 & H). apply skip_inv in H1 as (z & -> & Z). apply bytes_ok_app in Hs as [_ Hs]. apply read_be_inv_ok in H as (-> & B & _); auto. lits.
    exists (z ++ be 2 x). rewrite <- app_assoc. repeat split; auto. exists z. split; auto. unfold nlen in Z. lia.
  - intros (w & -> & A & z & Z & ->). rewrite <- app_assoc. rewrite (bind_ok _ _ _ tt (be 2 x ++ r)) by (apply skip_app; unfold nlen; lia). apply read_be_be. fits.
  - intros H. apply read_be_inv_ok in H as (-> & B & _); auto. lits. exists (be 4 x). repeat split; auto.
  - intros (w & -> & A & ->). apply read_be_be. fits.
Qed.
Lemma npp_asn l : npp (match l with Bits16 => skip 2 ;;; read_u16 | Bits32 => read_u32 end).
Proof. destruct l; [apply npp_bind; [apply npp_skip|intros]|]; apply npp_read_be. Qed.

(** * The per-peer header *)
Lemma bit7 f : f < 256 -> flag_v6 f = (128 <=? f).
Proof. intros H. unfold flag_v6. rewrite N.testbit_eqb. change (2 ^ 7) with 128. lia. Qed.
Lemma bit5 f : flag_as2 f = ((f / 32) mod 2 =? 1).
Proof. unfold flag_as2. rewrite N.testbit_eqb. reflexivity. Qed.
Lemma asn4_len w l a : asn4 w l a -> length w = 4%nat.
Proof. destruct l; [intros (_ & z & Z & ->)|intros (_ & ->)]; rewrite ?app_length, ?be_length; lia. Qed.
Lemma addr16_len w i : addr16 w i -> length w = 16%nat.
Proof. destruct i; [intros (_ & z & Z & ->)|intros (_ & ->)]; rewrite ?app_length, ?be_length; lia. Qed.
Lemma per_peer_len w h : per_peer_octets w h -> length w = 42%nat.
Proof.
  intros (f & a & as_ & s & us & -> & _ & _ & _ & _ & _ & _ & _ & X). rewrite !app_length, !be_length. cbn [length].
  destruct (pp_type h =? 3); [destruct X as (_ & L & _ & A)|destruct X as (_ & A16 & _ & A); apply addr16_len in A16]; apply asn4_len in A; lia.
Qed.
Lemma be1 n : n < 256 -> [n] = be 1 n. Proof. symmetry. apply be_1. auto. Qed.
Lemma per_peer_reads : reads parse_per_peer_header per_peer_octets.
Proof.
  intros s x r Hs. unfold parse_per_peer_header. split.
  - intros H. pstep H. lits. rename a into t. destruct (N.ltb_spec 3 t) as [L|L]; [discriminate|].
    destruct (N.eqb_spec t 3) as [T|T].
    + pstep H. rename a into f. pstep H. rename a into d. apply bind_inv in H as (u & s' & H1 & H). apply has_n_inv in H1 as [-> _].
      apply bind_inv in H as (z & s' & H1 & H). apply split_to_inv in H1 as [-> Z]. assert (bytes_ok s') by (eapply bytes_ok_app; eassumption).
      pstep H. rename a into as_. pstep H. rename a into i. pstep H. rename a into sc. pstep H. rename a into us. apply ret_inv in H as [<- <-]. lits.
      exists (be 1 t ++ be 1 f ++ be 8 d ++ z ++ be 4 as_ ++ be 4 i ++ be 4 sc ++ be 4 us). split; [rewrite <- !app_assoc; reflexivity|].
      exists f, z, (be 4 as_), sc, us. cbn [pp_type pp_flags pp_dist pp_ip pp_asn pp_id pp_time]. rewrite !be_1 by lia. subst t. repeat split; auto. 
    + pstep H. rename a into f. pstep H. rename a into d. lits. apply bind_inv in H as (p & s' & H1 & H). apply addr_reads in H1 as (w & -> & A & V); auto. assert (bytes_ok s') by (eapply bytes_ok_app; eassumption).
      apply bind_inv in H as (as_ & s'' & H1 & H). apply asn_reads in H1 as (w' & -> & A'); auto. assert (bytes_ok s'') by (eapply bytes_ok_app; eassumption).
      pstep H. rename a into i. pstep H. rename a into sc. pstep H. rename a into us. apply ret_inv in H as [<- <-]. lits.
      exists (be 1 t ++ be 1 f ++ be 8 d ++ w ++ w' ++ be 4 i ++ be 4 sc ++ be 4 us). split; [rewrite <- !app_assoc; reflexivity|].
      exists f, w, w', sc, us. cbn [pp_type pp_flags pp_dist pp_ip pp_asn pp_id pp_time]. rewrite !be_1 by lia. rewrite (proj2 (N.eqb_neq _ _) T).
      repeat split; auto. { destruct p; rewrite bit7 in V by auto; lia. } unfold flags_asn_len in A'. rewrite bit5 in A'. exact A'.
  - intros (w & -> & f & a & as_ & sc & us & -> & T & F & D & I & SC & US & TM & X). rewrite <- !app_assoc. cbn [app].
    rewrite (bind_ok _ _ _ (pp_type x) _ (read_u8_cons _ _)). destruct (N.ltb_spec 3 (pp_type x)); [lia|]. destruct x as [ty fl di pi pa id tm]. cbn [pp_type pp_flags pp_dist pp_ip pp_asn pp_id pp_time] in *.
    destruct (ty =? 3) eqn:E; rewrite (bind_ok _ _ _ f _ (read_u8_cons _ _)); rstep.
    + destruct X as (-> & LA & -> & PA & ->). rewrite (bind_ok _ _ _ tt (a ++ be 4 pa ++ be 4 id ++ be 4 sc ++ be 4 us ++ r)) by (apply has_n_ok; unfold nlen; rewrite app_length; lia).
      rewrite (bind_ok _ _ _ a (be 4 pa ++ be 4 id ++ be 4 sc ++ be 4 us ++ r)) by (apply split_to_app; auto). do 4 rstep. rewrite TM. reflexivity.
    + destruct X as (-> & A & V & AS). apply bytes_ok_app in Hs as [Hs _]. rewrite !bytes_ok_app in Hs. destruct Hs as (_ & _ & Ha & Has & _).
      rewrite (bind_ok _ _ _ pi (as_ ++ be 4 id ++ be 4 sc ++ be 4 us ++ r)).
      2:{ destruct (flag_v6 f) eqn:V6; rewrite bit7 in V6 by auto.
          - destruct pi as [n|n]; [lia|]. destruct A as [A ->]. cbn [read_peer_addr]. unfold read_peer_addr. rewrite (bind_ok _ _ _ n (as_ ++ be 4 id ++ be 4 sc ++ be 4 us ++ r)) by (apply read_be_be; fits). reflexivity.
          - destruct pi as [n|n]; [|lia]. destruct A as (A & z & Z & ->). unfold read_peer_addr. rewrite <- app_assoc. rewrite (bind_ok _ _ _ tt (be 4 n ++ as_ ++ be 4 id ++ be 4 sc ++ be 4 us ++ r)) by (apply skip_app; unfold nlen; lia). rstep. reflexivity. }
      rewrite (bind_ok _ _ _ pa (be 4 id ++ be 4 sc ++ be 4 us ++ r)).
      2:{ unfold flags_asn_len. rewrite bit5. destruct ((f / 32) mod 2 =? 1).
          - destruct AS as (A' & z & Z & ->). rewrite <- app_assoc. rewrite (bind_ok _ _ _ tt (be 2 pa ++ be 4 id ++ be 4 sc ++ be 4 us ++ r)) by (apply skip_app; unfold nlen; lia). apply read_be_be. fits.
          - destruct AS as (A' & ->). apply read_be_be. fits. }
      do 3 rstep. rewrite TM. reflexivity.
Qed.
Lemma npp_per_peer : npp parse_per_peer_header.
Proof.
  unfold parse_per_peer_header. apply npp_bind; [apply npp_read_be|]. intros t. destruct (3 <? t); [apply npp_fail|].
  destruct (t =? 3).
  - do 2 (apply npp_bind; [apply npp_read_be|]; intros). intros s. apply np_bind; [apply npp_has_n|]. intros u s' H. apply has_n_inv in H as [-> H].
    apply np_bind; [apply np_split_to; unfold nlen in H; lia|]. intros z s' _. revert s'. do 4 (apply npp_bind; [apply npp_read_be|]; intros). apply npp_ret.
  - do 2 (apply npp_bind; [apply npp_read_be|]; intros). apply npp_bind; [apply npp_addr|]; intros. apply npp_bind; [apply npp_asn|]; intros.
    do 3 (apply npp_bind; [apply npp_read_be|]; intros). apply npp_ret.
Qed.

(** * Initiation and termination *)
Lemma read16 n r : n < 65536 -> read_u16 (be 2 n ++ r) = Ok (n, r).
Proof. intros. apply read_be_be. fits. Qed.
Lemma four t n (r : bytes) : (length (be 2 t ++ be 2 n ++ r) = 4 + length r)%nat.
Proof. rewrite !app_length, !be_length. lia. Qed.
Lemma init_loop_eq f s : (4 < length s)%nat -> bytes_ok s -> exists t n s2, s = be 2 t ++ be 2 n ++ s2 /\ t < 65536 /\ n < 65536 /\ bytes_ok s2 /\
  init_loop (S f) s = if nlen s2 <? n then Ok [] else '(v, s3) <~ read_n_bytes n s2 ;; l <~ init_loop f s3 ;; Ok (BmpTlv t n (latin1 v) :: l).
Proof.
  intros L Hs. destruct (read_u16 s) as [[t s1]|e|] eqn:E1.
  2:{ exfalso. revert E1. unfold read_be, has_n, bind, get_be, bind, split_to. rewrite (proj2 (N.ltb_ge _ _)) by (unfold nlen; lia). rewrite splitn_ge by lia. discriminate. }
  2:{ exfalso. exact (npp_read_be 2 s E1). }
  pose proof (read_be_len _ _ _ _ E1) as L1. assert (E1' := E1). apply read_be_inv_ok in E1' as (-> & T & Hs1); auto. lits.
  destruct (read_u16 s1) as [[n s2]|e|] eqn:E2.
  2:{ exfalso. revert E2. unfold read_be, has_n, bind, get_be, bind, split_to. rewrite (proj2 (N.ltb_ge _ _)) by (unfold nlen; lia). rewrite splitn_ge by lia. discriminate. }
  2:{ exfalso. exact (npp_read_be 2 s1 E2). }
  assert (E2' := E2). apply read_be_inv_ok in E2' as (-> & N' & Hs2); auto. lits.
  exists t, n, s2. repeat split; auto. cbn [init_loop]. destruct (Nat.leb_spec (length (be 2 t ++ be 2 n ++ s2)) 4); [lia|]. rewrite E1. cbn [rbind]. rewrite E2. reflexivity.
Qed.
Lemma init_ok : forall fuel s, bytes_ok s -> (length s < fuel)%nat -> exists l, init_loop fuel s = Ok l /\ init_octets s l.
Proof.
  induction fuel as [|f IH]; intros s Hs L; [lia|]. destruct (Nat.le_gt_cases (length s) 4) as [S4|S4].
  - exists []. split; [|constructor; auto]. cbn [init_loop]. destruct (Nat.leb_spec (length s) 4); [reflexivity|lia].
  - destruct (init_loop_eq f s S4 Hs) as (t & n & s2 & -> & T & N' & Hs2 & ->). rewrite four in *. destruct (N.ltb_spec (nlen s2) n) as [C|C].
    + exists []. split; [reflexivity|]. apply io_cut; auto. intros ->. cbn in *; lia.
    + unfold read_n_bytes. rewrite (bind_ok _ _ _ tt s2) by (apply has_n_ok; auto). rewrite split_to_ge by (unfold nlen in C; lia). cbn [rbind].
      destruct (IH (skipn (N.to_nat n) s2)) as (l & E & IO); [apply bytes_ok_skipn; auto|rewrite skipn_length; lia|]. rewrite E. cbn [rbind].
      eexists. split; [reflexivity|]. set (v := firstn (N.to_nat n) s2) in *. assert (V : n = nlen v) by (unfold v, nlen in *; rewrite firstn_length; lia).
      assert (X : s2 = v ++ skipn (N.to_nat n) s2) by (symmetry; apply firstn_skipn). rewrite X at 1. rewrite V at 1 3. apply io_tlv; auto; [lia|]. rewrite <- X. intros ->. cbn in S4. lia.
Qed.
Lemma init_complete s l : init_octets s l -> forall fuel, (length s < fuel)%nat -> init_loop fuel s = Ok l.
Proof.
  induction 1 as [s L|t n v T N' V C|t v r l T V NE _ IH]; intros [|f] F; try lia; cbn [init_loop].
  - destruct (Nat.leb_spec (length s) 4); [reflexivity|lia].
  - rewrite four. destruct (Nat.leb_spec (4 + length v) 4); [destruct v; [congruence|cbn in *; lia]|]. rewrite read16 by auto. cbn [rbind]. rewrite read16 by auto. cbn [rbind]. destruct (N.ltb_spec (nlen v) n); [reflexivity|lia].
  - rewrite four in *. destruct (Nat.leb_spec (4 + length (v ++ r)) 4); [destruct (v ++ r); [congruence|cbn in *; lia]|]. rewrite read16 by auto. cbn [rbind]. rewrite read16 by auto. cbn [rbind].
    destruct (N.ltb_spec (nlen (v ++ r)) (nlen v)); [rewrite nlen_app in *; lia|]. rewrite read_n_bytes_app by reflexivity. cbn [rbind]. rewrite IH by (rewrite app_length in F; lia). reflexivity.
Qed.
Lemma init_iff s l : bytes_ok s -> (parse_initiation s = Ok l <-> init_octets s l).
Proof.
  intros Hs. unfold parse_initiation. split.
  - intros H. destruct (init_ok (S (length s)) s Hs) as (l' & E & IO); [lia|]. rewrite H in E. injection E as ->. exact IO.
  - intros H. apply init_complete; auto.
Qed.

Lemma term_value_reads t n s v r : bytes_ok s -> t <= 1 -> n <= nlen s -> (read_term_value t n s = Ok (v, r) <->
  (t = 0 /\ exists x, s = x ++ r /\ nlen x = n /\ v = TermText (latin1 x)) \/ (t = 1 /\ exists c, c <= 4 /\ s = be 2 c ++ r /\ v = TermReason c)).
Proof.
  intros Hs T N'. unfold read_term_value. split.
  - destruct (N.eqb_spec t 0) as [->|T0]; intros H.
    + apply bind_inv in H as (x & s' & H1 & H). apply read_n_bytes_inv in H1 as [-> X]. apply ret_inv in H as [<- <-]. left. eauto.
    + pstep H. destruct (N.ltb_spec 4 a); [discriminate|]. apply ret_inv in H as [<- <-]. right. split; [lia|]. eauto.
  - intros [(-> & x & -> & X & ->)|(-> & c & C & -> & ->)].
    + change (0 =? 0) with true. cbv iota. rstep. reflexivity.
    + change (1 =? 0) with false. cbv iota. rewrite (bind_ok _ _ _ c r) by (apply read_be_be; fits). destruct (N.ltb_spec 4 c); [lia|]. reflexivity.
Qed.
Lemma term_iff_ fuel s l : bytes_ok s -> (length s < fuel)%nat -> (term_loop fuel s = Ok l <-> term_octets s l).
Proof.
  intros Hs L. split.
  - revert s l Hs L. induction fuel as [|f IH]; intros s l Hs L H; [lia|]. cbn [term_loop] in H. destruct (Nat.leb_spec (length s) 4) as [S4|S4]; [injection H as <-; constructor; auto|].
    apply rbind_inv in H as ((t & s1) & H1 & H). apply read_be_inv_ok in H1 as (-> & T & Hs1); auto. lits. destruct (N.ltb_spec 1 t) as [T1|T1]; [discriminate|].
    apply rbind_inv in H as ((n & s2) & H2 & H). apply read_be_inv_ok in H2 as (-> & N' & Hs2); auto. lits. rewrite four in *. destruct (N.ltb_spec (nlen s2) n) as [C|C].
    { injection H as <-. apply to_cut; auto. intros ->. cbn in S4. lia. }
    apply rbind_inv in H as ((v & s3) & H3 & H). apply rbind_inv in H as (l' & H & E). injection E as <-. apply term_value_reads in H3; auto.
    destruct H3 as [(-> & x & -> & <- & ->)|(-> & c & C4 & -> & ->)]; apply bytes_ok_app in Hs2 as [_ Hs3].
    + apply to_text; [auto| |apply IH; auto; rewrite app_length in L; lia]. intros E. rewrite E in S4. cbn in S4. lia.
    + rewrite nlen_app in C. rewrite nlen_be in C. apply to_reason; auto. apply IH; auto. rewrite app_length in L. lia.
  - intros H. revert fuel Hs L. induction H as [s L'|t n v T N' V C|v r l V NE H IH|n c r l C N' NR H IH]; intros [|f] Hs L; try lia; cbn [term_loop].
    + destruct (Nat.leb_spec (length s) 4); [reflexivity|lia].
    + rewrite four. destruct (Nat.leb_spec (4 + length v) 4); [destruct v; [congruence|cbn in *; lia]|]. rewrite read16 by lia. cbn [rbind]. destruct (N.ltb_spec 1 t); [lia|]. rewrite read16 by auto. cbn [rbind]. destruct (N.ltb_spec (nlen v) n); [reflexivity|lia].
    + rewrite four in *. destruct (Nat.leb_spec (4 + length (v ++ r)) 4); [destruct (v ++ r); [congruence|cbn in *; lia]|]. rewrite read16 by lia. cbn [rbind]. change (1 <? 0) with false. cbv iota. rewrite read16 by auto. cbn [rbind].
      destruct (N.ltb_spec (nlen (v ++ r)) (nlen v)); [rewrite nlen_app in *; lia|]. assert (Hvr : bytes_ok (v ++ r)) by (apply bytes_ok_app in Hs as [_ Hs]; apply bytes_ok_app in Hs as [_ Hs]; exact Hs).
      rewrite (proj2 (term_value_reads 0 (nlen v) (v ++ r) (TermText (latin1 v)) r Hvr ltac:(lia) ltac:(lia))) by (left; eauto). cbn [rbind].
      rewrite IH; [reflexivity| |rewrite app_length in L; lia]. apply bytes_ok_app in Hvr. tauto.
    + rewrite four in *. rewrite app_length, be_length in *. destruct (Nat.leb_spec (4 + (2 + length r)) 4); [lia|]. rewrite read16 by lia. cbn [rbind]. change (1 <? 1) with false. cbv iota. rewrite read16 by auto. cbn [rbind].
      destruct (N.ltb_spec (nlen (be 2 c ++ r)) n); [rewrite nlen_app, nlen_be in *; lia|]. assert (Hvr : bytes_ok (be 2 c ++ r)) by (apply bytes_ok_app in Hs as [_ Hs]; apply bytes_ok_app in Hs as [_ Hs]; exact Hs).
      rewrite (proj2 (term_value_reads 1 n (be 2 c ++ r) (TermReason c) r Hvr ltac:(lia) ltac:(lia))) by (right; eauto). cbn [rbind].
      rewrite IH; [reflexivity| |lia]. apply bytes_ok_app in Hvr. tauto.
Qed.
Lemma term_iff s l : bytes_ok s -> (parse_termination s = Ok l <-> term_octets s l).
Proof. intros Hs. apply term_iff_; auto. Qed.
Lemma npp_term_value t n : npp (read_term_value t n).
Proof.
  unfold read_term_value. destruct (t =? 0); [apply npp_bind; [apply npp_read_n_bytes|intros; apply npp_ret]|].
  apply npp_bind; [apply npp_read_be|]. intros c. destruct (4 <? c); [apply npp_fail|apply npp_ret].
Qed.
Lemma term_np_ fuel : forall s, (length s < fuel)%nat -> np (term_loop fuel s).
Proof.
  induction fuel as [|f IH]; intros s L; [lia|]. cbn [term_loop]. destruct (Nat.leb _ _); [discriminate|].
  apply np_rbind; [apply npp_read_be|]. intros (t & s1) E1. apply read_be_len in E1. destruct (1 <? t); [discriminate|].
  apply np_rbind; [apply npp_read_be|]. intros (n & s2) E2. apply read_be_len in E2. destruct (nlen s2 <? n); [discriminate|].
  apply np_rbind; [apply npp_term_value|]. intros (v & s3) E3. assert (length s3 <= length s2)%nat.
  { revert E3. unfold read_term_value. destruct (t =? 0); intros H; apply bind_inv in H as (x & s' & H1 & H).
    - apply read_n_bytes_len in H1. apply ret_inv in H as [_ <-]. unfold nlen in H1. lia.
    - apply read_be_len in H1. destruct (4 <? x); [discriminate|]. apply ret_inv in H as [_ <-]. lia. }
  apply np_rbind; [apply IH; lia|]. intros; apply np_ok.
Qed.

(** * Peer down *)
Lemma down_iff s m : bytes_ok s -> (parse_peer_down s = Ok m <-> down_octets s m).
Proof.
  intros Hs. unfold parse_peer_down. split.
  - intros H. apply run_inv in H as (r & H). pstep H. lits. rename a into c. destruct (N.ltb_spec 6 c) as [C|C]; [discriminate|].
    apply bind_inv in H as (n & s' & H1 & H). injection H1 as <- <-. rewrite be_1 by lia. cbn [app]. exists s0.
    destruct ((c =? 4) || (c =? 5) || (c =? 0) && Nat.eqb (length s0) 0) eqn:E.
    + apply ret_inv in H as [<- _]. cbn. repeat split; auto. revert E. destruct (Nat.eqb_spec (length s0) 0) as [L|L]; intros E; [|lia]. destruct s0; [|discriminate]. assert (c = 4 \/ c = 5 \/ c = 0) by lia. intuition.
    + apply bind_inv in H as (d & s' & H1 & H). apply read_n_bytes_inv in H1 as [-> L]. apply ret_inv in H as [<- <-]. cbn.
      assert (s' = []) as ->. { destruct s'; auto. unfold nlen in L. rewrite app_length in L. cbn [length] in L. lia. }
      rewrite app_nil_r in *. repeat split; auto; try lia. intros -> ->. cbn in E. discriminate.
  - intros (d & -> & C & X). destruct m as [c x]. cbn [pd_reason pd_data] in *.
    destruct x as [x|]; (eapply run_ok; rewrite (bind_ok _ _ _ c _ (read_u8_cons _ _)); destruct (N.ltb_spec 6 c); [lia|]; rewrite (bind_ok _ _ _ (length d) d) by reflexivity).
    + destruct X as (-> & C4 & C5 & C0). replace ((c =? 4) || (c =? 5) || (c =? 0) && Nat.eqb (length d) 0) with false.
      2:{ destruct (Nat.eqb_spec (length d) 0) as [L|L]; [|lia]. destruct d; [|discriminate]. destruct (N.eqb_spec c 0) as [E|E]; [exfalso; apply (C0 E); reflexivity|lia]. }
      rewrite (bind_ok _ _ _ d []) by (rewrite <- (app_nil_r d) at 2; apply read_n_bytes_app; reflexivity). reflexivity.
    + replace ((c =? 4) || (c =? 5) || (c =? 0) && Nat.eqb (length d) 0) with true; [reflexivity|]. destruct X as [->|[->|[-> ->]]]; reflexivity.
Qed.
Lemma down_np s : np (parse_peer_down s).
Proof.
  apply np_run. revert s. apply npp_bind; [apply npp_read_be|]. intros c. destruct (6 <? c); [apply npp_fail|]. apply npp_bind; [apply npp_remaining|]. intros n.
  destruct (_ || _); [apply npp_ret|]. apply npp_bind; [apply npp_read_n_bytes|]. intros; apply npp_ret.
Qed.

(** * Messages within messages *)
Lemma field_at b r : (19 <= length b)%nat -> bytes_ok b -> firstn 2 (skipn 16 b) = be 2 (be_val [nth 16 (b ++ r) 0; nth 17 (b ++ r) 0]).
Proof.
  intros L Hb. do 18 (destruct b as [|? b]; [cbn in L; lia|]). cbn [app nth skipn firstn]. symmetry. apply (be_be_val [n15; n16]).
  do 16 (apply Forall_inv_tail in Hb). constructor; [apply (Forall_inv Hb)|]. apply Forall_inv_tail in Hb. constructor; [apply (Forall_inv Hb)|constructor].
Qed.
Lemma field_val b r n : (19 <= length b)%nat -> firstn 2 (skipn 16 b) = be 2 n -> n < 65536 -> be_val [nth 16 (b ++ r) 0; nth 17 (b ++ r) 0] = n.
Proof.
  intros L E N'. do 18 (destruct b as [|? b]; [cbn in L; lia|]). cbn [app nth skipn firstn] in *. rewrite E. apply be_val_be_small. fits.
Qed.
Lemma message_short al b m r : parse_bgp_message false al b = Ok (m, r) -> (19 <= length b)%nat.
Proof. unfold parse_bgp_message. intros H. apply bind_inv in H as (u & s' & H1 & H). apply has_n_inv in H1 as [_ H1]. unfold nlen in H1. lia. Qed.
Lemma embedded_reads al : reads (read_embedded al) (bgp_block al).
Proof.
  intros s x r Hs. unfold read_embedded. split.
  - intros H. apply bind_inv in H as (u & s' & H1 & H). apply has_n_inv in H1 as [-> _]. apply bind_inv in H as (s'' & s' & H1 & H). injection H1 as <- <-.
    cbv zeta in H. apply bind_inv in H as (u' & s' & H1 & H). apply has_n_inv in H1 as [-> _]. apply bind_inv in H as (b & s' & H1 & H). apply split_to_inv in H1 as [-> L].
    apply lift_inv in H as [H <-]. apply run_inv in H as (z & H). pose proof (message_short _ _ _ _ H) as L19. assert (Hb : bytes_ok b) by (apply bytes_ok_app in Hs; tauto). exists b. split; auto.
    pose proof (field_at b s' L19 Hb) as F. assert (V : be_val [nth 16 (b ++ s') 0; nth 17 (b ++ s') 0] = nlen b) by (unfold nlen; lia).
    rewrite V in F. repeat split; eauto. rewrite <- V. assert (X : [nth 16 (b ++ s') 0; nth 17 (b ++ s') 0] = firstn 2 (skipn 16 b)).
    { clear -L19. do 18 (destruct b as [|? b]; [cbn in L19; lia|]). reflexivity. }
    rewrite X. pose proof (be_val_bound (firstn 2 (skipn 16 b))) as B. rewrite firstn_length, skipn_length in B. replace (Nat.min 2 (length b - 16)) with 2%nat in B by lia. apply B. apply bytes_ok_firstn, bytes_ok_skipn. auto.
  - intros (b & -> & L & F & S & z & E). rewrite (bind_ok _ _ _ tt (b ++ r)) by (apply has_n_ok; unfold nlen; rewrite app_length; lia). rewrite (bind_ok _ _ _ (b ++ r) (b ++ r)) by reflexivity.
    cbv zeta. rewrite (field_val b r _ L F S). rewrite (bind_ok _ _ _ tt (b ++ r)) by (apply has_n_ok; rewrite nlen_app; lia). rewrite (bind_ok _ _ _ b r) by (apply split_to_app; apply eq_sym, to_nat_nlen).
    unfold lift. rewrite (run_ok _ _ _ _ E). reflexivity.
Qed.
Lemma npp_embedded al : npp (read_embedded al).
Proof.
  intros s. unfold read_embedded. apply np_bind; [apply npp_has_n|]. intros u s' H. apply has_n_inv in H as [-> H]. apply np_bind; [apply npp_peek|]. intros q s' H1. injection H1 as <- <-. cbv zeta.
  apply np_bind; [apply npp_has_n|]. intros u' s' H2. apply has_n_inv in H2 as [-> H2]. apply np_bind; [apply np_split_to; unfold nlen in H2; lia|]. intros b s' _. apply npp_lift. apply np_run. apply message_np.
Qed.

(** * Peer up *)
Lemma text_reads : reads read_up_tlv text_tlv.
Proof.
  intros s x r Hs. unfold read_up_tlv. split.
  - intros H. pstep H. rename a into t. pstep H. rename a into n. pstep H. apply ret_inv in H as [<- <-]. lits. exists (be 2 t ++ be 2 n ++ a). rewrite <- !app_assoc. split; auto. exists a. auto.
  - intros (w & -> & v & -> & T & L & V & I). rewrite <- !app_assoc. do 3 rstep. destruct x as [ty le inf]; cbn [bt_type bt_len bt_info] in *. subst. reflexivity.
Qed.
Lemma reads_loop {A} m (p : P A) wire : (0 < m)%nat -> reads p wire -> (forall w x, wire w x -> (m <= length w)%nat) ->
  forall s l, bytes_ok s -> (many_min m (length s) p s = Ok l <-> exists ws t, s = concat ws ++ t /\ Forall2 wire ws l /\ (length t < m)%nat).
Proof.
  intros M R W s l Hs. split.
  - assert (G : forall fuel s l, bytes_ok s -> many_min m fuel p s = Ok l -> exists ws t, s = concat ws ++ t /\ Forall2 wire ws l /\ (length t < m)%nat).
    { clear - M R W. induction fuel as [|f IH]; intros s l Hs H; cbn [many_min] in H; destruct (Nat.ltb_spec (length s) m) as [L|L]; try discriminate.
      - injection H as <-. exists [], s. cbn. auto.
      - injection H as <-. exists [], s. cbn. auto.
      - apply rbind_inv in H as ((x & s') & H1 & H). apply rbind_inv in H as (l' & H & E). injection E as <-. apply R in H1 as (w & -> & Wx); auto.
        apply bytes_ok_app in Hs as [_ Hs]. destruct (IH s' l' Hs H) as (ws & t & -> & F & T). exists (w :: ws), t. cbn [concat]. rewrite <- app_assoc. auto. }
    apply G. auto.
  - intros (ws & t & -> & F & T). remember (length (concat ws ++ t)) as fuel eqn:Ef. assert (length (concat ws ++ t) <= fuel)%nat by lia. clear Ef. revert fuel H Hs.
    induction F as [|w x ws l Wx F IH]; intros fuel H Hs.
    + cbn [concat app] in *. destruct fuel; cbn [many_min]; destruct (Nat.ltb_spec (length t) m); auto; lia.
    + cbn [concat] in *. rewrite <- app_assoc in *. rewrite app_length in H. pose proof (W _ _ Wx). destruct fuel; [lia|]. cbn [many_min]. destruct (Nat.ltb_spec (length (w ++ concat ws ++ t)) m) as [L|L]; [rewrite app_length in L; lia|].
      assert (E : p (w ++ concat ws ++ t) = Ok (x, concat ws ++ t)) by (apply R; eauto). rewrite E. cbn [rbind]. rewrite IH; [reflexivity|lia|]. apply bytes_ok_app in Hs. tauto.
Qed.
Lemma reads_repeat {A} (p : P A) wire : reads p wire -> forall n, reads (repeat_p n p) (fun w l => length l = n /\ exists ws, w = concat ws /\ Forall2 wire ws l).
Proof.
  intros R. induction n as [|n IH]; intros s l r Hs; cbn [repeat_p]; split.
  - intros H. apply ret_inv in H as [<- <-]. exists []. split; auto. split; auto. exists []. auto.
  - intros (w & -> & L & ws & -> & F). destruct l; [|discriminate]. inv F. reflexivity.
  - intros H. apply bind_inv in H as (x & s1 & H1 & H). apply R in H1 as (w & -> & Wx); auto. apply bind_inv in H as (l' & s2 & H2 & H). apply ret_inv in H as [<- <-].
    apply IH in H2 as (w' & -> & L & ws & -> & F); [|apply bytes_ok_app in Hs; tauto]. exists (w ++ concat ws). rewrite <- app_assoc. split; auto. split; [cbn; lia|]. exists (w :: ws). auto.
  - intros (w & -> & L & ws & -> & F). destruct l as [|x l]; [discriminate|]. inv F. cbn [concat]. rewrite <- app_assoc in *. cbn [concat] in Hs. rewrite <- app_assoc in Hs.
    rewrite (bind_ok _ _ _ x (concat l0 ++ r)) by (apply R; eauto). rewrite (bind_ok _ _ _ l r); [reflexivity|]. apply IH; [apply bytes_ok_app in Hs; tauto|]. exists (concat l0). split; auto. split; [cbn in L; lia|]. eauto.
Qed.
Lemma text_len w t : text_tlv w t -> (4 <= length w)%nat.
Proof. intros (v & -> & _). rewrite four. lia. Qed.
Lemma up_iff a al s m : bytes_ok s -> a <> ALinkState -> (parse_peer_up a al s = Ok m <-> up_octets al s m /\ afi_of_ip (pu_local m) = a).
Proof.
  intros Hs NL. unfold parse_peer_up.
  assert (AD : forall q : bytes, (match a with AIpv4 => read_peer_addr false | AIpv6 => read_peer_addr true | ALinkState => skip 12 ;;; ret (V4 0) end) q = read_peer_addr (match a with AIpv6 => true | _ => false end) q) by (destruct a; [reflexivity|reflexivity|congruence]).
  split.
  - intros H. apply run_inv in H as (z & H). apply bind_inv in H as (i & s1 & H1 & H). rewrite AD in H1. apply addr_reads in H1 as (w & -> & A & V); auto. assert (Hs1 : bytes_ok s1) by (eapply bytes_ok_app; eauto).
    pstep H. rename a0 into lp. pstep H. rename a0 into rp. apply bind_inv in H as (o1 & s2 & H1 & H). apply embedded_reads in H1 as (b1 & -> & B1); auto. assert (Hs2 : bytes_ok s2) by (eapply bytes_ok_app; eauto).
    apply bind_inv in H as (o2 & s3 & H1 & H). apply embedded_reads in H1 as (b2 & -> & B2); auto. assert (Hs3 : bytes_ok s3) by (eapply bytes_ok_app; eauto).
    apply bind_inv in H as (s4 & s5 & H1 & H). injection H1 as <- <-. apply bind_inv in H as (l & s6 & H1 & H). apply lift_inv in H1 as [H1 <-]. apply ret_inv in H as [<- _].
    apply (reads_loop 4 read_up_tlv text_tlv) in H1 as (ws & t & -> & F & T); [|lia|apply text_reads|apply text_len|auto]. lits.
    split; [|cbn [pu_local]; destruct i, a; cbn in V |- *; congruence]. exists w, b1, b2, ws, t. cbn [pu_local pu_lport pu_rport pu_sent pu_received pu_tlvs]. repeat (split; auto).
  - intros ((w & b1 & b2 & ws & t & -> & A & LP & RP & B1 & B2 & F & T) & AF). destruct m as [i lp rp o1 o2 l]. cbn [pu_local pu_lport pu_rport pu_sent pu_received pu_tlvs] in *. eapply run_ok.
    rewrite !bytes_ok_app in Hs. destruct Hs as (Hw & _ & _ & Hb1 & Hb2 & Hws & Ht). set (t1 := concat ws ++ t). set (t2 := b2 ++ t1). set (t3 := b1 ++ t2).
    assert (H1 : bytes_ok t1) by (apply bytes_ok_app; auto). assert (H2 : bytes_ok t2) by (apply bytes_ok_app; auto). assert (H3 : bytes_ok t3) by (apply bytes_ok_app; auto).
    rewrite (bind_ok _ _ _ i (be 2 lp ++ be 2 rp ++ t3)).
    2:{ rewrite AD. apply addr_reads. { apply bytes_ok_app. split; [auto|]. apply bytes_ok_app. split; [apply be_ok|]. apply bytes_ok_app. split; [apply be_ok|auto]. } exists w. split; auto. split; auto. subst a. destruct i; reflexivity. }
    do 2 rstep. rewrite (bind_ok _ _ _ o1 t2) by (apply embedded_reads; [exact H3|exists b1; split; [reflexivity|exact B1]]). rewrite (bind_ok _ _ _ o2 t1) by (apply embedded_reads; [exact H2|exists b2; split; [reflexivity|exact B2]]). rewrite (bind_ok _ _ _ t1 t1) by reflexivity.
    rewrite (bind_ok _ _ _ l t1); [reflexivity|]. unfold lift. rewrite (proj2 (reads_loop 4 read_up_tlv text_tlv ltac:(lia) text_reads text_len t1 l H1)); [reflexivity|]. exists ws, t. auto.
Qed.
Lemma npp_text : npp read_up_tlv.
Proof. do 2 (apply npp_bind; [apply npp_read_be|]; intros). apply npp_bind; [apply npp_read_n_bytes|]. intros; apply npp_ret. Qed.
Lemma text_progress s x r : read_up_tlv s = Ok (x, r) -> (length r < length s)%nat.
Proof.
  intros H. apply bind_inv in H as (t & s1 & H1 & H). apply read_be_len in H1. apply bind_inv in H as (n & s2 & H2 & H). apply read_be_len in H2.
  apply bind_inv in H as (v & s3 & H3 & H). apply read_n_bytes_len in H3. apply ret_inv in H as [_ <-]. unfold nlen in H3. lia.
Qed.
Lemma up_np a al s : np (parse_peer_up a al s).
Proof.
  apply np_run. revert s. apply npp_bind. { destruct a; try apply npp_addr. apply npp_bind; [apply npp_skip|]. intros; apply npp_ret. }
  intros i. do 2 (apply npp_bind; [apply npp_read_be|]; intros). do 2 (apply npp_bind; [apply npp_embedded|]; intros). apply npp_bind; [apply npp_peek|]. intros r. apply npp_bind; [|intros; apply npp_ret].
  apply npp_lift. apply many_min_np; [lia|apply npp_text|apply text_progress|lia].
Qed.

(** * Route mirroring *)
Lemma mirror_reads al : reads (read_mirror al) (mirror_octets al).
Proof.
  intros s x r Hs. unfold read_mirror. split.
  - intros H. pstep H. rename a into t. lits. destruct t as [|[p|p|]]; try discriminate H.
    + pstep H. rename a into n. lits. apply bind_inv in H as (u & s' & H1 & H). apply has_n_inv in H1 as [-> H1]. apply bind_inv in H as (b & s' & H2 & H). apply split_to_inv in H2 as [-> L].
      apply bind_inv in H as (m & s'' & H2 & H). apply lift_inv in H2 as [H2 <-]. apply ret_inv in H as [<- <-]. apply run_inv in H2 as (z & H2).
      exists (be 2 0 ++ be 2 n ++ b). rewrite <- !app_assoc. split; auto. split; [auto|]. exists b, z. repeat split; auto. unfold nlen. cbn [mi_len]. lia.
    + pstep H. rename a into n. pstep H. rename a into i. lits. destruct (N.ltb_spec 1 i); [discriminate|]. apply ret_inv in H as [<- <-].
      exists (be 2 1 ++ be 2 n ++ be 2 i). rewrite <- !app_assoc. split; auto. split; auto. split; auto.
  - intros (w & -> & L & X). destruct x as [n [m|i]]; cbn [mi_len mi_value] in *.
    + destruct X as (b & z & -> & Lb & E). rewrite <- !app_assoc. do 2 rstep. rewrite (bind_ok _ _ _ tt (b ++ r)) by (apply has_n_ok; rewrite nlen_app; lia). rewrite (bind_ok _ _ _ b r) by (apply split_to_app; unfold nlen in Lb; lia).
      unfold bind, lift. rewrite (run_ok _ _ _ _ E). reflexivity.
    + destruct X as (I & ->). rewrite <- !app_assoc. do 2 rstep. rstep. destruct (N.ltb_spec 1 i); [lia|]. reflexivity.
Qed.
Lemma mirror_len al w x : mirror_octets al w x -> (5 <= length w)%nat.
Proof.
  intros (_ & X). destruct (mi_value x).
  - destruct X as (b & z & -> & _ & E). apply message_short in E. rewrite four. lia.
  - destruct X as (_ & ->). rewrite !app_length, !be_length. lia.
Qed.
Lemma mirror_iff al s l : bytes_ok s -> (parse_mirroring al s = Ok l <-> exists ws z, s = concat ws ++ z /\ Forall2 (mirror_octets al) ws l /\ (length z <= 4)%nat).
Proof.
  intros Hs. unfold parse_mirroring. rewrite (reads_loop 5 _ _ ltac:(lia) (mirror_reads al) (mirror_len al)) by auto.
  split; intros (ws & z & E & F & L); exists ws, z; repeat split; auto; lia.
Qed.
Lemma npp_mirror al : npp (read_mirror al).
Proof.
  apply npp_bind; [apply npp_read_be|]. intros t. destruct t as [|[p|p|]]; try apply npp_fail.
  - apply npp_bind; [apply npp_read_be|]. intros n s. apply np_bind; [apply npp_has_n|]. intros u s' H. apply has_n_inv in H as [-> H]. apply np_bind; [apply np_split_to; unfold nlen in H; lia|].
    intros b s' _. apply npp_bind; [apply npp_lift; apply np_run; apply message_np|]. intros; apply npp_ret.
  - do 2 (apply npp_bind; [apply npp_read_be|]; intros). destruct (1 <? a0); [apply npp_fail|apply npp_ret].
Qed.
Lemma mirror_progress al s x r : read_mirror al s = Ok (x, r) -> (length r < length s)%nat.
Proof.
  intros H. apply bind_inv in H as (t & s1 & H1 & H). apply read_be_len in H1. destruct t as [|[p|p|]]; try discriminate H.
  - apply bind_inv in H as (n & s2 & H2 & H). apply read_be_len in H2. apply bind_inv in H as (u & s' & H3 & H). apply has_n_inv in H3 as [-> _].
    apply bind_inv in H as (b & s' & H4 & H). apply split_to_inv in H4 as [-> L]. apply bind_inv in H as (m & s'' & H5 & H). apply lift_inv in H5 as [_ <-]. apply ret_inv in H as [_ <-]. rewrite app_length in H2. lia.
  - apply bind_inv in H as (n & s2 & H2 & H). apply read_be_len in H2. apply bind_inv in H as (i & s3 & H3 & H). apply read_be_len in H3. destruct (1 <? i); [discriminate|]. apply ret_inv in H as [_ <-]. lia.
Qed.

(** * Statistics *)
Lemma stat_reads : reads read_stat stat_octets.
Proof.
  intros s x r Hs. unfold read_stat. split.
  - intros H. pstep H. rename a into t. pstep H. rename a into n. lits. apply bind_inv in H as (u & s' & H1 & H). apply has_n_inv in H1 as [-> H1].
    apply bind_inv in H as (d & s' & H2 & H). apply ret_inv in H as [<- <-].
    assert (D : exists w, s = w ++ s' /\ nlen w = n /\ match d with
      | StCounter n => n < 2 ^ 32 /\ w = be 4 n | StGauge n => n < 2 ^ 64 /\ w = be 8 n
      | StAfiSafi a s n => a < 2 ^ 16 /\ s < 2 ^ 8 /\ n < 2 ^ 64 /\ w = be 2 a ++ [s] ++ be 8 n | StUnknown b => b = w /\ ~ In n [4; 8; 11] end).
    { destruct (N.eqb_spec n 4) as [->|N4]; [|destruct (N.eqb_spec n 8) as [->|N8]; [|destruct (N.eqb_spec n 11) as [->|N11]]].
      - pstep H2. apply ret_inv in H2 as [<- <-]. lits. exists (be 4 a). auto.
      - pstep H2. apply ret_inv in H2 as [<- <-]. lits. exists (be 8 a). auto.
      - pstep H2. pstep H2. pstep H2. apply ret_inv in H2 as [<- <-]. lits. exists (be 2 a ++ be 1 a0 ++ be 8 a1). rewrite <- !app_assoc. rewrite !be_1 by lia. repeat split; auto.
      - assert (X : (b <- split_to (N.to_nat n) ;; ret (StUnknown b)) s = Ok (d, s')).
        { rewrite <- H2. destruct n as [|p]; [reflexivity|]. destruct p as [[[[]|[]|]|[[]|[]|]|]|[[[]|[]|]|[[]|[]|]|]|]; try reflexivity; congruence. }
        apply bind_inv in X as (b & s'' & X1 & X). apply split_to_inv in X1 as [-> L]. apply ret_inv in X as [<- <-]. exists b. repeat split; auto; [unfold nlen; lia|]. cbn. intuition congruence. }
    destruct D as (w & -> & Lw & D). exists (be 2 t ++ be 2 n ++ w). rewrite <- !app_assoc. split; auto. split; auto. split; auto. exists w. auto.
  - intros (w & -> & T & L & d & -> & Ld & D). rewrite <- !app_assoc. do 2 rstep. destruct x as [t n x]. cbn [st_type st_len st_data] in *.
    rewrite (bind_ok _ _ _ tt (d ++ r)) by (apply has_n_ok; rewrite nlen_app; lia). rewrite (bind_ok _ _ _ x r); [reflexivity|]. destruct x as [v|v|a sf v|b].
    + destruct D as [V ->]. rewrite nlen_be in Ld. change (N.of_nat 4) with 4 in Ld. subst n. rstep. reflexivity.
    + destruct D as [V ->]. rewrite nlen_be in Ld. change (N.of_nat 8) with 8 in Ld. subst n. rstep. reflexivity.
    + destruct D as (A & S & V & ->). rewrite !nlen_app, !nlen_be in Ld. change (N.of_nat 2 + (nlen [sf] + N.of_nat 8)) with 11 in Ld. subst n. rewrite <- !app_assoc. rstep. cbn [app]. rstep. rstep. reflexivity.
    + destruct D as [-> NI]. cbn [In] in NI. assert (X : (b <- split_to (N.to_nat n) ;; ret (StUnknown b)) (d ++ r) = Ok (StUnknown d, r)).
      { rewrite (bind_ok _ _ _ d r) by (apply split_to_app; unfold nlen in Ld; lia). reflexivity. }
      rewrite <- X. destruct n as [|p]; [reflexivity|]. destruct p as [[[[]|[]|]|[[]|[]|]|]|[[[]|[]|]|[[]|[]|]|]|]; try reflexivity; exfalso; apply NI; auto.
Qed.
Lemma stats_iff s n l : bytes_ok s -> (parse_stats s = Ok (n, l) <-> exists ws z, s = be 4 n ++ concat ws ++ z /\ n < 2 ^ 32 /\ nlen l = n /\ Forall2 stat_octets ws l).
Proof.
  intros Hs. unfold parse_stats. split.
  - intros H. apply run_inv in H as (z & H). pstep H. lits. apply bind_inv in H as (l' & s' & H1 & H). apply ret_inv in H as [E <-]. injection E as -> ->.
    apply (reads_repeat _ _ stat_reads) in H1 as (w & -> & L & ws & -> & F); auto. exists ws, s'. repeat split; auto. unfold nlen. lia.
  - intros (ws & z & -> & B & L & F). eapply run_ok. rstep. apply bytes_ok_app in Hs as [_ Hs]. rewrite (bind_ok _ _ _ l z); [reflexivity|].
    apply (reads_repeat _ _ stat_reads); auto. exists (concat ws). split; auto. split; [unfold nlen in L; lia|]. eauto.
Qed.
Lemma npp_stat : npp read_stat.
Proof.
  do 2 (apply npp_bind; [apply npp_read_be|]; intros). rename a0 into n. intros s. apply np_bind; [apply npp_has_n|]. intros u s' H. apply has_n_inv in H as [-> H]. apply np_bind; [|intros; apply npp_ret].
  assert (X : np ((b <- split_to (N.to_nat n) ;; ret (StUnknown b)) s)) by (apply np_bind; [apply np_split_to; unfold nlen in H; lia|intros; apply npp_ret]).
  destruct n as [|p]; [exact X|]. destruct p as [[[[]|[]|]|[[]|[]|]|]|[[[]|[]|]|[[]|[]|]|]|]; try exact X; clear X; revert s H; intros s _; revert s;
    repeat (apply npp_bind; [apply npp_read_be|]; intros); apply npp_ret.
Qed.
Lemma stats_np s : np (parse_stats s).
Proof. apply np_run. revert s. apply npp_bind; [apply npp_read_be|]. intros n. apply npp_bind; [apply npp_repeat; apply npp_stat|]. intros; apply npp_ret. Qed.

(** * Whole messages *)
Lemma peer_afi h : afi_of_ip (pp_ip h) <> ALinkState.
Proof. destruct (pp_ip h); discriminate. Qed.
Lemma with_peer_iff c h (k : per_peer -> bytes -> res bmp_body) m : bytes_ok c ->
  ('(p, r) <~ parse_per_peer_header c ;; b <~ k p r ;; Ok (BmpMsg h (Some p) b)) = Ok m <->
  bm_header m = h /\ exists p w r, bm_peer m = Some p /\ c = w ++ r /\ per_peer_octets w p /\ k p r = Ok (bm_body m).
Proof.
  intros Hc. split.
  - intros H. apply rbind_inv in H as ((p & r) & H1 & H). apply rbind_inv in H as (b & H2 & H). injection H as <-.
    apply per_peer_reads in H1 as (w & E & W); auto. cbn. split; auto. exists p, w, r. auto.
  - intros (E & p & w & r & Ep & Ec & W & K). destruct m as [h' p' b]. cbn in *. subst h' p'.
    assert (X : parse_per_peer_header c = Ok (p, r)) by (apply per_peer_reads; eauto). rewrite X. cbn [rbind]. rewrite K. reflexivity.
Qed.
Lemma body_iff h c m : bytes_ok c -> bh_type h <= 6 ->
  (parse_bmp_body h c = Ok m <-> bm_header m = h /\ bmp_content (bh_type h) c (bm_peer m) (bm_body m)).
Proof.
  intros Hc Ht. assert (T : bh_type h = 0 \/ bh_type h = 1 \/ bh_type h = 2 \/ bh_type h = 3 \/ bh_type h = 4 \/ bh_type h = 5 \/ bh_type h = 6) by lia.
  assert (Hr : forall w r, c = w ++ r -> bytes_ok r) by (intros w r ->; apply bytes_ok_app in Hc; tauto).
  unfold parse_bmp_body. cbv zeta. destruct m as [h' p' b']. cbn [bm_header bm_peer bm_body].
  destruct T as [T|[T|[T|[T|[T|[T|T]]]]]]; rewrite T; try rewrite with_peer_iff by auto; cbn [bm_header bm_peer bm_body].
  - split.
    + intros (-> & p & w & r & -> & E & W & H). apply rbind_inv in H as (x & H & H'). injection H' as <-. apply run_inv in H as (z & H). split; auto. exists w, r. eauto.
    + intros (-> & X). destruct p' as [p|]; [|destruct b'; destruct X; discriminate]. destruct X as (w & r & E & W & X). split; auto. exists p, w, r. repeat split; auto.
      destruct b'; try (destruct X; discriminate); try contradiction. destruct X as (_ & z & X). rewrite (run_ok _ _ _ _ X). reflexivity.
  - split.
    + intros (-> & p & w & r & -> & E & W & H). apply rbind_inv in H as ((n & l) & H & H'). injection H' as <-. apply stats_iff in H; eauto. split; auto. exists w, r. auto.
    + intros (-> & X). destruct p' as [p|]; [|destruct b'; destruct X; discriminate]. destruct X as (w & r & E & W & X). split; auto. exists p, w, r. repeat split; auto.
      destruct b'; try (destruct X; discriminate); try contradiction. destruct X as (_ & X). apply stats_iff in X; eauto. rewrite X. reflexivity.
  - split.
    + intros (-> & p & w & r & -> & E & W & H). apply rbind_inv in H as (x & H & H'). injection H' as <-. apply down_iff in H; eauto. split; auto. exists w, r. auto.
    + intros (-> & X). destruct p' as [p|]; [|destruct b'; destruct X; discriminate]. destruct X as (w & r & E & W & X). split; auto. exists p, w, r. repeat split; auto.
      destruct b'; try (destruct X; discriminate); try contradiction. destruct X as (_ & X). apply down_iff in X; eauto. rewrite X. reflexivity.
  - split.
    + intros (-> & p & w & r & -> & E & W & H). apply rbind_inv in H as (x & H & H'). injection H' as <-. apply up_iff in H as [H A]; eauto using peer_afi. split; auto. exists w, r. repeat split; auto. destruct (pp_ip p), (pu_local x); auto; discriminate.
    + intros (-> & X). destruct p' as [p|]; [|destruct b'; destruct X; discriminate]. destruct X as (w & r & E & W & X). split; auto. exists p, w, r. repeat split; auto.
      destruct b'; try (destruct X; discriminate); try contradiction. destruct X as (_ & X & A). assert (Y : parse_peer_up (afi_of_ip (pp_ip p)) (pp_asn_len p) r = Ok m).
      { apply up_iff; eauto using peer_afi. split; auto. destruct (pp_ip p), (pu_local m); auto; contradiction. }
      rewrite Y. reflexivity.
  - split.
    + intros H. apply rbind_inv in H as (l & H & H'). injection H' as <- <- <-. apply init_iff in H; auto. cbn. auto.
    + intros (-> & X). destruct p' as [p|]; [destruct X as (w & r & E & W & X); destruct b'; destruct X; discriminate|]. destruct b'; try (destruct X; discriminate); try contradiction.
      destruct X as (_ & X). apply init_iff in X; auto. rewrite X. reflexivity.
  - split.
    + intros H. apply rbind_inv in H as (l & H & H'). injection H' as <- <- <-. apply term_iff in H; auto. cbn. auto.
    + intros (-> & X). destruct p' as [p|]; [destruct X as (w & r & E & W & X); destruct b'; destruct X; discriminate|]. destruct b'; try (destruct X; discriminate); try contradiction.
      destruct X as (_ & X). apply term_iff in X; auto. rewrite X. reflexivity.
  - split.
    + intros (-> & p & w & r & -> & E & W & H). apply rbind_inv in H as (x & H & H'). injection H' as <-. apply mirror_iff in H; eauto. split; auto. exists w, r. auto.
    + intros (-> & X). destruct p' as [p|]; [|destruct b'; destruct X; discriminate]. destruct X as (w & r & E & W & X). split; auto. exists p, w, r. repeat split; auto.
      destruct b'; try (destruct X; discriminate); try contradiction. destruct X as (_ & X). apply mirror_iff in X; eauto. rewrite X. reflexivity.
Qed.
Lemma body_np h c : bytes_ok c -> np (parse_bmp_body h c).
Proof.
  intros Hc. unfold parse_bmp_body. cbv zeta.
  assert (W : forall k : per_peer -> bytes -> res bmp_body, (forall p r, np (k p r)) -> np ('(p, r) <~ parse_per_peer_header c ;; b <~ k p r ;; Ok (BmpMsg h (Some p) b))).
  { intros k K. apply np_rbind; [apply npp_per_peer|]. intros (p & r) _. apply np_rbind; [apply K|]. intros; apply np_ok. }
  assert (M : np ('(p, r) <~ parse_per_peer_header c ;; b <~ (l <~ parse_mirroring (pp_asn_len p) r ;; Ok (BMirroring l)) ;; Ok (BmpMsg h (Some p) b))).
  { apply (W (fun p r => l <~ parse_mirroring (pp_asn_len p) r ;; Ok (BMirroring l))). intros p r. apply np_rbind; [|intros; apply np_ok]. apply many_min_np; [lia|apply npp_mirror|apply mirror_progress|lia]. }
  assert (T : bh_type h = 0 \/ bh_type h = 1 \/ bh_type h = 2 \/ bh_type h = 3 \/ bh_type h = 4 \/ bh_type h = 5 \/ 5 < bh_type h) by lia.
  destruct T as [T|[T|[T|[T|[T|[T|T]]]]]]; try rewrite T.
  - apply (W (fun p r => m <~ run (parse_bgp_message false (pp_asn_len p)) r ;; Ok (BMonitoring m))). intros p r. apply np_rbind; [apply np_run; apply message_np|intros; apply np_ok].
  - apply (W (fun p r => '(n, l) <~ parse_stats r ;; Ok (BStats n l))). intros p r. apply np_rbind; [apply stats_np|intros (n & l) _; apply np_ok].
  - apply (W (fun p r => m <~ parse_peer_down r ;; Ok (BPeerDown m))). intros p r. apply np_rbind; [apply down_np|intros; apply np_ok].
  - apply (W (fun p r => m <~ parse_peer_up (afi_of_ip (pp_ip p)) (pp_asn_len p) r ;; Ok (BPeerUp m))). intros p r. apply np_rbind; [apply up_np|intros; apply np_ok].
  - apply np_rbind; [|intros; apply np_ok]. unfold parse_initiation. destruct (init_ok (S (length c)) c Hc) as (l & E & _); [lia|]. rewrite E. apply np_ok.
  - apply np_rbind; [|intros; apply np_ok]. apply term_np_. lia.
  - destruct (bh_type h) as [|q]; [lia|]. destruct q as [[q|q|]|[q|q|]|]; try exact M; try lia; destruct q; try exact M; lia.
Qed.

Lemma msg_frame t c r : t <= 6 -> 6 + nlen c < 2 ^ 32 ->
  parse_bmp_msg (bmp_frame t c ++ r) = (parse_bmp_body (BmpHdr 3 (6 + nlen c) t) c, r).
Proof.
  intros T L. change (2 ^ 32) with 4294967296 in L. unfold bmp_frame, parse_bmp_msg, parse_bmp_common_header, sbind, prim, sret. cbn [app]. rewrite <- !app_assoc. cbn [app].
  rewrite read_u8_cons. change (negb (3 =? 3)) with false. cbv beta iota. rewrite read_u32_be by exact L. rewrite read_u8_cons.
  destruct (N.ltb_spec 6 t); [lia|]. cbn [bh_len]. destruct (N.ltb_spec (6 + nlen c) 6); [lia|]. replace (6 + nlen c - 6) with (nlen c) by lia.
  rewrite has_n_ok by (rewrite nlen_app; lia). rewrite split_to_app by (unfold nlen; lia). reflexivity.
Qed.
(** What each outcome says about the buffer. *)
Lemma msg_cases s : bytes_ok s ->
  (exists t c r, t <= 6 /\ 6 + nlen c < 2 ^ 32 /\ s = bmp_frame t c ++ r) \/
  (exists e r z, parse_bmp_msg s = (Err e, r) /\ s = z ++ r /\ nlen z <= 6).
Proof.
  intros Hs. destruct s as [|v s]; [right; do 2 eexists; exists []; split; [reflexivity|split; [reflexivity|cbn; lia]]|].
  destruct (N.eq_dec v 3) as [->|Hv].
  2:{ right. exists EBmpCorrupt, s, [v]. split; [|split; [reflexivity|cbn; lia]]. unfold parse_bmp_msg, parse_bmp_common_header, sbind, prim, sret. rewrite read_u8_cons. destruct (N.eqb_spec v 3); [contradiction|reflexivity]. }
  apply bytes_ok_app with (a := [3]) in Hs as [_ Hs].
  assert (X : parse_bmp_msg (3 :: s) = sbind (prim read_u32) (fun n => sbind (sbind (prim read_u8) (fun t => if 6 <? t then sret (Err EBmpHeader) else sret (Ok (BmpHdr 3 n t)))) (fun h =>
    if bh_len h <? 6 then sret (Err EBmpCorrupt) else
    sbind (prim (has_n (bh_len h - 6))) (fun _ => sbind (prim (split_to (N.to_nat (bh_len h - 6)))) (fun c => sret (parse_bmp_body h c))))) s).
  { unfold parse_bmp_msg, parse_bmp_common_header, sbind, prim, sret. rewrite read_u8_cons. change (negb (3 =? 3)) with false. cbv beta iota. destruct (read_u32 s) as [[n s1]|e|]; try reflexivity. }
  rewrite X. clear X. unfold sbind at 1, prim at 1. destruct (read_u32 s) as [[n s1]|e|] eqn:E1.
  2:{ right. exists e, s, [3]. split; [reflexivity|split; [reflexivity|cbn; lia]]. }
  2:{ exfalso. exact (npp_read_be 4 s E1). }
  apply read_be_inv_ok in E1 as (-> & B1 & Hs1); auto. unfold sbind at 1 2, prim at 1. destruct s1 as [|t s2].
  { right. do 2 eexists. exists ([3] ++ be 4 n). split; [reflexivity|]. split; [rewrite app_nil_r; reflexivity|]. rewrite nlen_app, nlen_be. cbn. lia. }
  rewrite read_u8_cons. destruct (N.ltb_spec 6 t) as [T|T].
  { right. exists EBmpHeader, s2, ([3] ++ be 4 n ++ [t]). split; [reflexivity|]. split; [rewrite <- !app_assoc; reflexivity|]. rewrite !nlen_app, nlen_be. cbn. lia. }
  unfold sret at 1. cbn [bh_len]. destruct (N.ltb_spec n 6) as [L|L].
  { right. exists EBmpCorrupt, s2, ([3] ++ be 4 n ++ [t]). split; [reflexivity|]. split; [rewrite <- !app_assoc; reflexivity|]. rewrite !nlen_app, nlen_be. cbn. lia. }
  unfold sbind at 1, prim at 1. destruct (has_n (n - 6) s2) as [[u s3]|e|] eqn:E3.
  3:{ exfalso. exact (npp_has_n _ _ E3). }
  2:{ right. exists e, s2, ([3] ++ be 4 n ++ [t]). split; [reflexivity|]. split; [rewrite <- !app_assoc; reflexivity|]. rewrite !nlen_app, nlen_be. cbn. lia. }
  left. apply has_n_inv in E3 as [-> E3]. exists t, (firstn (N.to_nat (n - 6)) s2), (skipn (N.to_nat (n - 6)) s2). split; [lia|].
  assert (Ln : nlen (firstn (N.to_nat (n - 6)) s2) = n - 6) by (unfold nlen in *; rewrite firstn_length; lia). rewrite Ln. split; [lia|].
  unfold bmp_frame. rewrite Ln. replace (6 + (n - 6)) with n by lia. rewrite <- !app_assoc. cbn [app]. rewrite firstn_skipn. reflexivity.
Qed.
Lemma msg_np s : bytes_ok s -> fst (parse_bmp_msg s) <> Panic.
Proof.
  intros Hs. destruct (msg_cases s Hs) as [(t & c & r & T & L & ->)|(e & r & z & E & _)].
  - rewrite msg_frame by auto. apply body_np. unfold bmp_frame in Hs. apply bytes_ok_app in Hs as [Hs _]. do 3 (apply bytes_ok_app in Hs as [_ Hs]). exact Hs.
  - rewrite E. discriminate.
Qed.
Lemma frames_all (l : list (N * bytes)) : Forall (fun x => fst x <= 6 /\ 6 + nlen (snd x) < 2 ^ 32) l -> forall fuel, (length l <= fuel)%nat ->
  read_all fuel (concat (map (fun x => bmp_frame (fst x) (snd x)) l)) = map (fun x => parse_bmp_body (BmpHdr 3 (6 + nlen (snd x)) (fst x)) (snd x)) l.
Proof.
  induction 1 as [|[t c] l [T L] _ IH]; intros [|f] F; cbn [length] in F; try lia; [reflexivity|reflexivity|].
  cbn [map concat fst snd]. cbn [fst snd] in T, L. change (read_all (S f) (bmp_frame t c ++ concat (map (fun x => bmp_frame (fst x) (snd x)) l)))
    with (let '(m, r) := parse_bmp_msg (bmp_frame t c ++ concat (map (fun x => bmp_frame (fst x) (snd x)) l)) in m :: read_all f r).
  rewrite msg_frame by auto. rewrite IH by lia. reflexivity.
Qed.

(** * OpenBMP *)
Lemma bit6 f : f < 256 -> N.testbit f 6 = (64 <=? f mod 128).
Proof. intros F. rewrite N.testbit_eqb. change (2 ^ 6) with 64. pose proof (N.div_mod f 128). pose proof (N.mod_lt f 128). pose proof (N.div_mod f 64). pose proof (N.mod_lt f 64). pose proof (N.div_mod (f / 64) 2). pose proof (N.mod_lt (f / 64) 2). lia. Qed.
Lemma openbmp_reads : reads parse_openbmp_header openbmp_octets.
Proof.
  intros s x r Hs. unfold parse_openbmp_header. split.
  - intros H. apply bind_inv in H as (m & s1 & Hq & H). apply read_n_bytes_inv in Hq as [-> Lm]. apply bytes_ok_app in Hs as [_ Hs].
    destruct (bytes_eqb m [79; 66; 77; 80]) eqn:Em; [|discriminate]. apply bytes_eqb_eq in Em as ->. cbn [negb] in H.
    pstep H. rename a into v. pstep H. rename a into w. destruct ((v =? 1) && (w =? 7)) eqn:Ev; [|discriminate]. cbn [negb] in H.
    assert (v = 1 /\ w = 7) as [-> ->] by lia. pstep H. rename a into hl. pstep H. rename a into ml. pstep H. rename a into f.
    destruct (N.testbit f 7) eqn:F7; [|discriminate]. cbn [negb] in H. pstep H. destruct (N.eqb_spec a 12) as [->|]; [|discriminate]. cbn [negb] in H.
    pstep H. rename a into sec. pstep H. rename a into us. lits. apply bind_inv in H as (u & s' & Hq & H). apply skip_inv in Hq as (z1 & -> & Z1). apply bytes_ok_app in Ho6 as [_ Ho6].
    pstep H. rename a into n. lits. apply bind_inv in H as (ad & s'' & Hq & H). apply read_n_bytes_inv in Hq as [-> Lad]. match goal with [B : bytes_ok (ad ++ _) |- _] => apply bytes_ok_app in B as [_ B] end.
    apply bind_inv in H as (u2 & s' & Hq & H). apply skip_inv in Hq as (z2 & -> & Z2). match goal with [B : bytes_ok (z2 ++ _) |- _] => apply bytes_ok_app in B as [_ B]; rename B into Bo end.
    apply bind_inv in H as (i & s'' & Hq & H).
    assert (Hi : exists a, s' = a ++ s'' /\ match i with
      | V6 n => n < 2 ^ 128 /\ 64 <= f mod 128 /\ a = be 16 n
      | V4 n => n < 2 ^ 32 /\ f mod 128 < 64 /\ exists z, length z = 12%nat /\ a = be 4 n ++ z end).
    { rewrite bit6 in Hq by lia. destruct (N.leb_spec 64 (f mod 128)) as [F6|F6].
      - pstep Hq. apply ret_inv in Hq as [<- <-]. exists (be 16 a). change (2 ^ 128) with (256 ^ N.of_nat 16). auto.
      - pstep Hq. lits. apply bind_inv in Hq as (u3 & s3 & Hq & Hq'). apply skip_inv in Hq as (z & -> & Z). apply ret_inv in Hq' as [<- <-]. exists (be 4 a ++ z). rewrite <- app_assoc. split; auto. split; [auto|]. split; auto. exists z. split; auto. unfold nlen in Z. lia. }
    clear Hq. destruct Hi as (a & -> & Hi). apply bytes_ok_app in Bo as [_ Bo]. pstep H. rename a0 into g. lits.
    apply bind_inv in H as (gr & s' & Hq & H).
    assert (Hg : s = gr ++ s' /\ nlen gr = g). { destruct (N.eqb_spec g 0) as [->|]; [apply ret_inv in Hq as [<- <-]; auto|]. apply read_n_bytes_inv in Hq as [-> Lg]. split; auto. }
    destruct Hg as [-> Lg]. match goal with [B : bytes_ok (gr ++ _) |- _] => apply bytes_ok_app in B as [_ B] end. pstep H. destruct (N.eqb_spec a0 1) as [->|]; [|discriminate]. cbn [negb] in H. apply ret_inv in H as [<- <-].
    exists ([79; 66; 77; 80; 1; 7] ++ be 2 hl ++ be 4 ml ++ [f; 12] ++ be 4 sec ++ be 4 us ++ z1 ++ be 2 (nlen ad) ++ ad ++ z2 ++ a ++ be 2 (nlen gr) ++ gr ++ be 4 1).
    split. { rewrite (be_1 f) by lia. subst g. rewrite Lad. cbn [app]. rewrite <- !app_assoc. cbn [app]. rewrite <- !app_assoc. reflexivity. }
    exists f, sec, us, z1, ad, z2, a, gr. cbn [ob_major ob_minor ob_hlen ob_mlen ob_type ob_time ob_admin ob_router ob_group]. 
    assert (128 <= f) by (revert F7; change (N.testbit f 7) with (flag_v6 f); rewrite bit7 by lia; lia).
    unfold nlen in Z1, Z2. subst g. repeat split; auto; try lia.
  - intros (w & -> & W). destruct x as [v vm hl ml ty tm adm rt grp]. unfold openbmp_octets in W. cbn [ob_major ob_minor ob_hlen ob_mlen ob_type ob_time ob_admin ob_router ob_group] in W.
    destruct W as (f & sec & us & z1 & ad & z2 & a & gr & -> & -> & -> & -> & Bh & Bm & Bf & Bs & Bu & -> & Z1 & Bad & -> & Z2 & Bg & -> & A).
    change (2 ^ 16) with 65536 in *. change (2 ^ 32) with 4294967296 in *.
    rewrite <- !app_assoc. cbn [app]. change (79 :: 66 :: 77 :: 80 :: ?x) with ([79; 66; 77; 80] ++ x).
    rewrite (bind_ok _ _ _ [79; 66; 77; 80] _ (read_n_bytes_app 4 [79; 66; 77; 80] _ eq_refl)). cbv beta. change (negb (bytes_eqb ?a ?b)) with false. cbv iota.
    rewrite (bind_ok _ _ _ 1 _ (read_u8_cons _ _)). rewrite (bind_ok _ _ _ 7 _ (read_u8_cons _ _)). cbv beta. change (negb ((1 =? 1) && (7 =? 7))) with false. cbv iota.
    rstep. rstep. rewrite (bind_ok _ _ _ f _ (read_u8_cons _ _)). change (N.testbit f 7) with (flag_v6 f). rewrite bit7 by lia. replace (128 <=? f) with true by lia. cbn [negb].
    rewrite (bind_ok _ _ _ 12 _ (read_u8_cons _ _)). cbv beta. change (negb (12 =? 12)) with false. cbv iota. rstep. rstep.
    rewrite (bind_ok _ _ _ tt _ (skip_app 16 z1 _ ltac:(unfold nlen; lia))). rstep. rewrite (bind_ok _ _ _ ad _ (read_n_bytes_app _ ad _ eq_refl)).
    rewrite (bind_ok _ _ _ tt _ (skip_app 16 z2 _ ltac:(unfold nlen; lia))).
    rewrite (bind_ok _ _ _ rt (be 2 (nlen gr) ++ gr ++ be 4 1 ++ r)).
    2:{ rewrite bit6 by lia. destruct rt as [n|n].
      - destruct A as (B & F & z & Z & ->). replace (64 <=? f mod 128) with false by lia. rewrite <- !app_assoc. change (2 ^ 32) with 4294967296 in B. rstep. rewrite (bind_ok _ _ _ tt _ (skip_app 12 z _ ltac:(unfold nlen; lia))). reflexivity.
      - destruct A as (B & F & ->). replace (64 <=? f mod 128) with true by lia. rewrite (bind_ok _ _ _ n _ (read_be_be 16 n _ B)). reflexivity. }
    rstep. rewrite (bind_ok _ _ _ gr (be 4 1 ++ r)).
    2:{ destruct (N.eqb_spec (nlen gr) 0) as [E|E]; [destruct gr; [reflexivity|unfold nlen in E; cbn in E; lia]|]. apply read_n_bytes_app. reflexivity. }
    rstep. cbv beta. change (negb (1 =? 1)) with false. cbv iota. reflexivity.
Qed.
Lemma npp_openbmp : npp parse_openbmp_header.
Proof.
  unfold parse_openbmp_header. 
  apply npp_bind; [apply npp_read_n_bytes|]. intros m. destruct (negb _); [apply npp_fail|]. do 2 (apply npp_bind; [apply npp_read_be|]; intros).
  destruct (negb _); [apply npp_fail|]. do 3 (apply npp_bind; [apply npp_read_be|]; intros). destruct (negb _); [apply npp_fail|]. apply npp_bind; [apply npp_read_be|]; intros.
  destruct (negb _); [apply npp_fail|]. do 2 (apply npp_bind; [apply npp_read_be|]; intros). apply npp_bind; [apply npp_skip|]; intros. apply npp_bind; [apply npp_read_be|]; intros.
  apply npp_bind; [apply npp_read_n_bytes|]; intros. apply npp_bind; [apply npp_skip|]; intros.
  apply npp_bind. { destruct (N.testbit _ _); (apply npp_bind; [apply npp_read_be|]; intros); [apply npp_ret|]. apply npp_bind; [apply npp_skip|]; intros; apply npp_ret. }
  intros. apply npp_bind; [apply npp_read_be|]; intros. apply npp_bind. { destruct (_ =? 0); [apply npp_ret|apply npp_read_n_bytes]. }
  intros. apply npp_bind; [apply npp_read_be|]; intros. destruct (negb _); [apply npp_fail|apply npp_ret].
Qed.
Lemma openbmp_np s : bytes_ok s -> parse_openbmp_msg s <> Panic.
Proof.
  intros Hs. unfold parse_openbmp_msg. apply np_rbind; [apply npp_openbmp|]. intros (h & r) E. apply msg_np. apply openbmp_reads in E as (w & -> & _); auto. apply bytes_ok_app in Hs. tauto.
Qed.
