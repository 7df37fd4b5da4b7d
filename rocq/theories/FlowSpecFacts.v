From Coq Require Import ZifyBool ZifyNat ZifyN Lia.
From Verif Require Import Base BaseFacts Reader ReaderFacts Net NetSpec NetFacts AsPath Mpls MplsFacts Tac
  FlowSpec FlowSpecSpec.
Ltac Zify.zify_post_hook ::= Z.div_mod_to_equations.

(** Check a decidable statement about an octet by running through all of them. *)
Lemma all_octets (Q : N -> bool) :
  forallb Q (map N.of_nat (seq 0 256)) = true -> forall n, n < 256 -> Q n = true.
Proof.
  intros Hall n Hn. rewrite forallb_forall in Hall. apply Hall. apply in_map_iff.
  exists (N.to_nat n). split; [lia|]. apply in_seq. lia.
Qed.

Lemma need_bind {A} n e (k : P A) s : (n <= length s)%nat -> (need n e ;;; k) s = k s.
Proof. intros Hn. rewrite (bind_ok _ _ _ tt s (need_ok n e s Hn)). reflexivity. Qed.
Lemma get_be_cons {A} b r (k : N -> P A) : (x <- get_be 1 ;; k x) (b :: r) = k b r.
Proof.
  rewrite (bind_ok _ _ _ b r). reflexivity.
  change (b :: r) with ([b] ++ r). rewrite get_be_app by reflexivity. rewrite be_val_1. reflexivity.
Qed.

(** The length field. *)
Lemma encode_length_wire n : n <= 4095 -> encode_length n = length_wire n.
Proof.
  intros Hn. unfold encode_length, length_wire. destruct (n <? 240) eqn:E.
  - rewrite be_1 by lia. reflexivity.
  - change (be 2 (0xF000 + n)) with ([(0xF000 + n) / 256 mod 256; (0xF000 + n) mod 256]).
    unfold u8. rewrite N.shiftr_div_pow2. change (2 ^ 8) with 256.
    assert (Hs : n / 256 < 16) by lia.
    f_equal; [|f_equal; lia].
    rewrite (N.mod_small (n / 256)) by lia.
    replace ((0xF000 + n) / 256 mod 256) with (0xF0 + n / 256) by lia.
    revert Hs. generalize (n / 256). intros m Hm.
    assert (Q := all_octets (fun m => if m <? 16 then N.lor 240 m =? 240 + m else true) eq_refl m ltac:(lia)).
    cbv beta in Q. replace (m <? 16) with true in Q by lia. lia.
Qed.
Lemma parse_length_wire n r : n <= 4095 -> parse_length (length_wire n ++ r) = Ok (n, r).
Proof.
  intros Hn. unfold parse_length, length_wire. destruct (n <? 240) eqn:E.
  - rewrite be_1 by lia. cbn [app]. rewrite need_bind by (cbn [length]; lia).
    rewrite get_be_cons, E. reflexivity.
  - change (be 2 (0xF000 + n)) with ([(0xF000 + n) / 256 mod 256; (0xF000 + n) mod 256]).
    cbn [app]. rewrite need_bind by (cbn [length]; lia). rewrite get_be_cons.
    replace ((0xF000 + n) / 256 mod 256) with (240 + n / 256) by lia.
    replace (240 + n / 256 <? 240) with false by lia.
    rewrite need_bind by (cbn [length]; lia). rewrite get_be_cons. unfold ret. f_equal. f_equal.
    replace (N.land (240 + n / 256) 15) with (n / 256).
    + rewrite N.shiftl_mul_pow2. change (2 ^ 8) with 256.
      replace ((0xF000 + n) mod 256) with (n mod 256) by lia.
      rewrite <- N.lxor_lor, <- N.add_nocarry_lxor; try lia.
      * apply N.bits_inj. intros i. rewrite N.land_spec, N.bits_0.
        destruct (N.ltb_spec i 8).
        { change 256 with (2 ^ 8). rewrite N.mul_pow2_bits_low by assumption. reflexivity. }
        { change 256 with (2 ^ 8). rewrite (N.mod_pow2_bits_high n 8 i) by assumption. apply andb_false_r. }
      * apply N.bits_inj. intros i. rewrite N.land_spec, N.bits_0.
        destruct (N.ltb_spec i 8).
        { change 256 with (2 ^ 8). rewrite N.mul_pow2_bits_low by assumption. reflexivity. }
        { change 256 with (2 ^ 8). rewrite (N.mod_pow2_bits_high n 8 i) by assumption. apply andb_false_r. }
    + assert (Hs : n / 256 < 16) by lia. revert Hs. generalize (n / 256). intros m Hm.
      assert (Q := all_octets (fun m => if m <? 16 then N.land (240 + m) 15 =? m else true) eq_refl m ltac:(lia)).
      cbv beta in Q. replace (m <? 16) with true in Q by lia. lia.
Qed.
Lemma parse_length_inv s n r : parse_length s = Ok (n, r) -> exists h, s = h ++ r /\ (1 <= length h)%nat.
Proof.
  unfold parse_length. intros H.
  apply bind_inv in H as (u & s1 & H1 & H). apply need_inv in H1 as (-> & _).
  apply bind_inv in H as (f & s2 & H1 & H). apply get_be_inv in H1 as (l & -> & Hl & _).
  destruct (f <? 240).
  - apply ret_inv in H as (_ & ->). exists l. split; auto. lia.
  - apply bind_inv in H as (u' & s3 & H1 & H). apply need_inv in H1 as (-> & _).
    apply bind_inv in H as (g & s4 & H1 & H). apply get_be_inv in H1 as (l' & -> & Hl' & _).
    apply ret_inv in H as (_ & ->). exists (l ++ l'). rewrite <- app_assoc, app_length. split; auto. lia.
Qed.

(** Operators. *)
Definition num_head (o : numop) : N := hd 0 (num_wire o).
Definition bit_head (o : bitop) : N := hd 0 (bit_wire o).
Lemma numop_byte_head o : value_fits (no_len o) (no_val o) -> numop_byte o = num_head o.
Proof.
  destruct o as [e a n lt gt eq v]. intros [[H|[H|[H|H]]] _]; cbn [no_len] in H; subst n;
  destruct e, a, lt, gt, eq; reflexivity.
Qed.
Lemma bitop_byte_head o : value_fits (bo_len o) (bo_val o) -> bitop_byte o = bit_head o.
Proof.
  destruct o as [e a n nt mt v]. intros [[H|[H|[H|H]]] _]; cbn [bo_len] in H; subst n;
  destruct e, a, nt, mt; reflexivity.
Qed.
Lemma numop_of_head o : value_fits (no_len o) (no_val o) ->
  op_value_len (num_head o) = no_len o /\ numop_of (num_head o) (no_val o) = Ok o.
Proof.
  destruct o as [e a n lt gt eq v]. intros [[H|[H|[H|H]]] _]; cbn [no_len] in H; subst n;
  destruct e, a, lt, gt, eq; split; reflexivity.
Qed.
Lemma bitop_of_head o : value_fits (bo_len o) (bo_val o) ->
  op_value_len (bit_head o) = bo_len o /\ bitop_of (bit_head o) (bo_val o) = Ok o.
Proof.
  destruct o as [e a n nt mt v]. intros [[H|[H|[H|H]]] _]; cbn [bo_len] in H; subst n;
  destruct e, a, nt, mt; split; reflexivity.
Qed.
Lemma op_value_len_cases op : let n := op_value_len op in n = 1 \/ n = 2 \/ n = 4 \/ n = 8.
Proof. cbv zeta. unfold op_value_len. destruct (N.land (N.shiftr op 4) 3) as [|[[]|[]|]]; auto. Qed.
Lemma numop_of_inv op v o : op < 256 -> numop_of op v = Ok o ->
  num_head o = op /\ no_len o = op_value_len op /\ no_val o = v.
Proof.
  intros Hop Hof. unfold numop_of in Hof. destruct (bit_set op 8) eqn:E; [discriminate|].
  injection Hof as <-. cbn [no_len no_val]. split; [|auto].
  assert (Q := all_octets (fun op => if bit_set op 8 then true else
    num_head (NumOp (bit_set op 128) (bit_set op 64) (op_value_len op) (bit_set op 4) (bit_set op 2) (bit_set op 1) 0) =? op)
    eq_refl op Hop). cbv beta in Q. rewrite E in Q. apply N.eqb_eq in Q. exact Q.
Qed.
Lemma bitop_of_inv op v o : op < 256 -> bitop_of op v = Ok o ->
  bit_head o = op /\ bo_len o = op_value_len op /\ bo_val o = v.
Proof.
  intros Hop Hof. unfold bitop_of in Hof. destruct (bit_set op 12) eqn:E; [discriminate|].
  injection Hof as <-. cbn [bo_len bo_val]. split; [|auto].
  assert (Q := all_octets (fun op => if bit_set op 12 then true else
    bit_head (BitOp (bit_set op 128) (bit_set op 64) (op_value_len op) (bit_set op 2) (bit_set op 1) 0) =? op)
    eq_refl op Hop). cbv beta in Q. rewrite E in Q. apply N.eqb_eq in Q. exact Q.
Qed.

(** Operator lists, over any constructor that inverts its wire form. *)
Lemma parse_ops_ok {A} (mk : N -> N -> res A) is_end (head : A -> N) (len val : A -> N) l :
  (forall o, value_fits (len o) (val o) -> op_value_len (head o) = len o /\ mk (head o) (val o) = Ok o) ->
  terminated is_end l -> Forall (fun o => value_fits (len o) (val o)) l ->
  forall fuel r, (length l <= fuel)%nat ->
  parse_ops mk is_end fuel (flat_map (fun o => head o :: be (N.to_nat (len o)) (val o)) l ++ r) = Ok (l, r).
Proof.
  intros Hmk. induction l as [|o l IH]; intros Ht Hf fuel r Hfuel; [contradiction|].
  destruct fuel as [|f]; [cbn [length] in Hfuel; lia|].
  apply Forall_cons_iff in Hf as (Ho & Hf). destruct (Hmk o Ho) as (Hlen & Hof).
  destruct Ho as (Hc & Hv).
  cbn [parse_ops flat_map]. rewrite <- app_assoc. cbn [app].
  rewrite need_bind by (cbn [length]; lia). rewrite get_be_cons. cbv zeta. rewrite Hlen.
  rewrite need_bind by (rewrite app_length, be_length; lia).
  rewrite (bind_ok _ _ _ (val o) (flat_map (fun o => head o :: be (N.to_nat (len o)) (val o)) l ++ r)).
  2:{ apply get_be_be. rewrite N2Nat.id. exact Hv. }
  unfold lift. unfold bind at 1. rewrite Hof. cbn [rbind].
  destruct l as [|o' l'].
  - cbn [terminated] in Ht. rewrite Ht. reflexivity.
  - change (is_end o = false /\ terminated is_end (o' :: l')) in Ht. destruct Ht as (He & Ht).
    rewrite He. rewrite (bind_ok _ _ _ (o' :: l') r). reflexivity.
    apply IH; auto. cbn [length] in *. lia.
Qed.
Lemma parse_ops_inv {A} (mk : N -> N -> res A) is_end (head : A -> N) (len val : A -> N) :
  (forall op v o, op < 256 -> mk op v = Ok o -> head o = op /\ len o = op_value_len op /\ val o = v) ->
  forall fuel s l r, bytes_ok s -> parse_ops mk is_end fuel s = Ok (l, r) ->
  s = flat_map (fun o => head o :: be (N.to_nat (len o)) (val o)) l ++ r /\
  terminated is_end l /\ Forall (fun o => value_fits (len o) (val o)) l.
Proof.
  intros Hmk. induction fuel as [|f IH]; intros s l r Hs Hp; [discriminate|].
  cbn [parse_ops] in Hp. cbv zeta in Hp.
  apply bind_inv in Hp as (u & s1 & H1 & Hp). apply need_inv in H1 as (-> & _).
  apply bind_inv in Hp as (op & s2 & H1 & Hp). apply get_be_inv in H1 as (w & -> & Hw & ->).
  destruct w as [|op [|]]; cbn [length] in Hw; try lia. rewrite be_val_1 in Hp.
  apply bytes_ok_app in Hs as (Hs1 & Hs). apply Forall_inv in Hs1.
  apply bind_inv in Hp as (u' & s3 & H1 & Hp). apply need_inv in H1 as (-> & _).
  apply bind_inv in Hp as (v & s4 & H1 & Hp). apply get_be_inv in H1 as (w & -> & Hw' & ->).
  apply bytes_ok_app in Hs as (Hs2 & Hs).
  apply bind_inv in Hp as (o & s5 & H1 & Hp). apply lift_inv in H1 as (Hof & ->).
  destruct (Hmk _ _ _ Hs1 Hof) as (Hh & Hl & Hv).
  assert (Hfits : value_fits (len o) (val o)).
  { split. rewrite Hl. apply op_value_len_cases. rewrite Hl, Hv.
    pose proof (be_val_bound w Hs2) as Hb. rewrite Hw', N2Nat.id in Hb. exact Hb. }
  assert (Hwire : head o :: be (N.to_nat (len o)) (val o) = op :: w).
  { rewrite Hh, Hl, Hv, <- Hw', be_be_val by exact Hs2. reflexivity. }
  destruct (is_end o) eqn:He.
  - apply ret_inv in Hp as (<- & <-). cbn [flat_map]. rewrite Hwire, app_nil_r. cbn [app].
    split; auto.
  - apply bind_inv in Hp as (l' & s6 & H1 & Hp). apply ret_inv in Hp as (<- & <-).
    apply IH in H1 as (-> & Ht & Hf); auto.
    cbn [flat_map]. rewrite Hwire. cbn [app]. rewrite <- !app_assoc. split; auto.
    split; [|auto]. destruct l' as [|o' l']; [contradiction|]. split; auto.
Qed.
Lemma op_value_len_pos op : (0 < N.to_nat (op_value_len op))%nat.
Proof. destruct (op_value_len_cases op) as [-> |[-> |[-> | ->]]]; lia. Qed.
Lemma parse_ops_np {A} (mk : N -> N -> res A) is_end : (forall op v, np (mk op v)) ->
  forall fuel s, (length s < fuel)%nat -> np (parse_ops mk is_end fuel s).
Proof.
  intros Hmk. induction fuel as [|f IH]; intros s Hf; [lia|]. cbn [parse_ops]. cbv zeta.
  apply np_need_bind. intros H1. apply np_bind. apply np_get_be; auto.
  intros op s1 Hg. apply get_be_inv in Hg as (w & -> & Hw & _).
  apply np_need_bind. intros H2. apply np_bind. apply np_get_be; auto.
  intros v s2 Hg2. apply get_be_inv in Hg2 as (w' & -> & Hw' & _).
  apply np_bind. apply npp_lift. apply Hmk.
  intros o s3 Hl. apply lift_inv in Hl as (_ & ->).
  destruct (is_end o); [apply np_ok|]. apply np_bind.
  - apply IH. rewrite !app_length in Hf. lia.
  - intros. apply np_ok.
Qed.
Lemma ops_fuel {A} (w : A -> bytes) l r : (forall o, w o <> []) ->
  (length l <= S (length (flat_map w l ++ r)))%nat.
Proof.
  intros Hw. rewrite app_length. induction l as [|o l IH]; cbn [length flat_map]; [lia|].
  rewrite app_length. specialize (Hw o). destruct (w o); [congruence|]. cbn [length]. lia.
Qed.
Lemma parse_numeric_ok l r : numops_ok l -> parse_numeric (flat_map num_wire l ++ r) = Ok (l, r).
Proof.
  intros (Ht & Hf). unfold parse_numeric.
  apply (parse_ops_ok numop_of no_end num_head no_len no_val l numop_of_head Ht Hf).
  apply (ops_fuel num_wire). discriminate.
Qed.
Lemma parse_bitmask_ok l r : bitops_ok l -> parse_bitmask (flat_map bit_wire l ++ r) = Ok (l, r).
Proof.
  intros (Ht & Hf). unfold parse_bitmask.
  apply (parse_ops_ok bitop_of bo_end bit_head bo_len bo_val l bitop_of_head Ht Hf).
  apply (ops_fuel bit_wire). discriminate.
Qed.
Lemma parse_numeric_inv s l r : bytes_ok s -> parse_numeric s = Ok (l, r) ->
  s = flat_map num_wire l ++ r /\ numops_ok l.
Proof.
  intros Hs Hp. apply (parse_ops_inv numop_of no_end num_head no_len no_val numop_of_inv) in Hp; auto.
Qed.
Lemma parse_bitmask_inv s l r : bytes_ok s -> parse_bitmask s = Ok (l, r) ->
  s = flat_map bit_wire l ++ r /\ bitops_ok l.
Proof.
  intros Hs Hp. apply (parse_ops_inv bitop_of bo_end bit_head bo_len bo_val bitop_of_inv) in Hp; auto.
Qed.
Lemma npp_numeric : npp parse_numeric.
Proof.
  intros s. apply parse_ops_np. intros op v. unfold numop_of. destruct (bit_set op 8); [apply np_err|apply np_ok]. lia.
Qed.
Lemma npp_bitmask : npp parse_bitmask.
Proof.
  intros s. apply parse_ops_np. intros op v. unfold bitop_of. destruct (bit_set op 12); [apply np_err|apply np_ok]. lia.
Qed.

(** Prefixes. *)
Lemma wire_octets n : wire_bits n / 8 = byte_len n.
Proof. unfold wire_bits, byte_len. lia. Qed.
Lemma fs_encode_prefix_wire p : fs_encode_prefix p = prefix_wire p.
Proof.
  unfold fs_encode_prefix, prefix_wire. rewrite wire_octets. destruct (net_addr (p_net p)); reflexivity.
Qed.
Lemma parse_prefix_ok p r : fs_prefix_ok p -> parse_prefix_component (prefix_wire p ++ r) = Ok (p, r).
Proof.
  destruct p as [[a len] id]. intros ((Ha & Hl) & He & Hid & Hfam). cbn [p_net p_id net_addr net_len] in *. subst id.
  unfold parse_prefix_component, prefix_wire. cbn [p_net net_len net_addr]. rewrite wire_octets.
  cbn [app]. rewrite need_bind by (cbn [length]; lia). rewrite get_be_cons.
  assert (Hl' : len <= 128) by (destruct a; cbn [net_width] in Hl; lia).
  replace (128 <? len) with false by lia. cbv zeta.
  unfold wire_exact in He. cbn [net_addr net_len] in He.
  destruct a as [n|n]; cbn [ip_val net_width ip_ok is_v4] in *.
  - assert (Hb : byte_len len <= 4) by (unfold byte_len; lia).
    rewrite need_bind by (rewrite app_length, firstn_length, be_length; lia).
    rewrite (bind_ok _ _ _ (firstn (N.to_nat (byte_len len)) (be 4 n)) r)
      by (apply split_to_app; rewrite firstn_length, be_length; lia).
    replace (byte_len len <=? 4) with true by lia. replace (32 <? len) with false by lia.
    unfold ret. do 4 f_equal. rewrite pad_firstn; [|lia|exact Ha].
    assert (E : 256 ^ N.of_nat (4 - N.to_nat (byte_len len)) = 2 ^ (32 - wire_bits len)).
    { rewrite pow256_2. f_equal. unfold byte_len, wire_bits in *. lia. }
    rewrite E, He. f_equal. f_equal. apply N.sub_0_r.
  - destruct Hfam as [Hfam|Hfam]; [discriminate|].
    assert (Hb : byte_len len <= 16) by (unfold byte_len; lia).
    assert (Hb' : 4 < byte_len len) by (unfold byte_len; lia).
    rewrite need_bind by (rewrite app_length, firstn_length, be_length; lia).
    rewrite (bind_ok _ _ _ (firstn (N.to_nat (byte_len len)) (be 16 n)) r)
      by (apply split_to_app; rewrite firstn_length, be_length; lia).
    replace (byte_len len <=? 4) with false by lia.
    unfold ret. do 4 f_equal. rewrite pad_firstn; [|lia|exact Ha].
    assert (E : 256 ^ N.of_nat (16 - N.to_nat (byte_len len)) = 2 ^ (128 - wire_bits len)).
    { rewrite pow256_2. f_equal. unfold byte_len, wire_bits in *. lia. }
    rewrite E, He. f_equal. f_equal. apply N.sub_0_r.
Qed.
Lemma pad_low0 l m : be_val (l ++ repeat 0 m) mod 256 ^ N.of_nat m = 0.
Proof.
  rewrite be_val_app, be_val_repeat0, N.add_0_r. unfold nlen. rewrite repeat_length.
  apply N.mod_mul. pose proof (pow256_pos m). lia.
Qed.
Lemma parse_prefix_inv s p r : bytes_ok s -> parse_prefix_component s = Ok (p, r) ->
  s = prefix_wire p ++ r /\ fs_prefix_ok p.
Proof.
  unfold parse_prefix_component. intros Hs H.
  apply bind_inv in H as (u & s1 & H1 & H). apply need_inv in H1 as (-> & _).
  apply bind_inv in H as (len & s2 & H1 & H). apply get_be_inv in H1 as (w & -> & Hw & ->).
  destruct w as [|len [|]]; cbn [length] in Hw; try lia. rewrite be_val_1 in H.
  apply bytes_ok_app in Hs as (_ & Hs).
  destruct (128 <? len) eqn:E; [discriminate|]. cbv zeta in H.
  apply bind_inv in H as (u' & s3 & H1 & H). apply need_inv in H1 as (-> & _).
  apply bind_inv in H as (d & s4 & H1 & H). apply split_to_inv in H1 as (-> & Hd).
  apply bytes_ok_app in Hs as (Hdok & Hs).
  unfold prefix_wire, fs_prefix_ok, net_ok, wire_exact.
  destruct (byte_len len <=? 4) eqn:Eb.
  - destruct (32 <? len) eqn:E32; [discriminate|]. apply ret_inv in H as (<- & ->).
    cbn [p_net p_id net_addr net_len ip_ok ip_val net_width is_v4]. rewrite wire_octets.
    destruct (pad_inv 4 (N.to_nat (byte_len len)) d ltac:(lia) Hd Hdok) as (Hp1 & Hp2).
    split. cbn [app]. rewrite Hp2. reflexivity.
    split; [split; [exact Hp1|lia]|]. split; [|auto].
    assert (Q : 2 ^ (32 - wire_bits len) = 256 ^ N.of_nat (4 - N.to_nat (byte_len len))).
    { rewrite pow256_2. f_equal. unfold byte_len, wire_bits in *. lia. }
    rewrite Q. apply pad_low0.
  - apply ret_inv in H as (<- & ->).
    assert (byte_len len <= 16) by (unfold byte_len; lia).
    cbn [p_net p_id net_addr net_len ip_ok ip_val net_width is_v4]. rewrite wire_octets.
    destruct (pad_inv 16 (N.to_nat (byte_len len)) d ltac:(lia) Hd Hdok) as (Hp1 & Hp2).
    split. cbn [app]. rewrite Hp2. reflexivity.
    split; [split; [exact Hp1|lia]|]. split; [|split; auto].
    2:{ right. unfold byte_len in *. lia. }
    assert (Q : 2 ^ (128 - wire_bits len) = 256 ^ N.of_nat (16 - N.to_nat (byte_len len))).
    { rewrite pow256_2. f_equal. unfold byte_len, wire_bits in *. lia. }
    rewrite Q. apply pad_low0.
Qed.
Lemma npp_prefix_component : npp parse_prefix_component.
Proof.
  intros s. unfold parse_prefix_component. apply np_need_bind. intros H1. apply np_bind.
  apply np_get_be; auto. intros len s1 _. destruct (128 <? len); [apply np_err|]. cbv zeta.
  apply np_need_bind. intros H2. apply np_bind. apply np_split_to; auto. intros d s2 _.
  destruct (byte_len len <=? 4). destruct (32 <? len). apply np_err. apply np_ok. apply np_ok.
Qed.

(** Components. *)
Lemma component_type_rfc c : component_type c = rfc_type c. Proof. destruct c; reflexivity. Qed.
Definition comp_body (c : fs_comp) : bytes := tl (comp_wire c).
Lemma comp_wire_body c : comp_wire c = rfc_type c :: comp_body c. Proof. reflexivity. Qed.
Lemma parse_component_ok c r : comp_ok c -> parse_component (rfc_type c) (comp_body c ++ r) = Ok (c, r).
Proof.
  intros Hc; destruct c; cbn [comp_ok] in Hc; try contradiction;
  unfold comp_body; cbn [comp_wire tl rfc_type parse_component];
  (rewrite (bind_ok _ _ _ p r) || rewrite (bind_ok _ _ _ l r));
  auto using parse_prefix_ok, parse_numeric_ok, parse_bitmask_ok.
Qed.
Lemma parse_component_inv t s c r : bytes_ok s -> t < 256 -> parse_component t s = Ok (c, r) ->
  s = comp_body c ++ r /\ rfc_type c = t /\ comp_ok c.
Proof.
  intros Hs Ht H.
  assert (Hcase : t <= 13 \/ 13 < t) by lia. destruct Hcase as [Hc|Hc].
  - assert (Hn : exists k, (k <= 13)%nat /\ t = N.of_nat k) by (exists (N.to_nat t); lia).
    destruct Hn as (k & Hk & ->).
    do 14 (destruct k as [|k]; [
      cbn in H; first [discriminate |
        apply bind_inv in H as (x & s1 & H1 & H); apply ret_inv in H as (<- & <-);
        first [ apply parse_prefix_inv in H1 as (-> & H1) | apply parse_numeric_inv in H1 as (-> & H1)
              | apply parse_bitmask_inv in H1 as (-> & H1)]; auto ] |]).
    lia.
  - exfalso. unfold parse_component in H.
    destruct t as [|[[[[]|[]|]|[[]|[]|]|]|[[[]|[]|]|[[]|[]|]|]|]]; try discriminate; lia.
Qed.
Lemma npp_component t : npp (parse_component t).
Proof.
  pose proof npp_prefix_component. pose proof npp_numeric. pose proof npp_bitmask.
  unfold parse_component.
  destruct t as [|[[[[]|[]|]|[[]|[]|]|]|[[[]|[]|]|[[]|[]|]|]|]];
  first [apply npp_fail | apply npp_bind; [assumption | intros; apply npp_ret]].
Qed.
Lemma encode_numop_wire o : value_fits (no_len o) (no_val o) -> encode_numop o = Ok (num_wire o).
Proof.
  intros Ho. unfold encode_numop, write_value. rewrite numop_byte_head by exact Ho. destruct Ho as (Hc & Hv).
  replace (8 <? no_len o) with false by lia. reflexivity.
Qed.
Lemma encode_numops_wire l : Forall (fun o => value_fits (no_len o) (no_val o)) l ->
  encode_numops l = Ok (flat_map num_wire l).
Proof.
  unfold encode_numops. induction 1 as [|o l Ho Hl IH]; [reflexivity|]. cbn [rmap].
  rewrite encode_numop_wire by exact Ho. cbn [rbind].
  destruct (rmap encode_numop l) as [b| |] eqn:E; cbn [rbind] in *; try discriminate.
  assert (Hcb : concat b = flat_map num_wire l) by congruence. cbn [concat flat_map]. rewrite Hcb. reflexivity.
Qed.
Lemma encode_bitop_wire o : value_fits (bo_len o) (bo_val o) -> encode_bitop o = Ok (bit_wire o).
Proof.
  intros Ho. unfold encode_bitop, write_value. rewrite bitop_byte_head by exact Ho. destruct Ho as (Hc & Hv).
  replace (8 <? bo_len o) with false by lia. reflexivity.
Qed.
Lemma encode_bitops_wire l : Forall (fun o => value_fits (bo_len o) (bo_val o)) l ->
  encode_bitops l = Ok (flat_map bit_wire l).
Proof.
  unfold encode_bitops. induction 1 as [|o l Ho Hl IH]; [reflexivity|]. cbn [rmap].
  rewrite encode_bitop_wire by exact Ho. cbn [rbind].
  destruct (rmap encode_bitop l) as [b| |] eqn:E; cbn [rbind] in *; try discriminate.
  assert (Hcb : concat b = flat_map bit_wire l) by congruence. cbn [concat flat_map]. rewrite Hcb. reflexivity.
Qed.
Lemma encode_component_wire c : comp_ok c -> encode_component c = Ok (comp_wire c).
Proof.
  intros Hc. unfold encode_component. rewrite component_type_rfc.
  destruct c; cbn [comp_ok] in Hc; try contradiction; cbn [comp_wire];
  try (rewrite fs_encode_prefix_wire; reflexivity); destruct Hc as (_ & Hc);
  first [rewrite encode_numops_wire by exact Hc | rewrite encode_bitops_wire by exact Hc]; reflexivity.
Qed.

(** Whole rules. *)
Lemma encode_components_wire l : Forall comp_ok l -> exists bs, rmap encode_component l = Ok bs /\ concat bs = rule_wire l.
Proof.
  unfold rule_wire. induction 1 as [|c l Hc Hl (bs & IH1 & IH2)].
  - exists []. auto.
  - exists (comp_wire c :: bs). cbn [rmap flat_map concat]. rewrite encode_component_wire, IH1, IH2 by exact Hc. auto.
Qed.
Lemma encode_rule l : Forall comp_ok l ->
  encode_flowspec_nlri l =
  (if nlen (rule_wire l) <=? 4095 then Ok (length_wire (nlen (rule_wire l)) ++ rule_wire l) else Err EEncTooLarge).
Proof.
  intros Hl. unfold encode_flowspec_nlri.
  destruct (encode_components_wire l Hl) as (bs & -> & Hw). cbn [rbind]. rewrite Hw.
  destruct (nlen (rule_wire l) <=? 4095) eqn:E.
  - replace (4095 <? nlen (rule_wire l)) with false by lia. rewrite encode_length_wire by lia. reflexivity.
  - replace (4095 <? nlen (rule_wire l)) with true by lia. reflexivity.
Qed.
Lemma get1_cons b r : get_be 1 (b :: r) = Ok (b, r).
Proof. change (b :: r) with ([b] ++ r). rewrite get_be_app by reflexivity. rewrite be_val_1. reflexivity. Qed.
Lemma fs_loop_ok l : Forall comp_ok l -> forall fuel last r, increasing last (map rfc_type l) ->
  (length (rule_wire l ++ r) <= fuel)%nat -> fs_loop fuel (nlen r) last (rule_wire l ++ r) = Ok l.
Proof.
  induction 1 as [|c l Hc Hl IH]; intros fuel last r Hi Hf.
  - unfold rule_wire. cbn [flat_map app]. destruct fuel; cbn [fs_loop]; rewrite N.leb_refl; reflexivity.
  - unfold rule_wire in *. cbn [flat_map map increasing] in *. destruct Hi as (Hi1 & Hi2).
    rewrite comp_wire_body in *. cbn [app] in *.
    destruct fuel as [|f]; [cbn [length] in Hf; lia|]. cbn [fs_loop].
    match goal with |- (if ?b then _ else _) = _ => replace b with false end.
    2:{ rewrite nlen_cons, !nlen_app. lia. }
    rewrite get1_cons. cbn [rbind]. replace (rfc_type c <=? last) with false by lia.
    rewrite <- app_assoc, parse_component_ok by exact Hc. cbn [rbind].
    rewrite IH; auto. cbn [length] in Hf. rewrite <- app_assoc, app_length in Hf. lia.
Qed.
Lemma parse_rule l r : rule_ok l -> nlen (rule_wire l) <= 4095 ->
  parse_flowspec_nlri (length_wire (nlen (rule_wire l)) ++ rule_wire l ++ r) = Ok l.
Proof.
  intros (Hi & Hc) Hn. unfold parse_flowspec_nlri. rewrite parse_length_wire by exact Hn. cbn [rbind].
  rewrite nlen_app. replace (nlen (rule_wire l) + nlen r <? nlen (rule_wire l)) with false by lia.
  replace (nlen (rule_wire l) + nlen r - nlen (rule_wire l)) with (nlen r) by lia.
  apply fs_loop_ok; auto.
Qed.
Lemma flowspec_roundtrip l b : rule_ok l -> encode_flowspec_nlri l = Ok b -> forall r, parse_flowspec_nlri (b ++ r) = Ok l.
Proof.
  intros Hl He r. rewrite encode_rule in He by apply Hl. destruct (nlen (rule_wire l) <=? 4095) eqn:E; [|discriminate].
  injection He as <-. rewrite <- app_assoc. apply parse_rule; auto. lia.
Qed.
Lemma comp_body_length c r : length (comp_wire c ++ r) = S (length (comp_body c ++ r)).
Proof. rewrite comp_wire_body. reflexivity. Qed.
Lemma fs_loop_inv fuel : forall after last s l, bytes_ok s -> fs_loop fuel after last s = Ok l ->
  exists r, s = rule_wire l ++ r /\ nlen r <= after /\ increasing last (map rfc_type l) /\ Forall comp_ok l /\
    (l = [] \/ exists l1 c, l = l1 ++ [c] /\ after < nlen (comp_wire c ++ r)).
Proof.
  induction fuel as [|f IH]; intros after last s l Hs Hp; cbn [fs_loop] in Hp.
  - destruct (nlen s <=? after) eqn:E; [|discriminate]. injection Hp as <-. exists s. unfold rule_wire. cbn.
    repeat split; auto. lia.
  - destruct (nlen s <=? after) eqn:E.
    { injection Hp as <-. exists s. unfold rule_wire. cbn. repeat split; auto. lia. }
    apply rbind_inv in Hp as ((t & s1) & H1 & Hp). apply get_be_inv in H1 as (w & -> & Hw & ->).
    destruct w as [|t [|]]; cbn [length] in Hw; try lia. rewrite be_val_1 in Hp.
    apply bytes_ok_app in Hs as (Ht & Hs). apply Forall_inv in Ht.
    destruct (t <=? last) eqn:El; [discriminate|].
    apply rbind_inv in Hp as ((c & s2) & H1 & Hp).
    apply parse_component_inv in H1 as (-> & Hty & Hc); auto.
    apply bytes_ok_app in Hs as (_ & Hs).
    apply rbind_inv in Hp as (l' & H1 & Hp). injection Hp as <-.
    apply IH in H1 as (r & -> & Hr & Hi & Hl & Hlast); auto.
    exists r. unfold rule_wire. cbn [flat_map map increasing]. rewrite comp_wire_body, Hty. cbn [app].
    rewrite <- app_assoc. split; [reflexivity|]. split; [exact Hr|]. split; [split; [lia|exact Hi]|].
    split; [constructor; auto|]. right. destruct Hlast as [-> | (l1 & c1 & -> & Hlt)].
    + exists [], c. split; [reflexivity|]. unfold rule_wire in E. cbn [flat_map app] in E.
      rewrite comp_wire_body. cbn [app]. rewrite nlen_cons in *. lia.
    + exists (c :: l1), c1. auto.
Qed.
Lemma parse_flowspec_inv s l : bytes_ok s -> parse_flowspec_nlri s = Ok l ->
  rule_ok l /\ exists h r, s = h ++ rule_wire l ++ r.
Proof.
  intros Hs Hp. unfold parse_flowspec_nlri in Hp. apply rbind_inv in Hp as ((n & s1) & H1 & Hp).
  apply parse_length_inv in H1 as (h & -> & _). apply bytes_ok_app in Hs as (_ & Hs).
  destruct (nlen s1 <? n); [discriminate|].
  apply fs_loop_inv in Hp as (r & -> & _ & Hi & Hc & _); auto.
  split; [split; auto|]. exists h, r. reflexivity.
Qed.
Lemma consumes_need n e : consumes (need n e).
Proof. intros s a r Hn. apply need_inv in Hn as (-> & _). exists []. reflexivity. Qed.
Lemma consumes_ops {A} (mk : N -> N -> res A) is_end fuel : consumes (parse_ops mk is_end fuel).
Proof.
  induction fuel as [|f IH]; [intros s a r Hp; discriminate|]. cbn [parse_ops]. cbv zeta.
  apply consumes_bind; [apply consumes_need|intros _].
  apply consumes_bind; [apply consumes_get_be|intros op].
  apply consumes_bind; [apply consumes_need|intros _].
  apply consumes_bind; [apply consumes_get_be|intros v].
  apply consumes_bind; [apply consumes_lift|intros o].
  destruct (is_end o); [apply consumes_ret|]. apply consumes_bind; [exact IH|intros; apply consumes_ret].
Qed.
Lemma consumes_numeric : consumes parse_numeric.
Proof. intros s a r Hp. unfold parse_numeric in Hp. exact (consumes_ops _ _ _ s a r Hp). Qed.
Lemma consumes_bitmask : consumes parse_bitmask.
Proof. intros s a r Hp. unfold parse_bitmask in Hp. exact (consumes_ops _ _ _ s a r Hp). Qed.
Lemma consumes_prefix_component : consumes parse_prefix_component.
Proof.
  unfold parse_prefix_component.
  apply consumes_bind; [apply consumes_need|intros _].
  apply consumes_bind; [apply consumes_get_be|intros len].
  destruct (128 <? len); [apply consumes_fail|]. cbv zeta.
  apply consumes_bind; [apply consumes_need|intros _].
  apply consumes_bind; [apply consumes_split_to|intros d].
  destruct (byte_len len <=? 4); [destruct (32 <? len)|]; auto using consumes_fail, consumes_ret.
Qed.
Lemma consumes_component t : consumes (parse_component t).
Proof.
  pose proof consumes_prefix_component. pose proof consumes_numeric. pose proof consumes_bitmask.
  unfold parse_component.
  destruct t as [|[[[[]|[]|]|[[]|[]|]|]|[[[]|[]|]|[[]|[]|]|]|]];
  first [apply consumes_fail | apply consumes_bind; [assumption | intros; apply consumes_ret]].
Qed.
Lemma fs_loop_np fuel : forall after last s, (length s <= fuel)%nat -> np (fs_loop fuel after last s).
Proof.
  induction fuel as [|f IH]; intros after last s Hf; cbn [fs_loop]; destruct (nlen s <=? after) eqn:E; try apply np_ok.
  - exfalso. unfold nlen in E. lia.
  - destruct s as [|b s]; [unfold nlen in E; cbn in E; lia|]. rewrite get1_cons. cbn [rbind].
    destruct (b <=? last); [apply np_err|]. apply np_rbind. apply npp_component.
    intros (c & s2) Hc. apply np_rbind; [|intros; apply np_ok]. apply IH.
    pose proof (consumes_len _ _ _ _ (consumes_component b) Hc). cbn [length] in Hf. lia.
Qed.
Lemma parse_flowspec_np s : np (parse_flowspec_nlri s).
Proof.
  unfold parse_flowspec_nlri. apply np_rbind.
  - unfold parse_length. apply np_need_bind. intros H1. apply np_bind. apply np_get_be; auto.
    intros f s1 _. destruct (f <? 240); [apply np_ok|]. apply np_need_bind. intros H2.
    apply np_bind. apply np_get_be; auto. intros; apply np_ok.
  - intros (n & s1) _. destruct (nlen s1 <? n); [apply np_err|]. apply fs_loop_np. lia.
Qed.
(** Out-of-order component types are refused where they occur. *)
Lemma fs_loop_disorder l : Forall comp_ok l -> forall fuel last t r after,
  increasing last (map rfc_type l) -> t <= fold_left (fun _ c => rfc_type c) l last ->
  after <= nlen r -> (length (rule_wire l ++ t :: r) <= fuel)%nat ->
  fs_loop fuel after last (rule_wire l ++ t :: r) = Err EFsOrder.
Proof.
  induction 1 as [|c l Hc Hl IH]; intros fuel last t r after Hi Ht Ha Hf.
  - unfold rule_wire in *. cbn [flat_map app fold_left length] in *. destruct fuel as [|f]; [lia|]. cbn [fs_loop].
    rewrite nlen_cons. replace (nlen r + 1 <=? after) with false by lia. rewrite get1_cons. cbn [rbind].
    replace (t <=? last) with true by lia. reflexivity.
  - unfold rule_wire in *. cbn [flat_map map increasing fold_left] in *. destruct Hi as (Hi1 & Hi2).
    rewrite comp_wire_body in *. cbn [app] in *.
    destruct fuel as [|f]; [cbn [length] in Hf; lia|]. cbn [fs_loop].
    match goal with |- (if ?b then _ else _) = _ => replace b with false end.
    2:{ rewrite nlen_cons, !nlen_app, nlen_cons. lia. }
    rewrite get1_cons. cbn [rbind]. replace (rfc_type c <=? last) with false by lia.
    rewrite <- app_assoc, parse_component_ok by exact Hc. cbn [rbind].
    rewrite IH; auto. cbn [length] in Hf. rewrite <- app_assoc, app_length in Hf. lia.
Qed.
Lemma flowspec_disorder l t r n h : rule_ok l -> t <= fold_left (fun _ c => rfc_type c) l 0 ->
  parse_length (h ++ rule_wire l ++ t :: r) = Ok (n, rule_wire l ++ t :: r) ->
  nlen (rule_wire l) < n -> n <= nlen (rule_wire l ++ t :: r) ->
  parse_flowspec_nlri (h ++ rule_wire l ++ t :: r) = Err EFsOrder.
Proof.
  intros (Hi & Hc) Ht Hp Hn1 Hn2. unfold parse_flowspec_nlri. rewrite Hp. cbn [rbind].
  replace (nlen (rule_wire l ++ t :: r) <? n) with false by lia.
  apply fs_loop_disorder; auto. rewrite nlen_app, nlen_cons in *. lia.
Qed.
Lemma parse_length_wire_any n : n <= 4095 -> forall r, parse_length (length_wire n ++ r) = Ok (n, r).
Proof. intros. apply parse_length_wire. auto. Qed.
Lemma min_value_len_fits v : v < 2 ^ 64 -> value_fits (min_value_len v) v.
Proof.
  intros Hv. unfold min_value_len, value_fits.
  destruct (v <=? 0xFF) eqn:E1; [split; [auto|change (256^1) with 256; lia]|].
  destruct (v <=? 0xFFFF) eqn:E2; [split; [auto|change (256^2) with 65536; lia]|].
  destruct (v <=? 0xFFFFFFFF) eqn:E3; [split; [auto|change (256^4) with 4294967296; lia]|].
  split; [auto|]. change (256^8) with (2^64). exact Hv.
Qed.
Lemma flowspec_accepted n body l : n <= 4095 -> bytes_ok body ->
  parse_flowspec_nlri (length_wire n ++ body) = Ok l ->
  rule_ok l /\ exists r, body = rule_wire l ++ r /\ n <= nlen (rule_wire l) /\ n <= nlen body.
Proof.
  intros Hn Hs Hp. unfold parse_flowspec_nlri in Hp. rewrite parse_length_wire in Hp by exact Hn. cbn [rbind] in Hp.
  destruct (nlen body <? n) eqn:E; [discriminate|].
  apply fs_loop_inv in Hp as (r & -> & Hr & Hi & Hc & _); auto.
  split; [split; auto|]. exists r. rewrite nlen_app in *. repeat split; auto; lia.
Qed.
Lemma flowspec_reencode n body l : n <= 4095 -> bytes_ok body -> nlen body = n ->
  parse_flowspec_nlri (length_wire n ++ body) = Ok l -> encode_flowspec_nlri l = Ok (length_wire n ++ body).
Proof.
  intros Hn Hs Hb Hp. apply flowspec_accepted in Hp as ((_ & Hc) & r & -> & H1 & H2); auto.
  rewrite nlen_app in Hb. assert (nlen r = 0) as Hr by lia. destruct r; [|unfold nlen in Hr; cbn in Hr; lia].
  rewrite encode_rule by exact Hc. rewrite app_nil_r in *. cbn [nlen length] in *.
  replace (nlen (rule_wire l)) with n by (unfold nlen in *; cbn in Hb; lia).
  replace (n <=? 4095) with true by lia. reflexivity.
Qed.
Lemma encode_rule_iff l b : Forall comp_ok l ->
  (encode_flowspec_nlri l = Ok b <-> nlen (rule_wire l) <= 4095 /\ b = length_wire (nlen (rule_wire l)) ++ rule_wire l).
Proof.
  intros Hl. rewrite encode_rule by exact Hl. destruct (nlen (rule_wire l) <=? 4095) eqn:E; split.
  - intros H. split; [lia|congruence].
  - intros (_ & ->). reflexivity.
  - discriminate.
  - intros (H & _). lia.
Qed.
Lemma encode_rule_long l : Forall comp_ok l -> 4095 < nlen (rule_wire l) -> encode_flowspec_nlri l = Err EEncTooLarge.
Proof. intros Hl H. rewrite encode_rule by exact Hl. replace (nlen (rule_wire l) <=? 4095) with false by lia. reflexivity. Qed.
Lemma parse_disorder l t r n : rule_ok l -> (exists c, In c l /\ t <= rfc_type c) \/ t = 0 ->
  nlen (rule_wire l) < n -> n <= nlen (rule_wire l ++ t :: r) -> n <= 4095 ->
  parse_flowspec_nlri (length_wire n ++ rule_wire l ++ t :: r) = Err EFsOrder.
Proof.
  intros Hl Ht H1 H2 H3. apply (flowspec_disorder l t r n); auto; [|apply parse_length_wire; exact H3].
  destruct Hl as (Hi & _). clear H1 H2 H3.
  assert (Hmono : forall l last, increasing last (map rfc_type l) ->
     last <= fold_left (fun _ c => rfc_type c) l last /\
     forall c, In c l -> rfc_type c <= fold_left (fun _ c => rfc_type c) l last).
  { clear. induction l as [|c l IH]; intros last Hi; cbn [fold_left]. split; [lia|contradiction].
    destruct Hi as (Ha & Hb). destruct (IH _ Hb) as (Hc & Hd). split; [lia|].
    intros c' [->|Hin]; auto. }
  destruct (Hmono l 0 Hi) as (_ & Hm). destruct Ht as [(c & Hin & Ht)| ->]; [|lia].
  specialize (Hm c Hin). lia.
Qed.
Lemma constructors_ok v : v < 2 ^ 64 -> numops_ok [equal_to v] /\ numops_ok [greater_than_or_equal v] /\
  bitops_ok [exact_match v] /\ bitops_ok [partial_match v].
Proof.
  intros Hv. pose proof (min_value_len_fits v Hv). repeat split; auto; constructor; auto.
Qed.
