(** C89: an AS number means its number. *)
From Coq Require Import ZifyBool ZifyNat ZifyN Lia String.
From Verif Require Import Base BaseFacts Reader ReaderFacts Net Text AsnNum AsnNumSpec AsnNumFacts.

(** The three questions about a number are answered by IANA's registry. *)
Theorem C89_registry : forall a,
  (is_private a = true <-> registered (nm_value a) Private)
  /\ (is_documentation a = true <-> registered (nm_value a) Documentation)
  /\ (is_reserved a = true <-> exists p, registered (nm_value a) p).
Proof. exact (fun a => conj (private_iff a) (conj (documentation_iff a) (reserved_iff a))). Qed.
Print Assumptions C89_registry.

(** Private and documentation numbers are reserved, and no number is both. *)
Theorem C89_kinds : forall a,
  (is_private a = true -> is_reserved a = true /\ is_documentation a = false)
  /\ (is_documentation a = true -> is_reserved a = true /\ is_private a = false).
Proof.
  intros a. split; intros H.
  - split; [apply reserved_iff; exists Private; apply private_iff; exact H|].
    destruct (is_documentation a) eqn:E; auto. apply private_iff in H. apply documentation_iff in E. discriminate (registered_once _ _ _ H E).
  - split; [apply reserved_iff; exists Documentation; apply documentation_iff; exact H|].
    destruct (is_private a) eqn:E; auto. apply private_iff in E. apply documentation_iff in H. discriminate (registered_once _ _ _ E H).
Qed.
Print Assumptions C89_kinds.

(** The required width is two octets exactly when two octets can hold the number. *)
Theorem C89_width : forall a, held a ->
  (required_len a = Bits16 <-> exists b, length b = 2%nat /\ bytes_ok b /\ be_val b = nm_value a)
  /\ (exists b, N.of_nat (length b) = len_bytes (required_len a) /\ bytes_ok b /\ be_val b = nm_value a).
Proof.
  intros a H. apply held_bound in H. rewrite be_bytes_iff. change (256 ^ N.of_nat 2) with 65536. unfold required_len.
  destruct (N.leb_spec (nm_value a) 65535); split.
  - split; [lia|reflexivity].
  - destruct (proj2 (be_bytes_iff 2 (nm_value a))) as (b & L & K); [change (256 ^ N.of_nat 2) with 65536; lia|].
    exists b. rewrite L. auto.
  - split; [discriminate|lia].
  - destruct (proj2 (be_bytes_iff 4 (nm_value a))) as (b & L & K); [exact H|]. exists b. rewrite L. auto.
Qed.
Print Assumptions C89_width.

(** Equality, order and hash look at the number alone: an order, total, that
    agrees with equality, and equal numbers hash alike. *)
Theorem C89_order : forall a b c,
  (num_eqb a b = true <-> nm_value a = nm_value b)
  /\ (num_eqb a b = true <-> num_cmp a b = Eq)
  /\ (num_eqb a b = true <-> num_hashed a = num_hashed b)
  /\ (num_cmp a b = Lt <-> nm_value a < nm_value b)
  /\ num_cmp b a = CompOpp (num_cmp a b)
  /\ (num_cmp a b = Lt -> num_cmp b c = Lt -> num_cmp a c = Lt)
  /\ num_partial_cmp a b = Some (num_cmp a b).
Proof.
  intros a b c. unfold num_eqb, num_cmp, num_hashed. rewrite N.eqb_eq, N.compare_eq_iff, N.compare_lt_iff.
  repeat split; auto; try congruence.
  - apply N.compare_antisym.
  - rewrite !N.compare_lt_iff. lia.
Qed.
Print Assumptions C89_order.

(** Conversions: through [u32] and [i32] and back nothing is lost; through [u16]
    nothing is lost from a [u16]; and comparison with an integer is equality with
    the number converted from it. *)
Theorem C89_convert :
  (forall n, n < 2 ^ 32 -> into_u32 (from_u32 n) = n)
  /\ (forall a, held a -> num_eqb (from_u32 (into_u32 a)) a = true)
  /\ (forall z, is_i32 z -> into_i32 (from_i32 z) = z)
  /\ (forall a, held a -> is_i32 (into_i32 a) /\ num_eqb (from_i32 (into_i32 a)) a = true)
  /\ (forall n, n < 2 ^ 16 -> into_u16 (from_u16 n) = n)
  /\ (forall a, held a -> num_eqb (from_u16 (into_u16 a)) a = true <-> required_len a = Bits16)
  /\ (forall a n, eq_u32 a n = num_eqb a (from_u32 n))
  /\ (forall a z, eq_i32 a z = num_eqb a (from_i32 z))
  /\ (forall a n, eq_u16 a n = num_eqb a (from_u16 n)).
Proof.
  split; [reflexivity|]. split; [intros a _; apply N.eqb_refl|]. split; [exact i32_back|].
  split; [intros a H; destruct (u32_back _ (held_bound a H)) as [E B]; split; [exact B|apply N.eqb_eq; exact E]|].
  split; [intros n H; apply N.mod_small; exact H|].
  split; [|repeat split; reflexivity].
  intros a H. unfold num_eqb, from_u16, into_u16, required_len. cbn [nm_value new_16bit]. rewrite N.eqb_eq.
  destruct (N.leb_spec (nm_value a) 65535); split; intros E; try reflexivity; try discriminate E.
  - apply N.mod_small. lia.
  - assert (nm_value a mod 65536 < 65536) by (apply N.mod_lt; discriminate). lia.
Qed.
Print Assumptions C89_convert.

(** A number written out is read back, with or without [AS] before it; and the
    texts accepted are exactly these. *)
Theorem C89_text : forall s a, num_from_str s = Some a <-> exists n, a = new_32bit n /\ written s n.
Proof. exact from_str_iff. Qed.
Print Assumptions C89_text.
Theorem C89_text_back : forall a, held a ->
  exists b c, num_from_str (show_num a) = Some b /\ num_from_str (str "AS" ++ show_num a) = Some c
              /\ num_eqb a b = true /\ num_eqb a c = true.
Proof.
  intros a H. destruct (text_back a H) as [B C]. exists (new_32bit (nm_value a)), (new_32bit (nm_value a)).
  split; [exact B|]. split; [exact C|]. split; apply N.eqb_refl.
Qed.
Print Assumptions C89_text_back.
Theorem C89_parsed : forall s a, num_from_str s = Some a -> held a /\ is_four_byte a = true.
Proof. intros s a H. apply from_str_iff in H as (n & -> & (p & g & d & _ & _ & _ & _ & _ & B)). split; [apply held32; exact B|reflexivity]. Qed.
Print Assumptions C89_parsed.

(** An encoded number takes the width it was made with and is read back, flag
    and all, leaving what follows; and reading makes only such numbers. *)
Theorem C89_encode : forall a r, held a ->
  let l := if is_four_byte a then Bits32 else Bits16 in
  N.of_nat (length (num_encode a)) = len_bytes l /\ bytes_ok (num_encode a) /\ num_read l (num_encode a ++ r) = Ok (a, r).
Proof.
  intros a r H. cbv zeta. split; [|split; [|exact (encode_back a r H)]]; unfold num_encode, is_four_byte.
  - destruct (nm_four a); rewrite be_length; reflexivity.
  - destruct (nm_four a); apply be_ok.
Qed.
Print Assumptions C89_encode.
Theorem C89_read : forall l s a r, bytes_ok s -> num_read l s = Ok (a, r) ->
  held a /\ is_four_byte a = len_is_four l /\ s = num_encode a ++ r /\ read_asn l s = Ok (nm_value a, r).
Proof.
  intros l s a r Hs H. destruct l; unfold num_read in H; apply bind_inv in H as (n & q & R & H);
    injection H as <- <-; pose proof R as R0; apply read_be_inv in R as (b & -> & L & ->);
    apply bytes_ok_app in Hs as [Hb _]; pose proof (be_val_bound _ Hb) as B; rewrite L in B;
    (split; [constructor; exact B|]); (split; [reflexivity|]); (split; [|exact R0]);
    unfold num_encode; cbn [nm_four nm_value new_16bit new_32bit].
  - rewrite N.mod_small by exact B. rewrite <- L, be_be_val; auto.
  - rewrite <- L, be_be_val; auto.
Qed.
Print Assumptions C89_read.

(** Cases that meet the hypotheses. *)
Example C89_ex_held : held (new_16bit 64512) /\ held (new_32bit 4200000001) /\ held num_default /\ held num_transition.
Proof. repeat split; constructor; reflexivity. Qed.
Example C89_ex : is_private (new_32bit 4200000001) = true /\ is_reserved (new_32bit 13335) = false
  /\ num_from_str (str "AS13335") = Some (new_32bit 13335) /\ num_from_str (str "4294967296") = None /\ num_from_str (str "ASAS1") = None
  /\ num_read Bits16 [253; 232; 7] = Ok (new_16bit 65000, [7]) /\ into_i32 (from_u32 4294967295) = (-1)%Z.
Proof. vm_compute. auto 10. Qed.

(** Findings.  The pattern given for the text form, [(AS)?[0-9]+], is not the one
    accepted: a plus sign may stand before the digits. *)
Theorem C89_plus_refuted : exists s a, num_from_str s = Some a /\ ~ exists pre d, s = pre ++ d /\ (pre = [] \/ pre = str "AS") /\ digits d.
Proof.
  exists (str "AS+7"), (new_32bit 7). split; [reflexivity|]. intros (pre & d & E & [->| ->] & (_ & F)).
  - change (str "AS+7") with [65; 83; 43; 55] in E. cbn [app] in E. subst d. apply Forall_inv in F. lia.
  - change (str "AS+7") with [65; 83; 43; 55] in E. change (str "AS") with [65; 83] in E. cbn [app] in E. injection E as <-. apply Forall_inv in F. lia.
Qed.
Print Assumptions C89_plus_refuted.
(** Conversion to [u16] silently keeps the low half: two numbers that differ
    become the same. *)
Theorem C89_truncates_refuted : exists a b, held a /\ held b /\ num_eqb a b = false /\ into_u16 a = into_u16 b.
Proof. exists (new_32bit 65537), (new_32bit 1). split; [constructor; reflexivity|]. split; [constructor; reflexivity|]. split; reflexivity. Qed.
Print Assumptions C89_truncates_refuted.
(** Equal numbers may be encoded differently. *)
Theorem C89_equal_bytes_refuted : exists a b, held a /\ held b /\ num_eqb a b = true /\ num_encode a <> num_encode b.
Proof. exists (new_16bit 1), (new_32bit 1). split; [constructor; reflexivity|]. split; [constructor; reflexivity|]. split; [reflexivity|discriminate]. Qed.
Print Assumptions C89_equal_bytes_refuted.
