(** * C93: the checksum of a location and the name of its cache file *)
From Coq Require Import List NArith String Lia.
From Verif Require Import Base Text Render Cache CacheSpec CacheFacts.
Import ListNotations.
Local Open Scope string_scope.
Local Open Scope list_scope.
Local Open Scope N_scope.

(** The checksum is CRC-32: the remainder of the division by the standard generator. *)
Theorem C93_crc : forall s, octets s -> crc_word s = number (checksum (message_bits s)).
Proof. exact crc_checksum. Qed.
Print Assumptions C93_crc.

(** It is printed as eight lower case hexadecimal digits, and they tell it. *)
Theorem C93_digits : forall s,
  List.length (crc32 s) = 8%nat /\ Forall low_hex (crc32 s) /\
  (forall t, crc32 s = crc32 t <-> crc_word s = crc_word t).
Proof.
  intros s. destruct (hex8_digits (crc_word s)) as [L F]. exact (conj L (conj F (crc32_iff s))).
Qed.
Print Assumptions C93_digits.

(** The name: [cache-], the text after the last slash of the location, and the digits
    before its last dot, or at its end when there is none. *)
Theorem C93_name :
  (forall f, no_slash f -> no_dot f -> cache_name f = str "cache-" ++ f ++ str "." ++ crc32 f) /\
  (forall d f, no_slash f -> no_dot f ->
     cache_name (d ++ str "/" ++ f) = str "cache-" ++ f ++ str "." ++ crc32 (d ++ str "/" ++ f)) /\
  (forall a e, no_slash a -> no_slash e -> no_dot e ->
     cache_name (a ++ str "." ++ e) = str "cache-" ++ a ++ str "." ++ crc32 (a ++ str "." ++ e) ++ str "." ++ e) /\
  (forall d a e, no_slash a -> no_slash e -> no_dot e ->
     cache_name (d ++ str "/" ++ a ++ str "." ++ e) =
     str "cache-" ++ a ++ str "." ++ crc32 (d ++ str "/" ++ a ++ str "." ++ e) ++ str "." ++ e).
Proof.
  change (str "/") with [47]. change (str ".") with [46]. unfold cache_name.
  assert (A : forall a e, no_slash a -> no_slash e -> no_slash (a ++ [46] ++ e)).
  { unfold no_slash. intros a e Ha He I. apply in_app_or in I as [I | [I | I]]; [auto | discriminate I | auto]. }
  refine (conj _ (conj _ (conj _ _))).
  - intros f Hs Hd. rewrite name_plain, suffix_plain by assumption. reflexivity.
  - intros d f Hs Hd. rewrite name_after, suffix_plain by assumption. reflexivity.
  - intros a e Ha He Hd. rewrite name_plain, suffix_dotted by auto. reflexivity.
  - intros d a e Ha He Hd. rewrite name_after, suffix_dotted by auto. reflexivity.
Qed.
Print Assumptions C93_name.

(** It never leaves the cache directory by a slash of its own. *)
Theorem C93_place : forall p, no_slash (cache_name p).
Proof. exact cache_no_slash. Qed.
Print Assumptions C93_place.

(** Two locations share a cache file exactly when the texts after their last slashes
    are the same and their checksums are. *)
Theorem C93_shared : forall p q, octets p -> octets q ->
  (cache_name p = cache_name q <->
   file_name p = file_name q /\ number (checksum (message_bits p)) = number (checksum (message_bits q))).
Proof. intros p q Hp Hq. rewrite <- !crc_checksum by assumption. apply cache_iff. Qed.
Print Assumptions C93_shared.

(** Locations of the same length that differ within 32 neighbouring bits, and so those
    that differ within four neighbouring octets, never share one. *)
Theorem C93_burst : forall s t p a b q, octets s -> octets t ->
  message_bits s = p ++ a ++ q -> message_bits t = p ++ b ++ q ->
  List.length a = List.length b -> (List.length a <= 32)%nat -> a <> b ->
  cache_name s <> cache_name t.
Proof.
  intros s t p a b q Hs Ht Es Et E L Nab H. apply cache_iff in H as [_ H].
  exact (crc_burst s t p a b q Hs Ht Es Et E L Nab H).
Qed.
Print Assumptions C93_burst.

Theorem C93_four : forall p a b q, octets p -> octets a -> octets b -> octets q ->
  List.length a = List.length b -> (List.length a <= 4)%nat -> a <> b ->
  cache_name (p ++ a ++ q) <> cache_name (p ++ b ++ q).
Proof.
  intros p a b q Hp Ha Hb Hq E L Nab.
  apply (C93_burst _ _ (message_bits p) (message_bits a) (message_bits b) (message_bits q)).
  - unfold octets in *. rewrite !Forall_app. auto.
  - unfold octets in *. rewrite !Forall_app. auto.
  - rewrite !message_app. reflexivity.
  - rewrite !message_app. reflexivity.
  - rewrite !message_length. lia.
  - rewrite message_length. lia.
  - intros X. apply Nab, message_inj; assumption.
Qed.
Print Assumptions C93_four.

(** Two texts of one length with the same checksum give locations that share their
    cache file whatever stands before and after them, if the text after the last slash
    is not touched. *)
Theorem C93_inside : forall u v, octets u -> octets v -> List.length u = List.length v ->
  crc32 u = crc32 v -> forall p q f, octets p -> octets q -> octets f -> no_slash f ->
  cache_name (p ++ u ++ q ++ str "/" ++ f) = cache_name (p ++ v ++ q ++ str "/" ++ f).
Proof.
  intros u v Hu Hv L E p q f Hp Hq Hf Nf. apply cache_iff. apply crc32_iff in E. split.
  - change (str "/") with [47]. rewrite !(app_assoc _ _ ([47] ++ f)), !(app_assoc p), !name_after by exact Nf. reflexivity.
  - apply crc_inside; try assumption. unfold octets in *. rewrite !Forall_app. repeat split; try assumption.
    repeat constructor.
Qed.
Print Assumptions C93_inside.

(** A location of an archive and its cache file: the checksum is the one of the standards. *)
Definition rib_url : bytes :=
  str "http://archive.routeviews.org/route-views.chile/bgpdata/2023.03/RIBS/rib.20230326.0600.bz2".
Example C93_ex :
  octets rib_url /\ crc32 (str "Hello, World!") = str "ec4ac3d0" /\
  number (checksum (message_bits (str "123456789"))) = 3421780262 /\
  file_name rib_url = str "rib.20230326.0600.bz2" /\
  cache_name rib_url = str "cache-rib.20230326.0600.77b9230e.bz2" /\
  cache_name (str "updates") = str "cache-updates.45481330".
Proof.
  split; [unfold octets; apply Forall_forall; intros x I; revert x I; apply Forall_forall; repeat constructor |].
  vm_compute. repeat split.
Qed.
Example C93_ex_burst : cache_name (str "http://a/rib.0600.bz2") <> cache_name (str "http://b/rib.0600.bz2").
Proof.
  apply (C93_four (str "http://") (str "a") (str "b") (str "/rib.0600.bz2"));
    try (unfold octets; apply Forall_forall; intros x I; revert x I; apply Forall_forall; repeat constructor);
    try reflexivity; [cbn; lia | discriminate].
Qed.

(** Findings.  Different locations can share a cache file, so that the second is
    answered with what was fetched from the first: the comment at utils.rs:353-354
    calls the checksum "sufficient for generating unique file names". *)
Theorem C93_unique_refuted : exists p q,
  p = str "http://plumless/rib.gz" /\ q = str "http://buckeroo/rib.gz" /\ p <> q /\ cache_name p = cache_name q.
Proof. exists (str "http://plumless/rib.gz"), (str "http://buckeroo/rib.gz"). repeat split; vm_compute; congruence. Qed.
Print Assumptions C93_unique_refuted.

(** The name is not the documented [cache-<crc32 of file name>-<file name>]
    (mod.rs:127-129), for any location, whether the checksum is taken of the location or
    of the file name; nor is it the documented one for the documented location. *)
Theorem C93_documented_refuted :
  (forall p, cache_name p <> str "cache-" ++ crc32 p ++ str "-" ++ file_name p) /\
  (forall p, cache_name p <> str "cache-" ++ crc32 (file_name p) ++ str "-" ++ file_name p) /\
  cache_name rib_url <> str "cache-682cb1eb-rib.20230326.0600.bz2".
Proof.
  refine (conj _ (conj _ _)).
  - intros p E. apply app_inv_head in E. apply not_dashed in E; [exact E | |]; apply hex8_no, dot_hex.
  - intros p E. apply app_inv_head in E. apply not_dashed in E; [exact E | |]; apply hex8_no, dot_hex.
  - vm_compute. congruence.
Qed.
Print Assumptions C93_documented_refuted.
