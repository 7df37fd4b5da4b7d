(** The two MRT encoders fed with elements (/repo/src/encoder/rib_encoder.rs,
    /repo/src/encoder/updates_encoder.rs). *)
From Coq Require Import Floats.SpecFloat.
From Verif Require Import Base Net Attr BgpMsg Bgp4mp TableDump Framing MrtRecord Elem Bmp.

(** rib_encoder.rs:96-108, 128-140, updates_encoder.rs:56-69: a record, its header written
    by hand; the length is [data_bytes.len() as u32]. *)
Definition export_record (s : N) (us : option N) (ty sub : N) (m : mrt_message) : res bytes :=
  b <~ encode_mrt_message sub m ;; h <~ encode_header (Hdr s us ty sub (u32 (nlen b))) ;; Ok (h ++ b).
(** The buffer of a loop that appends records and gives up at the first error. *)
Fixpoint append_all (l : list (res bytes)) : res bytes :=
  match l with [] => Ok [] | r :: l' => b <~ r ;; bs <~ append_all l' ;; Ok (b ++ bs) end.

(** rib_encoder.rs:27-34 [MrtRibEncoder]; maps are association lists. *)
Record rib_encoder := RibEncoder {
  rn_table : peer_table; rn_map : list (ipnet * list (N * rib_entry)); rn_time : f64 }.
(** rib_encoder.rs:37-45 [new], [reset]. *)
Definition rib_new : rib_encoder := RibEncoder empty_table [] (S754_zero false).
(** rib_encoder.rs:60-64: the peer of an element; [four] is [peer_asn.is_four_byte()], which
    elements of the model do not carry. *)
Definition elem_peer (four : bool) (e : elem) : peer :=
  peer_new (match e_peer e with V4 n => n | V6 _ => 0 end) (e_peer e) (e_asn e) four.
(** rib_encoder.rs:70-75: the entry of an element. *)
Definition elem_entry (idx : N) (e : elem) : rib_entry :=
  RibEntry idx (f64_to_u32 (e_time e)) (p_id (e_prefix e)) (attributes_of_elem e).
(** rib_encoder.rs:56-78 [process_elem]: the result and the encoder afterwards. *)
Definition rib_process (x : rib_encoder) (four : bool) (e : elem) : res unit * rib_encoder :=
  let t := if SFeqb (rn_time x) (S754_zero false) then e_time e else rn_time x in
  match add_peer (rn_table x) (elem_peer four e) with
  | (Ok idx, tab) =>
      let n := p_net (e_prefix e) in
      let old := match map_get ipnet_eqb n (rn_map x) with Some m => m | None => [] end in
      (Ok tt, RibEncoder tab (map_insert ipnet_eqb n (map_insert N.eqb idx (elem_entry idx e) old) (rn_map x)) t)
  | (Err r, tab) => (Err r, RibEncoder tab (rn_map x) t)
  | (Panic, tab) => (Panic, RibEncoder tab (rn_map x) t)
  end.
(** rib_encoder.rs:18-25 [rib_type_for_prefix]. *)
Definition rib_type_for_prefix (n : ipnet) (ap : bool) : N :=
  match is_v4 (net_addr n), ap with
  | false, true => 10 | false, false => 4 | true, true => 8 | true, false => 2
  end.
(** rib_encoder.rs:112-123: the record of a prefix; [i] counts the prefixes, the entries are in
    the order the map gives them. *)
Definition prefix_rib (i : nat) (n : ipnet) (l : list rib_entry) : rib :=
  let ap := existsb (fun r => match re_path r with Some _ => true | None => false end) l in
  Rib (rib_type_for_prefix n ap) (u32 (N.of_nat i)) (Pfx n None) l.
(** rib_encoder.rs:92-141: the records, for one order [o] of iteration over the maps. *)
Definition rib_parts (x : rib_encoder) (o : list (ipnet * list rib_entry)) : list (res bytes) :=
  let s := fst (convert_timestamp (rn_time x)) in
  export_record s None 13 1 (MrtV2 (V2Peers (rn_table x))) ::
  map (fun p => let b := prefix_rib (fst p) (fst (snd p)) (snd (snd p)) in export_record s None 13 (rb_type b) (MrtV2 (V2Rib b)))
    (combine (seq 0 (length o)) o).
(** rib_encoder.rs:89-146 [export_bytes]: the bytes and the encoder afterwards, which is reset
    unless encoding failed. *)
Definition rib_export (x : rib_encoder) (o : list (ipnet * list rib_entry)) : res bytes * rib_encoder :=
  match append_all (rib_parts x o) with Ok b => (Ok b, rib_new) | r => (r, x) end.

(** parser/bgp/messages.rs:740-748 [From<&BgpElem> for BgpUpdateMessage]. *)
Definition update_of_elem (e : elem) : update_msg := Update [] (attributes_of_elem e) [].
(** updates_encoder.rs:35-54: the message of an element. *)
Definition elem_message (e : elem) : mrt_message :=
  MrtBgp4mp (MpMessage (MpMsg 4 (e_asn e) 0 0 (e_peer e) (match e_peer e with V4 _ => V4 0 | V6 _ => V6 0 end)
    (MUpdate (update_of_elem e)))).
(** updates_encoder.rs:56-69: its record. *)
Definition elem_record (e : elem) : res bytes :=
  let '(s, us) := convert_timestamp (e_time e) in export_record s (Some us) 17 4 (elem_message e).
(** updates_encoder.rs:13-29 [MrtUpdatesEncoder], [new], [reset], [process_elem]: the elements
    kept. *)
Definition upd_encoder := list elem.
Definition updates_process (x : upd_encoder) (e : elem) : upd_encoder := x ++ [e].
(** updates_encoder.rs:31-75 [export_bytes]: the bytes and the encoder afterwards. *)
Definition updates_export (x : upd_encoder) : res bytes * upd_encoder :=
  match append_all (map elem_record x) with Ok b => (Ok b, []) | r => (r, x) end.
