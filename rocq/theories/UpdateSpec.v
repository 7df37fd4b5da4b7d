(** Vocabulary of the theorems about update iteration. *)
From Verif Require Import Base Net AsPath Attr BgpMsg Bgp4mp TableDump Framing MrtRecord Elem ElemSpec Update.

(** The announcements of a record. *)
Definition updates_of (r : mrt_record) : list mrt_update :=
  let t := record_time (mr_hdr r) in
  match mr_msg r with
  | MrtBgp4mp (MpMessage (MpMsg _ pa _ _ pi _ (MUpdate u))) => [UMp t pi pa u]
  | MrtLegacy (LgMessage m) =>
      match lg_bgp m with MUpdate u => [ULegacy t (lg_peer m) (lg_peer_as m) (lg_local m) (lg_local_as m) u] | _ => [] end
  | MrtV2 (V2Rib b) => [URib t (rb_type b) (rb_seq b) (rb_prefix b) (rb_entries b)]
  | MrtDump d => [UDump d]
  | MrtDumps l => map UDump l
  | _ => []
  end.
(** The elements of an announcement, given the peer table. *)
Definition elems_of_update (t : option peer_table) (u : mrt_update) (l : list elem) : Prop :=
  match u with
  | UMp tm pi pa m | ULegacy tm pi pa _ _ m => update_elems m tm pi pa l
  | URib _ _ _ p es =>
      match t with
      | Some t => Forall2 (fun x e => rib_elem p (fst x) (snd x) e) (known_entries t es) l
      | None => l = []
      end
  | UDump d => exists e, l = [e] /\ dump_elem d e
  end.
(** The announcements of a record, with the peer table in force. *)
Definition with_table (x : option peer_table * mrt_record) : list (option peer_table * mrt_update) := map (pair (fst x)) (updates_of (snd x)).
