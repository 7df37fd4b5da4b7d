(** C72: iteration over announcements. *)
From Verif Require Import Base Net AsPath Community Attr BgpMsg Bgp4mp TableDump Stream Framing MrtRecord Elem ElemSpec Filter Iter IterSpec IterFacts Update UpdateSpec UpdateFacts PropMrtRecord PropElem PropFilter PropIter.

(** Update iteration ends on every MRT source; it gives the announcements of the records of
    unfiltered record iteration, in their order, and the fallible one those and the errors of
    unfiltered fallible record iteration. *)
Theorem C72_updates show p : pr_text p = None -> exists rs items n,
  record_list show (unfiltered p) = Ok rs /\ frecord_list show (unfiltered p) = Ok items /\
  forall fuel, (n <= fuel)%nat -> update_list fuel p = Ok (flat_map updates_of rs) /\ fupdate_list fuel p = Ok (flat_map (map_item updates_of) items).
Proof. exact (updates_of_records show p). Qed.
Print Assumptions C72_updates.
(** Expanding each announcement, under the last peer table before it, gives the elements of
    unfiltered element iteration: nothing is lost, added or reordered. *)
Theorem C72_elems show p : pr_text p = None -> exists rs ls n, record_list show (unfiltered p) = Ok rs /\
  Forall2 (fun x l => elems_of_update (fst x) (snd x) l) (flat_map with_table (annotate None rs)) ls /\
  forall fuel, (n <= fuel)%nat ->
    update_list fuel p = Ok (map snd (flat_map with_table (annotate None rs))) /\ elem_list show fuel (unfiltered p) = Ok (concat ls).
Proof. exact (updates_elems show p). Qed.
Print Assumptions C72_elems.
(** The time of an announcement is the time of each of its elements, except for RIB entries,
    which have times of their own. *)
Theorem C72_times t u l : elems_of_update t u l -> match u with URib _ _ _ _ _ => True | _ => Forall (fun e => e_time e = update_time u) l end.
Proof. exact (update_times t u l). Qed.
Print Assumptions C72_times.
(** Text dumps hold no announcements. *)
Theorem C72_text p l fuel : pr_text p = Some l -> (0 < fuel)%nat -> update_list fuel p = Ok [] /\ fupdate_list fuel p = Ok [].
Proof. exact (update_text p l fuel). Qed.
Print Assumptions C72_text.

(** ** A source with a peer table, a RIB record, an unsupported record, UPDATEs, a record of
    unknown type, a batch of two TABLE_DUMP entries and a cut record. *)
Definition batch : mrt_record :=
  MrtRecord (Hdr 3 None 12 1 0) (MrtDumps [ex_dump; Dump 1 2 (Pfx (Net (V4 0x0B000000) 8) None) 1 4 (V4 5) 6 (attrs_of_list [])]).
Definition feed (fs : list filter) (core : bool) : parser := Parser [Data (enc batch ++ ex_bytes)] fs core None None.
Definition sort_of (u : mrt_update) : N * N :=
  match u with UMp _ _ a _ => (1, a) | ULegacy _ _ a _ _ _ => (2, a) | URib _ _ s _ l => (3, nlen l) | UDump d => (4, td_asn d) end.
Definition sorts (r : res (list mrt_update)) : option (list (N * N)) := match r with Ok l => Some (map sort_of l) | _ => None end.
Definition fsorts (r : res (list (item mrt_update))) : option (list (N * N + perr)) :=
  match r with Ok l => Some (map (fun x => match x with inl u => inl (sort_of u) | inr (e, _) => inr e end) l) | _ => None end.
Example C72_ex :
  sorts (update_list 30 (feed [] false)) = Some [(4, 5); (4, 6); (3, 2); (1, 400000); (1, 400000)] /\
  sorts (update_list 30 (feed [] true)) = Some [(4, 5); (4, 6); (3, 2); (1, 400000)] /\
  fsorts (fupdate_list 30 (feed [] false)) = Some [inl (4, 5); inl (4, 6); inl (3, 2); inr EUnsup; inl (1, 400000); inr EParse; inl (1, 400000); inr EIo] /\
  asns (elem_list show_nothing 30 (feed [] false)) = Some [5; 6; 64502; 64500; 400000; 400000].
Proof. repeat split; vm_compute; reflexivity. Qed.
(** Finding: the filters of the parser have no effect on update iteration, although they are
    set on the parser itself: here no element passes, and every announcement is given. *)
Theorem C72_filters_refuted : exists p, pr_filters p = [FPeerAsn 1] /\
  asns (elem_list show_nothing 30 p) = Some [] /\ sorts (update_list 30 p) = Some [(4, 5); (4, 6); (3, 2); (1, 400000); (1, 400000)].
Proof. exists (feed [FPeerAsn 1] false). repeat split; vm_compute; reflexivity. Qed.
Print Assumptions C72_filters_refuted.
