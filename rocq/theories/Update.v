(** Iterators over announcements (/repo/src/parser/iters/update.rs). *)
From Verif Require Import Base Net AsPath Attr BgpMsg Bgp4mp TableDump Stream Framing MrtRecord Elem Filter Iter.

(** update.rs:56-126 [Bgp4MpUpdate], [LegacyBgpUpdate], [TableDumpV2Entry], [MrtUpdate]. *)
Inductive mrt_update :=
| UMp (t : f64) (peer : ip) (peer_as : asn) (m : update_msg)
| ULegacy (t : f64) (peer : ip) (peer_as : asn) (local : ip) (local_as : asn) (m : update_msg)
| URib (t : f64) (ty : N) (seq : N) (p : prefix) (l : list rib_entry)
| UDump (d : dump).
(** update.rs:128-138 [timestamp]. *)
Definition update_time (u : mrt_update) : f64 :=
  match u with UMp t _ _ _ => t | ULegacy t _ _ _ _ _ => t | URib t _ _ _ _ => t | UDump d => f64_of_N (td_time d) end.
(** update.rs:149-153, 303-307: the parser, the elementor, and the table dump entries to come,
    last first. *)
Definition update_state := (parser * elementor * list dump)%type.
(** [Vec::pop]. *)
Definition pop {A} (l : list A) : option (A * list A) := match rev l with [] => None | a :: r => Some (a, rev r) end.
(** update.rs:215-293, 334-393: what a record gives, or the new elementor and pending entries
    to go on with. *)
Definition of_record (r : mrt_record) (el : elementor) (pend : list dump) : mrt_update + (elementor * list dump) :=
  let t := record_time (mr_hdr r) in
  match mr_msg r with
  | MrtBgp4mp (MpMessage m) =>
      match mm_bgp m with MUpdate u => inl (UMp t (mm_peer m) (mm_peer_as m) u) | _ => inr (el, pend) end
  | MrtBgp4mp (MpStateChange _) => inr (el, pend)
  | MrtLegacy (LgMessage m) =>
      match lg_bgp m with
      | MUpdate u => inl (ULegacy t (lg_peer m) (lg_peer_as m) (lg_local m) (lg_local_as m) u)
      | _ => inr (el, pend)
      end
  | MrtLegacy (LgStateChange _) => inr (el, pend)
  | MrtV2 (V2Peers p) => inr (Some p, pend)
  | MrtV2 (V2Rib b) => inl (URib t (rb_type b) (rb_seq b) (rb_prefix b) (rb_entries b))
  | MrtV2 V2Generic => inr (el, pend)
  | MrtV2 (V2Geo _) => inr (el, pend)
  | MrtDump d => inl (UDump d)
  | MrtDumps l => inr (el, rev l)
  end.
(** update.rs:180-212: the error policy, spelled out once more. *)
Definition update_policy (p : parser) (e : perr) (c : option bytes) : bool * parser :=
  match e with
  | ETrunc | EUnsup => (true, write_dump p c)
  | EParse => if pr_core p then (false, write_dump p c) else (true, write_dump p c)
  | EEofExpected => (false, p)
  | EIo | EEof => (false, write_dump p c)
  | ELabLen | ELabTrunc | ETruncPfx | EMaxLabel | EPeerMax | EInvPfx => (true, p)
  | _ => (false, p)
  end.
(** update.rs:165-295 [UpdateIterator::next]. *)
Fixpoint update_loop (fuel : nat) (st : update_state) : res (option mrt_update * update_state) :=
  match fuel with
  | O => Panic
  | S f =>
      let '(p, el, pend) := st in
      match pop pend with
      | Some (d, pend') => Ok (Some (UDump d), (p, el, pend'))
      | None =>
          match next_record p with
          | NPanic => Panic
          | NErr e c p' =>
              let '(go, p'') := update_policy p' e c in
              if go then update_loop f (p'', el, pend) else Ok (None, (p'', el, pend))
          | NRec r p' =>
              match of_record r el pend with
              | inl u => Ok (Some u, (p', el, pend))
              | inr (el', pend') => update_loop f (p', el', pend')
              end
          end
      end
  end.
Definition update_next (st : update_state) : res (option mrt_update * update_state) :=
  match pr_text (fst (fst st)) with
  | Some _ => Ok (None, st)
  | None => update_loop (S (S (ssize (pr_stream (fst (fst st)))))) st
  end.
(** iters/mod.rs:269-271 [into_update_iter], drained with [fuel] steps at most. *)
Definition update_list (fuel : nat) (p : parser) : res (list mrt_update) := collect update_next fuel (p, None, []).
(** update.rs:319-403 [FallibleUpdateIterator::next]. *)
Fixpoint fupdate_loop (fuel : nat) (st : update_state) : res (option (item mrt_update) * update_state) :=
  match fuel with
  | O => Panic
  | S f =>
      let '(p, el, pend) := st in
      match pop pend with
      | Some (d, pend') => Ok (Some (inl (UDump d)), (p, el, pend'))
      | None =>
          match next_record p with
          | NPanic => Panic
          | NErr EEofExpected _ p' => Ok (None, (p', el, pend))
          | NErr e c p' => Ok (Some (inr (e, c)), (p', el, pend))
          | NRec r p' =>
              match of_record r el pend with
              | inl u => Ok (Some (inl u), (p', el, pend))
              | inr (el', pend') => fupdate_loop f (p', el', pend')
              end
          end
      end
  end.
Definition fupdate_next (st : update_state) : res (option (item mrt_update) * update_state) :=
  match pr_text (fst (fst st)) with
  | Some _ => Ok (None, st)
  | None => fupdate_loop (S (S (ssize (pr_stream (fst (fst st)))))) st
  end.
(** iters/mod.rs:356-358 [into_fallible_update_iter], drained. *)
Definition fupdate_list (fuel : nat) (p : parser) : res (list (item mrt_update)) := collect fupdate_next fuel (p, None, []).
