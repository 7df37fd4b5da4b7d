(** C30: the iterator over the elements of a record stays at its end. *)
From Verif Require Import Base BaseFacts Net AsPath Attr TableDump BgpMsg Bgp4mp Framing MrtRecord Elem.

(** After the first [None], whatever ended it, the iterator gives nothing but [None]. *)
Inductive given_after : rec_iter -> option elem -> Prop :=
| ga_next i e i' : rec_next i = Ok (e, i') -> given_after i e
| ga_later i e i' x : rec_next i = Ok (e, i') -> given_after i' x -> given_after i x.
Definition ended (i : rec_iter) : Prop :=
  match i with RIEmpty | RIDump None | RIBatch [] | RIRib _ _ [] => True | RIBgp u => ui_phase u = true /\ ui_wd u = [] | _ => False end.
Lemma ended_after i i' : rec_next i = Ok (None, i') -> ended i'.
Proof.
  intros H. destruct i as [|[e|]|[|m l]|t p [|e l]|u]; cbn [rec_next] in H; try discriminate H.
  1-4: injection H as <-; exact I.
  - destruct (get_peer_by_id t (re_peer e)) as [pe|]; [|injection H as <-; exact I]. destruct (rib_entry_to_elem p pe e); cbn [rbind] in H; discriminate H.
  - destruct (upd_next u) as [e u'] eqn:U. assert (e = None) by congruence. assert (i' = RIBgp u') by congruence. subst e i'. cbn [ended].
    unfold upd_next in U. destruct u as [m a w ph]. cbn [ui_phase ui_ann ui_wd ui_model] in U. destruct ph; [destruct w; [|discriminate U]|destruct a; [|discriminate U]; destruct w; [|discriminate U]];
      assert (E : u' = UpdIter m _ [] true) by (symmetry; exact (f_equal snd U)); subst u'; auto.
Qed.
Lemma ended_stays i e i' : ended i -> rec_next i = Ok (e, i') -> e = None /\ ended i'.
Proof.
  intros E H. assert (e = None).
  { destruct i as [|[x|]|[|m l]|t p [|x l]|u]; cbn [ended rec_next] in *; try contradiction; try congruence.
    destruct E as (P & W). unfold upd_next in H. rewrite P, W in H. congruence. }
  subst e. split; [reflexivity|]. eapply ended_after. exact H.
Qed.
Theorem C30_stays_ended i i' x : rec_next i = Ok (None, i') -> given_after i' x -> x = None.
Proof.
  intros H G. apply ended_after in H. induction G as [i0 e j K|i0 e j y K G IH]; destruct (ended_stays _ _ _ H K) as (A & B); auto.
Qed.
Print Assumptions C30_stays_ended.
(** An entry of a peer that the table does not list ends it, though an entry it lists follows. *)
Example C30_ex_stays : let t := PeerTable 0 [] [(3, Peer 0 1 (V4 2) 65000)] [] in let e k := RibEntry k 0 None (Attrs [] [] 0) in
  let i l := RIRib t (Pfx (Net (V4 0) 0) None) l in
  (exists x i', rec_next (i [e 3]) = Ok (Some x, i')) /\ exists i', rec_next (i [e 7; e 3]) = Ok (None, i') /\ given_after i' None.
Proof. cbv zeta. split; [do 2 eexists; reflexivity|]. eexists. split; [reflexivity|]. eapply ga_next. reflexivity. Qed.
