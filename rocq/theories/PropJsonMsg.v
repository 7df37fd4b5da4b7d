(** C98: the JSON forms of path attributes and of BGP messages. *)
From Coq Require Import String Lia Sorting.Permutation.
From Verif Require Import Tac Base BaseFacts Net NetSpec AsPath Community Mpls FlowSpec Tlv LinkState Nlri Attr Cap BgpError BgpMsg Elem Text Filter TextDump Json JsonSpec JsonMsg JsonMsgSpec JsonMsgFacts JsonMsgReadFacts PropAttr PropJson.
Local Open Scope string_scope. Local Open Scope list_scope. Local Open Scope N_scope.

(** C98.  A BGP message written as JSON and read back is the same message, in whatever order the
    entries of link-state attributes are written; of an UPDATE the warnings are dropped. *)
Theorem C98_message ps tx ord m : texts_ok ps tx -> any_order ord -> msg_ranged m -> msg_kept m ->
  exists n, de_msg ps (ser_msg tx ord m) = Some n /\ same_msg m n.
Proof. exact (msg_ok_ ps tx ord m). Qed.
Print Assumptions C98_message.
(** The same for attributes alone: the list is read back, with every flag octet. *)
Theorem C98_attributes ps tx ord a : texts_ok ps tx -> any_order ord -> Forall attr_in (at_inner a) -> Forall attr_kept (at_inner a) ->
  exists b, de_attrs ps (ser_attrs tx ord a) = Some b /\ plain_attrs (at_inner a) b.
Proof. intros T O A K. exact (ex_intro _ _ (conj (attrs_ok_ ps tx ord a T O A K) (plain_list (at_inner a)))). Qed.
Print Assumptions C98_attributes.
(** The same for reachability information of every family. *)
Theorem C98_nlri ps tx n : texts_ok ps tx -> nlri_ranged n -> de_nlri ps (ser_nlri tx n) = Some n.
Proof. exact (nlri_ok_ ps tx n). Qed.
Print Assumptions C98_nlri.
(** Any flag octet is written as its words, and read back. *)
Theorem C98_flags f : u8v f -> ser_flags f = JText (join (str " | ") (flag_words_of f)) /\ de_flags (ser_flags f) = Some f.
Proof. intros H. exact (conj (flags_text f H) (flags_ok f H)). Qed.
Print Assumptions C98_flags.
(** Whatever JSON is read, each number of the message is in the range of its field, and the types
    that the attributes claim to have are those of the list. *)
Theorem C98_in_range ps j m : parsers_typed ps -> de_msg ps j = Some m -> msg_ranged m /\ same_msg m m.
Proof. exact (msg_in ps j m). Qed.
Print Assumptions C98_in_range.
(** What is read can be written and read again: only floats and paths can stand against it. *)
Theorem C98_again ps tx ord j m : texts_ok ps tx -> parsers_typed ps -> any_order ord -> de_msg ps j = Some m -> msg_kept m ->
  exists n, de_msg ps (ser_msg tx ord m) = Some n /\ same_msg m n.
Proof. intros T P O D K. exact (msg_ok_ ps tx ord m T O (proj1 (msg_in ps j m P D)) K). Qed.
Print Assumptions C98_again.
(** The names of the members. *)
Theorem C98_names tx ord a m : av_ranged (a_value a) ->
  (exists v f, ser_attr tx ord a = JObject [(str "value", v); (str "flag", f)] /\
     match a_value a with AAtomicAggregate => v = JText (str "AtomicAggregate") | _ => exists x, v = JObject [(str (attr_word (a_value a)), x)] end) /\
  match m with
  | MKeepAlive => ser_msg tx ord m = JText (str "KeepAlive")
  | _ => exists b, ser_msg tx ord m = JObject [(str (msg_word m), b)] /\ members b = map str (msg_members m)
  end.
Proof.
  intros R. split.
  - do 2 eexists. split; [reflexivity|]. destruct (a_value a); try reflexivity; try (contradiction R); eexists; reflexivity.
  - destruct m; try reflexivity; eexists; split; reflexivity.
Qed.
Print Assumptions C98_names.
Theorem C98_families tx n : exists a s l,
  ser_nlri tx n = JObject ((str "afi", JText a) :: (str "safi", JText s) :: l) /\
  a = str (match nl_afi n with AIpv4 => "Ipv4" | AIpv6 => "Ipv6" | ALinkState => "LinkState" end) /\
  s = str (match nl_safi n with
           | SUnicast => "Unicast" | SMulticast => "Multicast" | SMulticastUnicast => "UnicastMulticast" | SMplsLabel => "MplsLabel"
           | SLinkState => "LinkState" | SLinkStateVpn => "LinkStateVpn" | SMplsVpn => "MplsVpn" | SMulticastVpn => "MulticastVpn"
           | SFlowSpec => "FlowSpec" | SFlowSpecVpn => "FlowSpecL3Vpn"
           end).
Proof. do 3 eexists. split; [reflexivity|]. split; [destruct (nl_afi n)|destruct (nl_safi n)]; reflexivity. Qed.
Print Assumptions C98_families.

(** An UPDATE with a warning, flags without a name, a link-state attribute of two entries (written
    in reverse), a labelled prefix, a flow specification and a link, and an OPEN. *)
Definition ex_links : ls_nlri :=
  LsNlri 2 3 (2 ^ 63) (NodeDesc (Some 64500) None (Some 0) (Some [10; 0; 0; 1]) []) (Some (NodeDesc None None None None [Tlv 600 [1; 2]]))
    (Some (LinkDesc (Some (1, 2)) (Some 167772161) None None (Some (2 ^ 127)) (Some 2) [])) None.
Definition ex_json_attrs : attributes :=
  Attrs [Attr (AOrigin EGP) 0x40; Attr (AAsPath ex_short) 0x4F; Attr AAtomicAggregate 0x40;
         Attr (AExtCommunities [XLinkBandwidth true 3 1065353216]) 0xC0;
         Attr (AMpReach (Nlri AIpv6 SMplsLabel (Some (NH6L 1 2)) [] (Some [Labeled (Net (V6 (2 ^ 125)) 3) [16; 1048575] (Some 9)]) None None)) 0x90;
         Attr (AMpUnreach (Nlri AIpv4 SFlowSpec None [] None None (Some [[FDestPrefix (Pfx (Net (V4 167772160) 8) None); FPort [NumOp true false 1 false true true 443]]]))) 0x80;
         Attr (AMpUnreach (Nlri ALinkState SLinkState None [] None (Some [ex_links]) None)) 0x80;
         Attr (ALinkStateAttr (LsAttr [(1026, [114; 49]); (1028, [1; 2; 3; 4])] [(1095, [10])] [] [Tlv 9999 [7]])) 0x80;
         Attr (ATrafficEng (TE 1 2 0 [0; 1065353216; 0; 0; 0; 0; 0; 0] [5])) 0x80; Attr (AUnknown 99 [1; 255]) 0xE0]
    [WMissing 3] 6.
Definition ex_json_update : bgp_msg := MUpdate (Update [Pfx (Net (V4 167772160) 8) (Some 7)] ex_json_attrs []).
Definition ex_json_open : bgp_msg :=
  MOpen (Open 4 4200000000 180 16909060 true [Param 2 (PvCaps [Cap 1 (CvMp AIpv6 SUnicast); Cap 64 (CvRestart (Gr true 4095 [GrF AIpv4 SUnicast true])); Cap 200 (CvRaw [9])])]).
Definition ex_json_read : bgp_msg := MUpdate (Update [Pfx (Net (V4 167772160) 8) (Some 7)] (attrs_of_list (at_inner ex_json_attrs)) []).
Lemma ex_json_back : de_msg ex_ps (ser_msg ex_tx (@rev _) ex_json_update) = Some ex_json_read /\
  de_msg ex_ps (ser_msg ex_tx (@rev _) ex_json_open) = Some ex_json_open.
Proof. split; vm_compute; reflexivity. Qed.
Example C98_ex : texts_ok ex_ps ex_tx /\ parsers_typed ex_ps /\ any_order (@rev _) /\ msg_ranged ex_json_update /\ msg_kept ex_json_update /\
  msg_ranged ex_json_open /\ msg_kept ex_json_open /\
  ser_flags 0x4F = JText (str "TRANSITIVE | 0xf") /\
  de_msg ex_ps (ser_msg ex_tx (@rev _) ex_json_update) = Some ex_json_read /\ ex_json_read <> ex_json_update /\
  de_msg ex_ps (ser_msg ex_tx (@rev _) ex_json_open) = Some ex_json_open.
Proof.
  split; [apply ex_texts|]. split; [apply ex_texts|]. split; [intros l; symmetry; apply Permutation_rev|].
  split; [exact (proj1 (C98_in_range _ _ _ (proj2 ex_texts) (proj1 ex_json_back)))|]. split.
  { cbn [msg_kept ex_json_update u_attrs ex_json_attrs at_inner]. repeat apply Forall_cons; try exact I; try apply Forall_nil; cbn [attr_kept a_value av_kept te_bw].
    all: first [apply C80_ex|repeat constructor; discriminate]. }
  split; [exact (proj1 (C98_in_range _ _ _ (proj2 ex_texts) (proj2 ex_json_back)))|]. split; [exact I|]. split; [reflexivity|].
  split; [apply ex_json_back|]. split; [|apply ex_json_back]. intros E. apply (f_equal (fun m => match m with MUpdate u => at_warnings (u_attrs u) | _ => [] end)) in E. discriminate.
Qed.

(** Finding: the warnings of a parsed message are lost. *)
Theorem C98_warnings_refuted : exists k s a, parse_attributes k s = Ok a /\ at_warnings a <> [] /\
  forall ps tx ord, any_order ord -> exists b, de_attrs ps (ser_attrs tx ord a) = Some b /\ at_inner b = at_inner a /\ at_warnings b = [] /\ b <> a.
Proof.
  exists k4, [0xC0; 1; 1; 0]. eexists. split; [reflexivity|]. split; [discriminate|]. intros ps tx ord O. eexists. split; [reflexivity|]. split; [reflexivity|]. split; [reflexivity|]. discriminate.
Qed.
Print Assumptions C98_warnings_refuted.
(** Finding: an attribute that was cut off and dropped is still recorded as present; after JSON it
    is not, so that the two differ in the warnings about missing attributes. *)
Theorem C98_mask_refuted : exists k s a, parse_attributes k s = Ok a /\ has_attr a 2 = true /\
  forall ps tx ord, exists b, de_attrs ps (ser_attrs tx ord a) = Some b /\ has_attr b 2 = false /\
    In (WMissing 2) (at_warnings (check_mandatory b true true)) /\ ~ In (WMissing 2) (at_warnings (check_mandatory a true true)).
Proof.
  exists k4, [0x40; 2; 6; 2; 1]. eexists. split; [reflexivity|]. split; [reflexivity|]. intros ps tx ord. eexists. split; [reflexivity|]. split; [reflexivity|].
  split; [vm_compute; tauto|]. vm_compute. intros [E|[E|[]]]; discriminate.
Qed.
Print Assumptions C98_mask_refuted.
(** Finding: a bandwidth that is not finite is written as null, and then nothing of the attributes
    can be read. *)
Theorem C98_bandwidth_refuted : exists k s a, parse_attributes k s = Ok a /\ Forall attr_in (at_inner a) /\
  forall ps tx ord, de_attrs ps (ser_attrs tx ord a) = None.
Proof.
  exists k4, [0xC0; 16; 8; 0x40; 4; 0xFB; 0xF4; 0x7F; 0x80; 0; 0]. eexists. split; [reflexivity|]. split.
  - repeat constructor.
  - intros ps tx ord. reflexivity.
Qed.
Print Assumptions C98_bandwidth_refuted.
(** Finding: a labelled prefix without labels, which the constructor refuses, is read from JSON. *)
Theorem C98_labels_refuted : exists ps j n, de_nlri ps j = Some n /\ exists p, nl_labeled n = Some [p] /\
  labeled_try_new (lp_net p) (lp_labels p) (lp_id p) = None.
Proof.
  exists ex_ps, (ser_nlri ex_tx (Nlri AIpv4 SMplsLabel None [] (Some [Labeled (Net (V4 167772160) 8) [] None]) None None)). eexists.
  split; [vm_compute; reflexivity|]. eexists. split; reflexivity.
Qed.
Print Assumptions C98_labels_refuted.
