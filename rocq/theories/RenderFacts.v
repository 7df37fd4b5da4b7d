(** Proofs about the layered text: its lines. *)
From Coq Require Import String Sorting.Permutation Lia ZifyBool ZifyNat ZifyN.
From Verif Require Import Base Tac Net NetSpec AsPath Community CommunitySpec Mpls Nlri LinkState Tlv Attr BgpError Cap BgpMsg Bgp4mp TableDump Framing MrtRecord Elem
  Text Psv PsvSpec PsvFacts PsvCommFacts PsvLineFacts Render RenderSpec.
Local Open Scope string_scope.
Local Open Scope list_scope.
Local Open Scope N_scope.

(** * Lines *)
Lemma pad_deep d t : pad d ++ t = deep d t.
Proof. induction d as [|d IH]; [reflexivity|]. change (pad (S d) ++ t) with (32 :: 32 :: pad d ++ t). rewrite IH. reflexivity. Qed.
Lemma deep_app d a b : deep d a ++ b = deep d (a ++ b).
Proof. induction d as [|d IH]; [reflexivity|]. cbn [deep app]. rewrite IH. reflexivity. Qed.
Lemma deep_inj d a b : deep d a = deep d b -> a = b.
Proof. induction d as [|d IH]; [exact (fun E => E)|]. intros E. injection E as E. exact (IH E). Qed.
Lemma deep_S d t : deep (S d) t = deep d (32 :: 32 :: t).
Proof. induction d as [|d IH]; [reflexivity|]. cbn [deep] in *. rewrite IH. reflexivity. Qed.
Lemma unlines_app a b : unlines (a ++ b) = unlines a ++ unlines b.
Proof. apply flat_map_app. Qed.
Lemma unlines_ln d t : ln d t = unlines [deep d t].
Proof. unfold ln, unlines. cbn [flat_map]. rewrite app_nil_r, pad_deep, <- deep_app. reflexivity. Qed.
Lemma unlines_lns d l : flat_map (ln d) l = unlines (map (deep d) l).
Proof. induction l as [|t l IH]; [reflexivity|]. cbn [flat_map map]. rewrite IH, unlines_ln. symmetry. apply (unlines_app [deep d t]). Qed.
Lemma unlines_concat {A} (f : A -> bytes) (g : A -> list bytes) l : (forall x, f x = unlines (g x)) -> flat_map f l = unlines (flat_map g l).
Proof. intros F. induction l as [|x l IH]; [reflexivity|]. cbn [flat_map]. rewrite IH, F, unlines_app. reflexivity. Qed.
Lemma split_line l s : ~ In 10 l -> split_on 10 (l ++ 10 :: s) = l :: split_on 10 s.
Proof.
  induction l as [|x l IH]; intros H; [reflexivity|]. cbn [app split_on]. destruct (N.eqb_spec x 10) as [->|]; [exfalso; apply H; left; reflexivity|].
  rewrite IH by (intros I; apply H; right; exact I). reflexivity.
Qed.
Lemma lines_unlines l : Forall one_line l -> lines (unlines l) = l.
Proof.
  unfold lines. intros F. enough (E : split_on 10 (unlines l) = l ++ [[]]) by (rewrite E; apply removelast_last).
  induction F as [|x l H F IH]; [reflexivity|]. unfold unlines in *. cbn [flat_map]. rewrite <- app_assoc. cbn [app]. rewrite split_line by exact H. rewrite IH. reflexivity.
Qed.

(** * The layout as a list of lines *)
Definition sect (d : nat) (h : string) (l : list bytes) : list bytes := match l with [] => [] | _ => deep d (str h) :: map (deep (S d)) l end.
Definition lay_attrs (T : rtexts) (d : nat) (a : attributes) : list bytes :=
  sect d "ATTRIBUTES:" (map (attr_text T) (values a)) ++ sect d "WARNINGS:" (map (warn_text T) (at_warnings a)).
Definition count_line (n : N) (k e : string) : list bytes := if 0 <? n then [deep 1 (str k ++ dec n ++ str e)] else [].
Definition lay_update (T : rtexts) (u : update_msg) : list bytes :=
  let vs := values (u_attrs u) in
  sect 1 "WITHDRAWN:" (map (route_text T) (u_withdrawn u ++ flat_map mp_withdrawn vs)) ++
  sect 1 "ANNOUNCED:" (map (route_text T) (u_announced u ++ flat_map mp_announced vs)) ++
  sect 1 "ANNOUNCED (labeled):" (map (labeled_text T) (flat_map mp_labeled vs)) ++
  count_line (total ls_routes vs) "LINK_STATE_NLRI: " " entries (BGP-LS)" ++
  count_line (total fs_rules vs) "FLOWSPEC_NLRI: " " rules (RFC 8955)" ++
  lay_attrs T 1 (u_attrs u).
Definition lay_msg (T : rtexts) (m : bgp_msg) : list bytes :=
  match m with
  | MOpen o => [str "OPEN:"; deep 1 (str "VERSION: " ++ dec (o_version o)); deep 1 (str "MY_AS: " ++ dec (o_asn o));
      deep 1 (str "HOLD_TIME: " ++ dec (o_hold o) ++ str "s"); deep 1 (str "BGP_ID: " ++ sh_ip (rt T) (V4 (o_id o)))] ++
      match o_params o with [] => [] | _ => deep 1 (str "CAPABILITIES:") :: map (deep 2) (map cap_text (caps_in o)) end
  | MUpdate u => str "UPDATE:" :: lay_update T u
  | MNotif n => [str "NOTIFICATION:"; deep 1 (str "ERROR: " ++ rt_error T (nt_error n) ++ str " (" ++ dec (nlen (nt_data n)) ++ str " bytes of data)")]
  | MKeepAlive => [str "KEEPALIVE:"]
  | MRefresh r => [str "ROUTE_REFRESH:"; deep 1 (str "AFI: " ++ dec (rf_afi r) ++ str " SAFI: " ++ dec (rf_safi r) ++ str " SUBTYPE: " ++ dec (rf_subtype r))]
  end.
Definition lay_states (o n : bgp_state) : list bytes :=
  [str "STATE_CHANGE:"; deep 1 (str "OLD_STATE: " ++ state_name o); deep 1 (str "NEW_STATE: " ++ state_name n)].
Definition lay_end (T : rtexts) (k : string) (o : option (ip * asn)) : list bytes :=
  match o with Some x => [str k ++ end_text T x] | None => [] end.
Definition lay_dump (T : rtexts) (m : dump) : list bytes :=
  [str "RIB_ENTRY:"; deep 1 (str "PREFIX: " ++ route_text T (td_prefix m)); deep 1 (str "PEER: " ++ end_text T (td_peer m, td_asn m));
   deep 1 (str "ORIGINATED: " ++ dec (td_time m))] ++ lay_attrs T 1 (td_attrs m).
Definition lay_entry (T : rtexts) (e : rib_entry) : list bytes :=
  [deep 1 (str "RIB_ENTRY:"); deep 2 (str "PEER_INDEX: " ++ dec (re_peer e)); deep 2 (str "ORIGINATED: " ++ dec (re_time e))] ++ lay_attrs T 2 (re_attrs e).
Definition peer_line (T : rtexts) (x : N * peer) : bytes :=
  deep 1 (str "PEER[" ++ dec (fst x) ++ str "]: " ++ end_text T (pe_ip (snd x), pe_asn (snd x))).
Definition rib_line (T : rtexts) (r : rib) : bytes :=
  str "RIB_AFI: " ++ v2_name (rb_type r) ++ str " PREFIX: " ++ route_text T (rb_prefix r) ++ str " (" ++ dec (nlen (rb_entries r)) ++ str " entries)".
Definition lay_v2 (T : rtexts) (m : dump_v2) : list bytes :=
  match m with
  | V2Peers t => (str "PEER_INDEX_TABLE: " ++ dec (nlen (pt_peers t)) ++ str " peers") :: map (peer_line T) (sort_peers (pt_peers t))
  | V2Rib r => rib_line T r :: flat_map (lay_entry T) (rb_entries r)
  | V2Generic => [str "RIB_GENERIC:"]
  | V2Geo t => [str "GEO_PEER_TABLE: " ++ dec (nlen (gt_peers t)) ++ str " peers"]
  end.
Definition lay_body (T : rtexts) (r : mrt_record) : list bytes :=
  match mr_msg r with
  | MrtBgp4mp (MpMessage m) => lay_msg T (mm_bgp m)
  | MrtBgp4mp (MpStateChange m) => lay_states (ms_old m) (ms_new m)
  | MrtLegacy (LgMessage m) => lay_msg T (lg_bgp m)
  | MrtLegacy (LgStateChange m) => lay_states (ls_old m) (ls_new m)
  | MrtDump m => lay_dump T m
  | MrtDumps l => (str "TABLE_DUMP: " ++ dec (nlen l) ++ str " entries") :: flat_map (lay_dump T) l
  | MrtV2 m => lay_v2 T m
  end.
Definition clock (h : header) : bytes := match h_us h with Some us => dec (h_ts h) ++ str "." ++ six us | None => dec (h_ts h) end.
Definition lay (T : rtexts) (r : mrt_record) : list bytes :=
  [str "TIME: " ++ clock (mr_hdr r); str "TYPE: " ++ etype_name (h_type (mr_hdr r)) ++ str "/" ++ subtype_name r] ++
  lay_end T "FROM: " (from_in r) ++ lay_end T "TO: " (to_in r) ++ lay_body T r.

Lemma section_lines d h l : section_out d (str h) l = unlines (sect d h l).
Proof. destruct l as [|t l]; [reflexivity|]. unfold section_out, sect. rewrite unlines_ln, unlines_lns, <- unlines_app. reflexivity. Qed.
Lemma spaced_eq {A} (f : A -> bytes) l : spaced f l = join (str " ") (map f l).
Proof. reflexivity. Qed.
Lemma attr_line T v : render_attribute T v = attr_text T v.
Proof.
  destruct v; try reflexivity.
  - destruct o; reflexivity.
  - unfold render_attribute, attr_text, family_text. change (str "MP_REACH_NLRI: ") with (str "MP_REACH_NLRI" ++ str ": "). rewrite <- !app_assoc. do 5 f_equal. destruct (nl_next n) as [[]|]; reflexivity.
Qed.
Lemma warn_line T w : show_warning T w = warn_text T w.
Proof. destruct w as [c e a|c [e|] a|c|c|c e|c e|c e|[] e b|s|s n]; cbn [show_warning warn_text]; rewrite <- ?app_assoc, ?app_nil_r; reflexivity. Qed.
Lemma block_lines T d a : render_attributes_block T d a = unlines (lay_attrs T d a).
Proof.
  unfold render_attributes_block, lay_attrs, values. rewrite (map_ext (show_warning T) (warn_text T)) by (intros; apply warn_line). rewrite !section_lines, <- unlines_app, map_map. f_equal. f_equal. f_equal. apply map_ext. intros x. apply attr_line.
Qed.
Lemma opt_len_items {A} (o : option (list A)) : opt_len o = nlen (items o).
Proof. destruct o; reflexivity. Qed.
Lemma gather_all l : forall g, gather g l =
  Gathered (g_withdrawn g ++ flat_map mp_withdrawn (map a_value l)) (g_announced g ++ flat_map mp_announced (map a_value l))
    (g_labeled g ++ flat_map mp_labeled (map a_value l)) (g_ls g + total ls_routes (map a_value l)) (g_fs g + total fs_rules (map a_value l)).
Proof.
  induction l as [|a l IH]; intros g.
  - cbn [gather map flat_map total fold_right]. rewrite !app_nil_r, !N.add_0_r. destruct g; reflexivity.
  - cbn [gather map flat_map]. rewrite IH. unfold total. cbn [fold_right]. fold (total ls_routes (map a_value l)) (total fs_rules (map a_value l)).
    destruct (a_value a); cbn [mp_withdrawn mp_announced mp_labeled ls_routes fs_rules app g_withdrawn g_announced g_labeled g_ls g_fs];
      rewrite ?N.add_0_l, ?opt_len_items; try reflexivity; rewrite <- ?app_assoc, <- ?N.add_assoc; reflexivity.
Qed.
Lemma route_line T p : show_prefix (rt T) p = route_text T p.
Proof. reflexivity. Qed.
Lemma update_lines T u : render_update T u = unlines (lay_update T u).
Proof.
  unfold render_update. rewrite (map_ext (show_warning T) (warn_text T)) by (intros; apply warn_line). rewrite gather_all. cbn [g_withdrawn g_announced g_labeled g_ls g_fs]. rewrite !N.add_0_l. cbn [app].
  unfold lay_update, lay_attrs, count_line. rewrite !section_lines. fold (values (u_attrs u)).
  rewrite !unlines_app. repeat match goal with |- context [if ?b then _ else _] => destruct b end; rewrite ?unlines_ln; unfold values; rewrite !map_map;
    rewrite (map_ext (fun x => render_attribute T (a_value x)) (fun x => attr_text T (a_value x))) by (intros; apply attr_line); reflexivity.
Qed.
Lemma flat_map_map {A B C} (f : A -> list B) (g : B -> C) l : flat_map (fun x => map g (f x)) l = map g (flat_map f l).
Proof. induction l as [|x l IH]; [reflexivity|]. cbn [flat_map]. rewrite map_app, IH. reflexivity. Qed.
Lemma cap_line c : capability_summary c = cap_text c.
Proof. unfold capability_summary, cap_text. destruct (cap_val c); rewrite ?app_nil_r; reflexivity. Qed.
Lemma caps_lines ps : flat_map (fun p => flat_map (fun c => ln 2 (capability_summary c)) (param_caps p)) ps =
  unlines (map (deep 2) (map cap_text (flat_map (fun p => match op_value p with PvCaps l => l | PvRaw _ => [] end) ps))).
Proof.
  rewrite (unlines_concat _ (fun p => map (deep 2) (map cap_text (param_caps p)))).
  - f_equal. rewrite flat_map_map. f_equal. rewrite flat_map_map. f_equal.
  - intros p. rewrite <- unlines_lns. induction (param_caps p) as [|c l IH]; [reflexivity|]. cbn [flat_map map]. rewrite IH, cap_line. reflexivity.
Qed.
Lemma msg_lines T m : render_bgp_message T m = unlines (lay_msg T m).
Proof.
  destruct m as [o|u|n| |r]; unfold render_bgp_message, lay_msg; rewrite ?unlines_ln, ?update_lines.
  - rewrite unlines_app. unfold show_asn. repeat rewrite <- unlines_app.
    enough (E : match o_params o with [] => [] | o0 :: l => unlines [deep 1 (str "CAPABILITIES:")] ++ flat_map (fun p => flat_map (fun c => ln 2 (capability_summary c)) (param_caps p)) (o0 :: l) end =
                unlines match o_params o with [] => [] | _ :: _ => deep 1 (str "CAPABILITIES:") :: map (deep 2) (map cap_text (caps_in o)) end).
    + rewrite E. clear E. rewrite <- unlines_app, !app_assoc, <- !unlines_app. f_equal.
    + unfold caps_in. destruct (o_params o) as [|p ps]; [reflexivity|]. rewrite caps_lines, <- unlines_app. reflexivity.
  - rewrite <- unlines_app. reflexivity.
  - rewrite <- unlines_app. reflexivity.
  - reflexivity.
  - rewrite <- unlines_app. reflexivity.
Qed.
Lemma states_lines o n : render_states o n = unlines (lay_states o n).
Proof. unfold render_states. rewrite !unlines_ln, <- !unlines_app. reflexivity. Qed.
Lemma dump_lines T m : render_dump T m = unlines (lay_dump T m).
Proof. unfold render_dump, lay_dump. rewrite block_lines, !unlines_ln, <- !unlines_app. reflexivity. Qed.
Lemma entry_lines T e : render_rib_entry T e = unlines (lay_entry T e).
Proof. unfold render_rib_entry, lay_entry. rewrite block_lines, !unlines_ln, <- !unlines_app. reflexivity. Qed.
Lemma v2_lines T m : render_dump_v2 T m = unlines (lay_v2 T m).
Proof.
  destruct m as [t|r| |t]; unfold render_dump_v2, lay_v2; rewrite unlines_ln; try reflexivity.
  - rewrite (unlines_concat _ (fun x => [peer_line T x])) by (intros x; apply unlines_ln).
    rewrite <- unlines_app. reflexivity.
  - rewrite (unlines_concat _ (lay_entry T)) by apply entry_lines. rewrite <- unlines_app. reflexivity.
Qed.
Lemma format_lines T r : format_record T r = unlines (lay T r).
Proof.
  unfold format_record, lay, lay_body, clock. rewrite !unlines_ln. unfold from_in, to_in, lay_end.
  destruct (mr_msg r) as [m|l|m|[m|m]|[m|m]].
  - rewrite dump_lines, <- !unlines_app; reflexivity.
  - rewrite unlines_ln, (unlines_concat _ (lay_dump T)) by apply dump_lines. rewrite <- !unlines_app; reflexivity.
  - rewrite v2_lines, <- !unlines_app; reflexivity.
  - unfold render_bgp4mp. rewrite states_lines, !unlines_ln, <- !unlines_app; reflexivity.
  - unfold render_bgp4mp. rewrite msg_lines, !unlines_ln, <- !unlines_app; reflexivity.
  - unfold render_legacy. rewrite msg_lines, !unlines_ln, <- !unlines_app; reflexivity.
  - unfold render_legacy. rewrite states_lines, !unlines_ln, <- !unlines_app; reflexivity.
Qed.

(** * No line feeds in the lines *)
Lemma one_app a b : one_line a -> one_line b -> one_line (a ++ b).
Proof. intros A B I. apply in_app_or in I. destruct I as [I|I]; [exact (A I)|exact (B I)]. Qed.
Lemma one_str b : forallb (fun x => negb (x =? 10)) b = true -> one_line b.
Proof. rewrite forallb_forall. intros F I. apply F in I. discriminate I. Qed.
Lemma one_field s : Forall fieldc s -> one_line s.
Proof. intros F I. rewrite Forall_forall in F. apply F in I. unfold fieldc in I. lia. Qed.
Lemma one_dec n : one_line (dec n).
Proof. apply one_field, dec_field. Qed.
Lemma one_deep d t : one_line t -> one_line (deep d t).
Proof. intros H. induction d as [|d IH]; [exact H|]. cbn [deep]. intros [E|[E|I]]; [discriminate E|discriminate E|exact (IH I)]. Qed.
Lemma one_join sep l : one_line sep -> Forall one_line l -> one_line (join sep l).
Proof.
  intros Hs F. induction F as [|x l H F IH]; [intros []|]. cbn [join]. destruct l as [|y l]; [exact H|]. apply one_app; [exact H|]. apply one_app; assumption.
Qed.
Lemma one_ip T i : rtexts_ok T -> one_line (sh_ip (rt T) i).
Proof. intros O. apply O. Qed.
Lemma one_net T n : rtexts_ok T -> one_line (net_text T n).
Proof. intros O. unfold net_text. apply one_app; [apply one_ip, O|]. apply one_app; [apply one_str; reflexivity|apply one_dec]. Qed.
Lemma one_map {A} (f : A -> bytes) l : (forall x, one_line (f x)) -> Forall one_line (map f l).
Proof. intros H. apply Forall_map, Forall_forall. intros x _. apply H. Qed.
Ltac lit := apply one_str; reflexivity.
Lemma one_path p : one_line (show_path p).
Proof. apply one_field. exact (path_field (Some p)). Qed.
Lemma one_octets b : one_line (debug_octets b).
Proof. unfold debug_octets. apply one_app; [lit|]. apply one_app; [|lit]. apply one_join; [lit|]. apply one_map, one_dec. Qed.
Lemma one_kmap f m : (forall k, one_line (f k)) -> one_line (debug_kmap f m).
Proof.
  intros F. unfold debug_kmap. apply one_app; [lit|]. apply one_app; [|lit]. apply one_join; [lit|]. apply one_map.
  intros x. apply one_app; [apply F|]. apply one_app; [lit|apply one_octets].
Qed.
Lemma one_ls T a : rtexts_ok T -> one_line (debug_ls T a).
Proof.
  intros (_ & _ & _ & _ & _ & _ & K). unfold debug_ls. repeat (apply one_app; [first [lit|apply one_kmap; intros; apply K]|]).
  apply one_app; [|lit]. apply one_join; [lit|]. apply one_map.
  intros t. unfold debug_tlv. repeat (apply one_app; [first [lit|apply one_dec|apply one_octets]|]). lit.
Qed.
Lemma one_afi a : one_line (afi_name a). Proof. destruct a; lit. Qed.
Lemma one_safi a : one_line (safi_name a). Proof. destruct a; lit. Qed.
Lemma one_family a s : one_line (family_text a s).
Proof. unfold family_text. repeat apply one_app; [apply one_afi|lit|apply one_safi]. Qed.
Lemma one_hex b : one_line (show_hex b).
Proof.
  unfold show_hex. intros I. apply in_flat_map in I. destruct I as (x & _ & I). unfold hex_octet, hex_digit in I. destruct I as [I|[I|[]]]; destruct (_ <? 10) in I; lia.
Qed.
Ltac one := repeat first [lit|apply one_dec|apply one_hex|apply one_family|apply one_path|apply one_app|apply one_join; [lit|]|apply Forall_cons|apply Forall_nil].
Lemma one_meta T c : rtexts_ok T -> one_line (show_meta (rt T) c).
Proof.
  intros O. assert (I : forall i, one_line (sh_ip (rt T) i)) by apply O. assert (F : forall b, one_line (sh_single (rt T) b)) by apply O.
  destruct c as [c|x|c|x]; cbn [show_meta].
  - destruct c; unfold show_community, colons, show_asn; one.
  - destruct x as [ | | | | |a [] []| | | | ]; unfold show_ext, colons, show_asn; cbn [app]; one; first [apply I|apply F].
  - unfold show_ipv6_ext, colons. one. apply I.
  - unfold show_large, colons. one.
Qed.
Lemma one_comms {A} T (g : A -> meta_community) l : rtexts_ok T -> one_line (join (str " ") (map (fun c => show_meta (rt T) (g c)) l)).
Proof. intros O. apply one_join; [lit|]. apply one_map. intros c. apply one_meta, O. Qed.
Lemma one_attr T v : rtexts_ok T -> one_line (attr_text T v).
Proof.
  intros O. destruct v; unfold attr_text.
  1: destruct o; lit.
  all: try lit.
  all: try (do 2 (apply one_app; [lit|]); apply one_ls; exact O).
  all: try (do 2 (apply one_app; [lit|]); first [apply (one_comms T MPlain); exact O|apply (one_comms T MExtended); exact O|apply (one_comms T MIpv6Extended); exact O|apply (one_comms T MLarge); exact O]).
  all: repeat (apply one_app; [first [lit|apply one_dec|apply one_family]|]).
  all: try first [lit|apply one_dec|apply one_path|apply one_ip; exact O|apply O|apply one_family].
  - apply one_join; [lit|]. apply one_map, one_dec.
  - destruct (nl_next n) as [h|]; cbn [option_map]; [|lit]. apply one_app; [lit|]. apply one_ip, O.
Qed.
Lemma one_atype c : one_line (atype_name c).
Proof.
  unfold atype_name. repeat match goal with |- context [match ?x with _ => _ end] => destruct x end;
    first [lit|repeat apply one_app; first [lit|apply one_dec]].
Qed.
Lemma one_low n : one_line (low_octet n).
Proof. unfold low_octet, low_digit. intros [E|[E|[]]]; destruct (_ <? 10) in E; lia. Qed.
Lemma one_warning T w : rtexts_ok T -> one_line (warn_text T w).
Proof.
  intros (_ & _ & _ & _ & R & _). rewrite <- warn_line. destruct w as [c e a|c [e|] a|c|c|c e|c e|c e|a e b|s|s n]; unfold show_warning;
    repeat (apply one_app; [first [lit|apply one_dec|apply one_atype|apply one_low|destruct a; lit]|]);
    first [lit|apply one_dec|apply one_atype|apply one_low|apply R].
Qed.
Lemma one_sect d h l : one_line (str h) -> Forall one_line l -> Forall one_line (sect d h l).
Proof.
  intros H F. destruct l as [|t l]; [constructor|]. unfold sect. constructor; [apply one_deep, H|]. apply Forall_map. eapply Forall_impl; [|exact F]. intros x X. apply one_deep, X.
Qed.
Lemma one_lay_attrs T d a : rtexts_ok T -> Forall one_line (lay_attrs T d a).
Proof.
  intros O. unfold lay_attrs. apply Forall_app. split; apply one_sect; try lit; apply one_map; intros x; [apply one_attr|apply one_warning]; exact O.
Qed.
Lemma one_labeled T p : rtexts_ok T -> one_line (labeled_text T p).
Proof.
  intros O. unfold labeled_text. apply one_app; [apply one_net, O|]. apply one_app; [lit|]. apply one_app; [|apply one_app; [lit|]].
  - apply one_join; [lit|]. apply one_map, one_dec.
  - destruct (lp_id p); [apply one_app; [lit|apply one_dec]|lit].
Qed.
Lemma Forall_flat {A B} (P : B -> Prop) (f : A -> list B) l : (forall x, Forall P (f x)) -> Forall P (flat_map f l).
Proof. intros F. induction l; cbn [flat_map]; [constructor|]. apply Forall_app. split; [apply F|assumption]. Qed.
Lemma one_count n k e : one_line (str k) -> one_line (str e) -> Forall one_line (count_line n k e).
Proof.
  intros K E. unfold count_line. destruct (0 <? n); [|constructor]. constructor; [|constructor]. apply one_deep. apply one_app; [exact K|]. apply one_app; [apply one_dec|exact E].
Qed.
Lemma one_update T u : rtexts_ok T -> Forall one_line (lay_update T u).
Proof.
  intros O. unfold lay_update. pose proof (one_lay_attrs T 1 (u_attrs u) O) as L. generalize dependent (lay_attrs T 1 (u_attrs u)). intros la L.
  repeat (apply Forall_app; split); try (apply one_count; lit); try (apply one_sect; [lit|]); try exact L; apply one_map; intros p; first [apply one_net; exact O|apply one_labeled; exact O].
Qed.
Lemma one_cap_name c : one_line (cap_name c).
Proof.
  unfold cap_name. repeat match goal with |- context [match ?x with _ => _ end] => destruct x end;
    first [lit|repeat apply one_app; first [lit|apply one_dec]].
Qed.
Lemma one_cap c : one_line (cap_text c).
Proof.
  unfold cap_text. apply one_app; [apply one_cap_name|]. destruct (cap_val c); try lit; one.
Qed.
Lemma one_msg T m : rtexts_ok T -> Forall one_line (lay_msg T m).
Proof.
  intros O. destruct m as [o|u|n| |r]; unfold lay_msg.
  - apply Forall_app. split.
    + repeat (apply Forall_cons; [first [lit|apply one_deep; apply one_app; [lit|]; first [apply one_dec|apply one_app; [apply one_dec|lit]|apply one_ip; exact O]]|]). constructor.
    + destruct (o_params o); [constructor|]. constructor; [apply one_deep; lit|]. rewrite map_map. apply one_map. intros c. apply one_deep, one_cap.
  - constructor; [lit|]. apply one_update; assumption.
  - repeat (apply Forall_cons; [first [lit|apply one_deep]|]); [|constructor]. assert (E : forall e, one_line (rt_error T e)) by apply O. repeat (apply one_app; [first [lit|apply E|apply one_dec]|]). lit.
  - repeat constructor. lit.
  - repeat (apply Forall_cons; [first [lit|apply one_deep]|]); [|constructor]. repeat (apply one_app; [first [lit|apply one_dec]|]). apply one_dec.
Qed.
Lemma one_states o n : Forall one_line (lay_states o n).
Proof. unfold lay_states. repeat (apply Forall_cons; [first [lit|apply one_deep; apply one_app; [lit|]; destruct o, n; lit]|]). constructor. Qed.
Lemma one_end T x : rtexts_ok T -> one_line (end_text T x).
Proof. intros O. unfold end_text. apply one_app; [apply one_ip, O|]. apply one_app; [lit|apply one_dec]. Qed.
Lemma one_dump T m : rtexts_ok T -> Forall one_line (lay_dump T m).
Proof.
  intros O. unfold lay_dump. apply Forall_app. split; [|apply one_lay_attrs; assumption].
  repeat (apply Forall_cons; [first [lit|apply one_deep; apply one_app; [lit|]; first [apply one_net; assumption|apply one_end; assumption|apply one_dec]]|]). constructor.
Qed.
Lemma one_entry T e : rtexts_ok T -> Forall one_line (lay_entry T e).
Proof.
  intros O. unfold lay_entry. apply Forall_app. split; [|apply one_lay_attrs; assumption].
  repeat (apply Forall_cons; [apply one_deep; first [lit|apply one_app; [lit|apply one_dec]]|]). constructor.
Qed.
Lemma one_v2_name t : one_line (v2_name t).
Proof. unfold v2_name. repeat match goal with |- context [match ?x with _ => _ end] => destruct x end; lit. Qed.
Lemma one_mp_name t : one_line (mp_name t).
Proof. unfold mp_name. repeat match goal with |- context [match ?x with _ => _ end] => destruct x end; lit. Qed.
Lemma one_etype t : one_line (etype_name t).
Proof. unfold etype_name. repeat match goal with |- context [match ?x with _ => _ end] => destruct x end; lit. Qed.
Lemma sort_in_perm x l : Permutation (x :: l) (sort_in x l).
Proof. induction l as [|y l IH]; [reflexivity|]. cbn [sort_in]. destruct (fst x <=? fst y); [reflexivity|]. etransitivity; [apply perm_swap|]. constructor. exact IH. Qed.
Lemma sort_perm l : Permutation l (sort_peers l).
Proof. induction l as [|x l IH]; [reflexivity|]. cbn [sort_peers]. etransitivity; [apply perm_skip, IH|]. apply sort_in_perm. Qed.
Lemma one_lay_end T k o : rtexts_ok T -> one_line (str k) -> Forall one_line (lay_end T k o).
Proof. intros O K. unfold lay_end. destruct o; constructor; [|constructor]. apply one_app; [exact K|apply one_end, O]. Qed.
Lemma one_lines T r : rtexts_ok T -> Forall one_line (lay T r).
Proof.
  intros O. unfold lay. cbn [app].
  apply Forall_cons; [apply one_app; [lit|]; unfold clock; destruct (h_us (mr_hdr r)); [|apply one_dec]|].
  { apply one_app; [apply one_dec|]. apply one_app; [lit|]. unfold six. apply one_app; [|apply one_dec]. intros I. apply repeat_spec in I. discriminate I. }
  apply Forall_cons. { apply one_app; [lit|]. apply one_app; [apply one_etype|]. apply one_app; [lit|]. unfold subtype_name. destruct (mr_msg r); try apply one_dec. apply one_mp_name. }
  apply Forall_app. split; [apply one_lay_end; [exact O|lit]|]. apply Forall_app. split; [apply one_lay_end; [exact O|lit]|].
  unfold lay_body. destruct (mr_msg r) as [m|l|m|[m|m]|[m|m]]; try (apply one_msg; exact O); try apply one_states; try (apply one_dump; exact O).
  - constructor; [one|]. apply Forall_flat. intros m. apply one_dump, O.
  - destruct m as [t|b| |t]; cbn [lay_v2].
    + constructor; [one|]. apply one_map. intros x. unfold peer_line. apply one_deep. apply one_app; [lit|]. apply one_app; [apply one_dec|]. apply one_app; [lit|]. apply one_end; assumption.
    + constructor. { unfold rib_line. repeat (apply one_app; [first [lit|apply one_v2_name|apply one_net; assumption|apply one_dec]|]). lit. }
      apply Forall_flat. intros e. apply one_entry, O.
    + repeat constructor. lit.
    + constructor; [one|constructor].
Qed.
Lemma record_lines T r : rtexts_ok T -> lines (format_record T r) = lay T r.
Proof. intros O. rewrite format_lines. apply lines_unlines, one_lines, O. Qed.
