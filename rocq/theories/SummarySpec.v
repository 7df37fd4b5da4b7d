(** Vocabulary of the theorems about one-line texts: the columns of a line, and what a line
    is about. *)
From Coq Require Import String.
From Verif Require Import Base Net NetSpec AsPath Mpls Nlri Attr BgpMsg Bgp4mp TableDump Framing MrtRecord Text Psv PsvSpec Render RenderSpec.
Local Open Scope string_scope.
Local Open Scope list_scope.
Local Open Scope N_scope.

(** The columns of a line: what is between its bars. *)
Definition columns (line : bytes) : list bytes := split_on 124 line.
(** The kinds of a BGP message. *)
Inductive word := Open | Update | Notification | KeepAlive | RouteRefresh.
Definition word_of (m : bgp_msg) : word :=
  match m with MOpen _ => Open | MUpdate _ => Update | MNotif _ => Notification | MKeepAlive => KeepAlive | MRefresh _ => RouteRefresh end.
Definition word_name (w : word) : string :=
  match w with Open => "OPEN" | Update => "UPDATE" | Notification => "NOTIFICATION" | KeepAlive => "KEEPALIVE" | RouteRefresh => "ROUTE_REFRESH" end.
(** The names of the states of a session. *)
Definition states : list (bgp_state * string) :=
  [(StIdle, "Idle"); (StConnect, "Connect"); (StActive, "Active"); (StOpenSent, "OpenSent"); (StOpenConfirm, "OpenConfirm");
   (StEstablished, "Established"); (StClearing, "Clearing"); (StDeleted, "Deleted")].
(** What a line tells of the content of a record: a table dump's route and peer, numbers of
    entries and peers, a RIB's kind and route, a session's peer with its states or the kind of
    its message ([old] is for the BGP type, that BGP4MP replaced). *)
Inductive brief :=
| Dump1 (n : ipnet) (peer : ip) | DumpMany (entries : N) | Peers (number : N) | RibOf (kind : N) (n : ipnet) (entries : N) | Generic
| GeoPeers (number : N) | States (old : bool) (peer : ip) (as_number : N) (before after : bgp_state)
| Message (old : bool) (peer : ip) (as_number : N) (w : word).
Definition brief_of (m : mrt_message) : brief :=
  match m with
  | MrtDump d => Dump1 (p_net (td_prefix d)) (td_peer d)
  | MrtDumps l => DumpMany (nlen l)
  | MrtV2 (V2Peers t) => Peers (nlen (pt_peers t))
  | MrtV2 (V2Rib r) => RibOf (rb_type r) (p_net (rb_prefix r)) (nlen (rb_entries r))
  | MrtV2 V2Generic => Generic
  | MrtV2 (V2Geo t) => GeoPeers (nlen (gt_peers t))
  | MrtBgp4mp (MpStateChange x) => States false (ms_peer x) (ms_peer_as x) (ms_old x) (ms_new x)
  | MrtBgp4mp (MpMessage x) => Message false (mm_peer x) (mm_peer_as x) (word_of (mm_bgp x))
  | MrtLegacy (LgStateChange x) => States true (ls_peer x) (ls_peer_as x) (ls_old x) (ls_new x)
  | MrtLegacy (LgMessage x) => Message true (lg_peer x) (lg_peer_as x) (word_of (lg_bgp x))
  end.
(** The columns after those of the header: addresses and routes by std, numbers in decimal. *)
Definition name_in {A} (l : list (A * string)) (eqb : A -> bool) : bytes :=
  match List.find (fun x => eqb (fst x)) l with Some x => str (snd x) | None => [] end.
Definition state_eqb (a b : bgp_state) : bool := state_code a =? state_code b.
Definition brief_columns (T : shows) (b : brief) : list bytes :=
  let route n := sh_ip T (net_addr n) ++ str "/" ++ dec (net_len n) in
  let state s := name_in states (state_eqb s) in
  match b with
  | Dump1 n i => [str "TABLE_DUMP"; route n; sh_ip T i]
  | DumpMany k => [str "TABLE_DUMP_BATCH"; dec k ++ str " entries"]
  | Peers k => [str "PEER_INDEX_TABLE"; dec k]
  | RibOf t n k => [str "RIB"; name_in table_types (N.eqb t); route n; dec k ++ str " entries"]
  | Generic => [str "RIB_GENERIC"]
  | GeoPeers k => [str "GEO_PEER_TABLE"; dec k ++ str " peers"]
  | States old i a s t => (if old then [str "BGP"; str "STATE_CHANGE"] else [str "STATE_CHANGE"]) ++ [sh_ip T i; dec a; state s ++ str "->" ++ state t]
  | Message old i a w => [if old then str "BGP" else str "BGP4MP"; sh_ip T i; dec a; str (word_name w)]
  end.
(** Addresses and routes are as wide as their kind; the types have a name. *)
Definition brief_ok (b : brief) : Prop :=
  match b with
  | Dump1 n i => net_ok n /\ ip_ok i
  | RibOf t n _ => In t (map fst table_types) /\ net_ok n
  | States _ i _ _ _ | Message _ i _ _ => ip_ok i
  | _ => True
  end.
Definition type_ok (h : header) : Prop := In (h_type h) (map fst record_types).
