(** * Messages a program sends to RIS Live

    Models /repo/src/parser/rislive/messages/client/: the four kinds of message, the
    methods that fill in a subscription, and [to_json_string] down to the octets.
    serde_json is modelled as far as these messages use it: values without numbers, the
    sorted map behind [json!] (the feature [preserve_order] is off, Cargo.toml:62,161)
    and the compact writer with its escapes.  Strings are their UTF-8 octets.  [Display]
    of addresses and of prefixes is a parameter. *)
From Coq Require Import List NArith String.
From Verif Require Import Base Net Text Render.
Import ListNotations.
Local Open Scope string_scope.
Local Open Scope list_scope.
Local Open Scope N_scope.

(** serde_json's [Value] without numbers. *)
Inductive tree :=
| TNull | TBool (b : bool) | TText (s : bytes) | TList (l : list tree) | TObject (l : list (bytes * tree)).

(** serde_json's [format_escaped_str_contents]: the two letter escapes, [\u00xx] for other
    controls, every other octet as it is. *)
Definition escape (c : N) : bytes :=
  if c =? 34 then str "\""" else
  if c =? 92 then str "\\" else
  if c =? 8 then str "\b" else
  if c =? 9 then str "\t" else
  if c =? 10 then str "\n" else
  if c =? 12 then str "\f" else
  if c =? 13 then str "\r" else
  if c <? 32 then str "\u00" ++ low_octet c else [c].
Definition quoted (s : bytes) : bytes := [34] ++ flat_map escape s ++ [34].

(** serde_json's [to_string]: the compact writer. *)
Fixpoint written (t : tree) : bytes :=
  match t with
  | TNull => str "null"
  | TBool true => str "true"
  | TBool false => str "false"
  | TText s => quoted s
  | TList l => [91] ++ join [44] (map written l) ++ [93]
  | TObject l => [123] ++ join [44] (map (fun p => quoted (fst p) ++ [58] ++ written (snd p)) l) ++ [125]
  end.

(** The order of keys in a [BTreeMap<String, _>], and its [insert]. *)
Fixpoint key_lt (a b : bytes) : bool :=
  match a, b with
  | _, [] => false
  | [], _ :: _ => true
  | x :: a', y :: b' => if x =? y then key_lt a' b' else x <? y
  end.
Fixpoint put (m : list (bytes * tree)) (k : bytes) (v : tree) : list (bytes * tree) :=
  match m with
  | [] => [(k, v)]
  | (k', v') :: m' =>
      if bytes_eqb k k' then (k, v) :: m' else if key_lt k k' then (k, v) :: m else (k', v') :: put m' k v
  end.
Definition object (l : list (bytes * tree)) : tree := TObject (fold_left (fun m p => put m (fst p) (snd p)) l []).

(** ris_subscribe.rs:6-14 [RisSubscribeType]; derived [Serialize] writes the variant's name. *)
Inductive stype := UPDATE | OPEN | NOTIFICATION | KEEPALIVE | RIS_PEER_STATE.
Definition stype_name (t : stype) : bytes :=
  str match t with
      | UPDATE => "UPDATE" | OPEN => "OPEN" | NOTIFICATION => "NOTIFICATION"
      | KEEPALIVE => "KEEPALIVE" | RIS_PEER_STATE => "RIS_PEER_STATE"
      end.
(** ris_subscribe.rs:16-31 [RisSubscribeSocketOptions]. *)
Record socket_options := Options { so_raw : option bool; so_acknowledge : option bool }.
(** ris_subscribe.rs:33-110 [RisSubscribe]. *)
Record subscribe := Subscribe {
  su_host : option bytes; su_type : option stype; su_require : option bytes; su_peer : option ip;
  su_path : option bytes; su_prefix : option ipnet; su_more : option bool; su_less : option bool;
  su_options : option socket_options }.

(** ris_subscribe.rs:112-115 [new]. *)
Definition subscribe_new : subscribe := Subscribe None None None None None None None None None.
(** ris_subscribe.rs:117-187: the methods that fill in one field each. *)
Definition with_host (h : bytes) (s : subscribe) : subscribe :=
  Subscribe (Some h) (su_type s) (su_require s) (su_peer s) (su_path s) (su_prefix s) (su_more s) (su_less s) (su_options s).
Definition with_type (t : stype) (s : subscribe) : subscribe :=
  Subscribe (su_host s) (Some t) (su_require s) (su_peer s) (su_path s) (su_prefix s) (su_more s) (su_less s) (su_options s).
Definition with_require (r : bytes) (s : subscribe) : subscribe :=
  Subscribe (su_host s) (su_type s) (Some r) (su_peer s) (su_path s) (su_prefix s) (su_more s) (su_less s) (su_options s).
Definition with_peer (p : ip) (s : subscribe) : subscribe :=
  Subscribe (su_host s) (su_type s) (su_require s) (Some p) (su_path s) (su_prefix s) (su_more s) (su_less s) (su_options s).
Definition with_path (p : bytes) (s : subscribe) : subscribe :=
  Subscribe (su_host s) (su_type s) (su_require s) (su_peer s) (Some p) (su_prefix s) (su_more s) (su_less s) (su_options s).
Definition with_prefix (p : ipnet) (s : subscribe) : subscribe :=
  Subscribe (su_host s) (su_type s) (su_require s) (su_peer s) (su_path s) (Some p) (su_more s) (su_less s) (su_options s).
Definition with_more (b : bool) (s : subscribe) : subscribe :=
  Subscribe (su_host s) (su_type s) (su_require s) (su_peer s) (su_path s) (su_prefix s) (Some b) (su_less s) (su_options s).
Definition with_less (b : bool) (s : subscribe) : subscribe :=
  Subscribe (su_host s) (su_type s) (su_require s) (su_peer s) (su_path s) (su_prefix s) (su_more s) (Some b) (su_options s).
Definition with_options (o : socket_options) (s : subscribe) : subscribe :=
  Subscribe (su_host s) (su_type s) (su_require s) (su_peer s) (su_path s) (su_prefix s) (su_more s) (su_less s) (Some o).
(** ris_subscribe.rs:157-170 [include_raw]. *)
Definition include_raw (b : bool) (s : subscribe) : subscribe :=
  match su_options s with
  | None => with_options (Options (Some b) None) s
  | Some o => with_options (Options (Some b) (so_acknowledge o)) s
  end.
(** ris_subscribe.rs:172-185 [acknowledge]. *)
Definition acknowledge (b : bool) (s : subscribe) : subscribe :=
  match su_options s with
  | None => with_options (Options None (Some b)) s
  | Some o => with_options (Options (so_raw o) (Some b)) s
  end.

(** Display of addresses and of prefixes (std and ipnet). *)
Record displays := Displays { d_ip : ip -> bytes; d_net : ipnet -> bytes }.

(** A field left out when it is [None] ([skip_serializing_if]). *)
Definition entry {A} (k : string) (f : A -> tree) (o : option A) : list (bytes * tree) :=
  match o with Some a => [(str k, f a)] | None => [] end.
(** ris_subscribe.rs:16-31: derived [Serialize], in the order of the fields. *)
Definition options_tree (o : socket_options) : tree :=
  object (entry "includeRaw" TBool (so_raw o) ++ entry "acknowledge" TBool (so_acknowledge o)).
(** ris_subscribe.rs:33-110: derived [Serialize], in the order of the fields. *)
Definition subscribe_tree (D : displays) (s : subscribe) : tree :=
  object (entry "host" TText (su_host s) ++ entry "type" (fun t => TText (stype_name t)) (su_type s) ++
          entry "require" TText (su_require s) ++ entry "peer" (fun i => TText (d_ip D i)) (su_peer s) ++
          entry "path" TText (su_path s) ++ entry "prefix" (fun n => TText (d_net D n)) (su_prefix s) ++
          entry "moreSpecific" TBool (su_more s) ++ entry "lessSpecific" TBool (su_less s) ++
          entry "socketOptions" options_tree (su_options s)).

(** The four messages: ping.rs:4-5, request_rrc_list.rs:4-24, ris_subscribe.rs:33-110 and
    ris_unsubscribe.rs:4-14, the last with the subscription's fields flattened into it. *)
Inductive message := Ping | RequestRrcList (l : list bytes) | RisSubscribe (s : subscribe) | RisUnsubscribe (s : subscribe).
(** ping.rs:17-21, request_rrc_list.rs:26-30, ris_subscribe.rs:189-193,
    ris_unsubscribe.rs:16-20 [msg_type]. *)
Definition msg_type (m : message) : bytes :=
  str match m with
      | Ping => "ping" | RequestRrcList _ => "request_rrc_list"
      | RisSubscribe _ => "ris_subscribe" | RisUnsubscribe _ => "ris_unsubscribe"
      end.
(** ping.rs:7-14, request_rrc_list.rs:9-16 and the derived [Serialize]s. *)
Definition data_tree (D : displays) (m : message) : tree :=
  match m with
  | Ping => TNull
  | RequestRrcList l => TList (map TText l)
  | RisSubscribe s | RisUnsubscribe s => subscribe_tree D s
  end.
(** client/mod.rs:13-20 [to_json_string]. *)
Definition to_json_string (D : displays) (m : message) : bytes :=
  written (object [(str "type", TText (msg_type m)); (str "data", data_tree D m)]).
