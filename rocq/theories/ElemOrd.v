(** The order of elements (/repo/src/models/bgp/elem.rs). *)
From Coq Require Import Floats.SpecFloat.
From Verif Require Import Base Net Elem Filter.

(** The [Ord] of [IpAddr] (std): the versions, then the octets. *)
Definition compare_ip (a b : ip) : comparison :=
  match a, b with
  | V4 x, V4 y => x ?= y
  | V4 _, V6 _ => Lt
  | V6 _, V4 _ => Gt
  | V6 x, V6 y => x ?= y
  end.
(** elem.rs:204-211 [Ord for BgpElem], 213-220 [Ord for BgpRouteElem]: [unwrap] panics on NaN,
    which compares with nothing. *)
Definition compare_keys (t : f64) (i : ip) (t' : f64) (i' : ip) : res comparison :=
  match SFcompare t t' with
  | None => Panic
  | Some Eq => Ok (compare_ip i i')
  | Some c => Ok c
  end.
Definition cmp_elem (a b : elem) : res comparison := compare_keys (e_time a) (e_peer a) (e_time b) (e_peer b).
Definition cmp_route (a b : route) : res comparison := compare_keys (ro_time a) (ro_peer a) (ro_time b) (ro_peer b).
(** elem.rs:192-202 [PartialOrd]: always [Some]. *)
Definition partial_cmp_elem (a b : elem) : res (option comparison) := c <~ cmp_elem a b ;; Ok (Some c).
