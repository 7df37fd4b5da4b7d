(** AS paths: /repo/src/models/bgp/attributes/aspath.rs and the wire codec
    /repo/src/parser/bgp/attributes/attr_02_17_as_path.rs. *)
From Verif Require Import Base Reader Net.

(** aspath.rs:16-26 [AsPathSegment]: kind and AS numbers. *)
Inductive skind := KSeq | KSet | KCSeq | KCSet.
Record seg := Seg { s_kind : skind; s_asns : list asn }.
(** aspath.rs:390-394 [AsPath]. *)
Definition aspath := list seg.

Definition skind_eqb (a b : skind) : bool :=
  match a, b with
  | KSeq, KSeq | KSet, KSet | KCSeq, KCSeq | KCSet, KCSet => true
  | _, _ => false
  end.

(** aspath.rs:41-47 [AsPathSegment::route_len]. *)
Definition seg_route_len (s : seg) : nat :=
  match s_kind s with KSeq => length (s_asns s) | KSet => 1 | KCSeq | KCSet => 0 end.
(** aspath.rs:455-457 [AsPath::route_len]. *)
Definition route_len (p : aspath) : nat := list_sum (map seg_route_len p).
(** aspath.rs:74-79 *)
Definition is_confed (s : seg) : bool :=
  match s_kind s with KCSeq | KCSet => true | _ => false end.
Definition is_seq_kind (k : skind) : bool := match k with KSeq | KCSeq => true | _ => false end.
Definition is_empty_seq (s : seg) : bool :=
  is_seq_kind (s_kind s) && match s_asns s with [] => true | _ => false end.

(** aspath.rs:84-99 [merge_in_place]: [Some s] when the two segments became [s]
    (return value [true]), [None] when they stay apart. *)
Definition merge_in_place (x y : seg) : option seg :=
  match s_kind x, s_kind y with
  | KSeq, KSeq => Some (Seg KSeq (s_asns x ++ s_asns y))
  | KCSeq, KCSeq => Some (Seg KCSeq (s_asns x ++ s_asns y))
  | _, _ =>
      if is_empty_seq x then Some y
      else if is_empty_seq y then Some x
      else None
  end.

(** [Vec::dedup]: drop consecutive equal elements. *)
Fixpoint dedup (l : list asn) : list asn :=
  match l with
  | a :: ((b :: _) as l') => if a =? b then dedup l' else a :: dedup l'
  | _ => l
  end.

(** [sort_unstable] on AS numbers (ordered by number, asn.rs:51-60): insertion
    sort; the sorted permutation is unique. *)
Fixpoint insert (a : asn) (l : list asn) : list asn :=
  match l with
  | [] => [a]
  | b :: l' => if a <=? b then a :: l else b :: insert a l'
  end.
Fixpoint nsort (l : list asn) : list asn :=
  match l with [] => [] | a :: l' => insert a (nsort l') end.

(** aspath.rs:128-146 [AsPathSegment::dedup]. *)
Definition seg_dedup (s : seg) : seg :=
  match s_kind s with
  | KSeq | KCSeq => Seg (s_kind s) (dedup (s_asns s))
  | KSet => let x := dedup (nsort (s_asns s)) in
            if Nat.eqb (length x) 1 then Seg KSeq x else Seg KSet x
  | KCSet => let x := dedup (nsort (s_asns s)) in
             if Nat.eqb (length x) 1 then Seg KCSeq x else Seg KCSet x
  end.

(** aspath.rs:105-122 [dedup_merge_in_place].  On [None] the second segment has
    been deduplicated in place and is kept in that form. *)
Definition dedup_merge_in_place (x y0 : seg) : option seg * seg :=
  let y := seg_dedup y0 in
  (match s_kind x, s_kind y with
   | KSeq, KSeq => Some (Seg KSeq (dedup (s_asns x ++ s_asns y)))
   | KCSeq, KCSeq => Some (Seg KCSeq (dedup (s_asns x ++ s_asns y)))
   | _, _ =>
      if is_empty_seq x then Some y
      else if is_empty_seq y then Some x
      else None
   end, y).

(** aspath.rs:515-529 [coalesce], literally: a vector, two indices, swaps and a
    final truncate.  A [true] merge may also change the scanned element (it is
    swapped with an empty sequence, aspath.rs:93); the value left there is
    represented by [junk] and is shown to be irrelevant. *)
Fixpoint set_nth (i : nat) (a : seg) (l : list seg) : list seg :=
  match l, i with
  | [], _ => []
  | _ :: l', O => a :: l'
  | x :: l', S i' => x :: set_nth i' a l'
  end.
Definition swap_nth (i j : nat) (l : list seg) : list seg :=
  match nth_error l i, nth_error l j with
  | Some a, Some b => set_nth i b (set_nth j a l)
  | _, _ => l
  end.
Fixpoint coalesce_vec (merge : seg -> seg -> option seg * seg) (junk : seg -> seg -> seg)
         (fuel : nat) (end_i scan_i : nat) (v : list seg) : list seg :=
  match fuel with
  | O => firstn (S end_i) v
  | S f =>
    if Nat.ltb scan_i (length v) then
      match nth_error v end_i, nth_error v scan_i with
      | Some a, Some b =>
          match merge a b with
          | (Some m, _) =>
              coalesce_vec merge junk f end_i (S scan_i)
                (set_nth scan_i (junk a b) (set_nth end_i m v))
          | (None, b') =>
              coalesce_vec merge junk f (S end_i) (S scan_i)
                (swap_nth (S end_i) scan_i (set_nth scan_i b' v))
          end
      | _, _ => v
      end
    else firstn (S end_i) v
  end.

(** The same two loops as a left fold over the segments. *)
Fixpoint coalesce_from (merge : seg -> seg -> option seg * seg) (cur : seg) (l : list seg) : list seg :=
  match l with
  | [] => [cur]
  | y :: l' =>
      match merge cur y with
      | (Some m, _) => coalesce_from merge m l'
      | (None, y') => cur :: coalesce_from merge y' l'
      end
  end.
Definition plain_merge (x y : seg) : option seg * seg := (merge_in_place x y, y).

(** aspath.rs:515-529 [AsPath::coalesce]. *)
Definition coalesce (p : aspath) : aspath :=
  match p with [] => [] | s :: p' => coalesce_from plain_merge s p' end.
(** aspath.rs:563-580 [AsPath::dedup_coalesce]. *)
Definition dedup_coalesce (p : aspath) : aspath :=
  match p with [] => [] | s :: p' => coalesce_from dedup_merge_in_place (seg_dedup s) p' end.

(** [==] on slices of AS numbers. *)
Fixpoint asns_eqb (a b : list asn) : bool :=
  match a, b with
  | [], [] => true
  | x :: a', y :: b' => (x =? y) && asns_eqb a' b'
  | _, _ => false
  end.

(** aspath.rs:264-303 [PartialEq for AsPathSegment]; the fixed 32-element
    buffers of the first sorting branch are represented by lists. *)
Definition set_eqb (x y : list asn) : bool :=
  if negb (Nat.eqb (length x) (length y)) then false
  else if asns_eqb x y then true
  else if Nat.leb (length x) 32 then asns_eqb (nsort x) (nsort y)
  else forallb (fun '(a, b) => a =? b) (combine (nsort x) (nsort y)).
Definition seg_eqb (a b : seg) : bool :=
  match s_kind a, s_kind b with
  | KSeq, KSeq | KCSeq, KCSeq => asns_eqb (s_asns a) (s_asns b)
  | KSet, KSet | KCSet, KCSet => set_eqb (s_asns a) (s_asns b)
  | _, _ => false
  end.
(** aspath.rs:390 derived [PartialEq for AsPath]. *)
Fixpoint path_eqb (a b : aspath) : bool :=
  match a, b with
  | [], [] => true
  | x :: a', y :: b' => seg_eqb x y && path_eqb a' b'
  | _, _ => false
  end.
(** aspath.rs:586-594 [has_equivalent_routing]. *)
Definition has_equivalent_routing (a b : aspath) : bool :=
  path_eqb (dedup_coalesce a) (dedup_coalesce b).

(** aspath.rs:220-248 [Hash for AsPathSegment] and the derived [Hash for
    AsPath]: the sequence of integers written to the hasher (discriminant; for
    sequences the slice length and the elements; for sets the sorted elements,
    both below and above the 32-element threshold). *)
Definition kind_disc (k : skind) : N :=
  match k with KSeq => 0 | KSet => 1 | KCSeq => 2 | KCSet => 3 end.
Definition seg_hash (s : seg) : list N :=
  kind_disc (s_kind s) ::
  (if is_seq_kind (s_kind s) then nlen (s_asns s) :: s_asns s else nsort (s_asns s)).
Definition path_hash (p : aspath) : list N := nlen p :: flat_map seg_hash p.

(** aspath.rs:467-477 [num_route_variations]; the [u64] product panics on
    overflow in debug builds. *)
Fixpoint variations_from (acc : N) (p : aspath) : res N :=
  match p with
  | [] => Ok acc
  | s :: p' =>
    match s_kind s with
    | KSet => let n := acc * nlen (s_asns s) in
              if n <? 2 ^ 64 then variations_from n p' else Panic
    | _ => variations_from acc p'
    end
  end.
Definition num_route_variations (p : aspath) : res N := variations_from 1 p.

(** aspath.rs:316-346 [AsPathNumberedRouteIter], run to exhaustion; the slice
    index of an AS_SEQUENCE walk is the list itself.  The modulus is in range,
    so the [nth] default is never used when the set is not empty. *)
Fixpoint numbered_route (p : aspath) (n : N) : list asn :=
  match p with
  | [] => []
  | s :: p' =>
    match s_kind s with
    | KSeq => s_asns s ++ numbered_route p' n
    | KSet =>
        match s_asns s with
        | [] => 0 :: numbered_route p' n
        | _ => let len := nlen (s_asns s) in
               nth (N.to_nat (n mod len)) (s_asns s) 0 :: numbered_route p' (n / len)
        end
    | _ => numbered_route p' n
    end
  end.

(** aspath.rs:355-384 [AsPathRouteIter::next] with its fast path for a single
    sequence. *)
Definition route_iter_next (p : aspath) (total : N) (route_num : N) : option (list asn * N) :=
  if total <=? route_num then None
  else match (route_num =? 0), p with
       | true, [Seg KSeq l] => Some (l, route_num + 1)
       | _, _ => Some (numbered_route p route_num, route_num + 1)
       end.
Fixpoint route_iter (fuel : nat) (p : aspath) (total n : N) : list (list asn) :=
  match fuel with
  | O => []
  | S f => match route_iter_next p total n with
           | None => []
           | Some (r, n') => r :: route_iter f p total n'
           end
  end.
(** aspath.rs:620-630 [iter_routes]. *)
Definition iter_routes (p : aspath) : res (list (list asn)) :=
  total <~ num_route_variations p ;; Ok (route_iter (S (N.to_nat total)) p total 0).

(** aspath.rs:664-692, the loop of [merge_aspath_as4path]; [unreachable!] is
    [Panic]. *)
Fixpoint take_leading (leading : nat) (p : aspath) : res (list seg) :=
  match p with
  | [] => Ok []
  | s :: p' =>
    match leading with
    | O => Ok []
    | _ =>
      match seg_route_len s with
      | O => l <~ take_leading leading p' ;; Ok (s :: l)
      | n =>
        if Nat.leb n leading then l <~ take_leading (leading - n) p' ;; Ok (s :: l)
        else match s_kind s with
             | KSeq => l <~ take_leading 0 p' ;; Ok (Seg KSeq (firstn leading (s_asns s)) :: l)
             | _ => Panic
             end
      end
    end
  end.
(** aspath.rs:653-700 [merge_aspath_as4path]. *)
Definition merge_aspath_as4path (aspath as4path : aspath) : res (list seg) :=
  if Nat.ltb (route_len aspath) (route_len as4path) then Ok aspath else
  new_segs <~ take_leading (route_len aspath - route_len as4path) aspath ;;
  Ok (coalesce (new_segs ++ as4path)).

(** aspath.rs:704-712 [iter_origins]. *)
Definition last_opt {A} (l : list A) : option A :=
  match rev l with a :: _ => Some a | [] => None end.
Definition iter_origins (p : aspath) : list asn :=
  match last_opt p with
  | Some (Seg KSeq v) => match last_opt v with Some a => [a] | None => [] end
  | Some (Seg KSet v) => v
  | _ => []
  end.
(** aspath.rs:717-723 [get_origin_opt]. *)
Definition get_origin_opt (p : aspath) : option asn :=
  match last_opt p with
  | Some (Seg KSeq v) => last_opt v
  | Some (Seg KSet [a]) => Some a
  | _ => None
  end.
(** aspath.rs:727-733 [get_collector_opt]. *)
Definition get_collector_opt (p : aspath) : option asn :=
  match p with
  | Seg KSeq (a :: _) :: _ => Some a
  | Seg KSet [a] :: _ => Some a
  | _ => None
  end.
(** aspath.rs:148-168 [AsPathSegment::to_u32_vec_opt]. *)
Definition seg_to_u32_vec_opt (dd : bool) (s : seg) : option (list N) :=
  match s_kind s with
  | KSeq => Some (if dd then dedup (s_asns s) else s_asns s)
  | KSet => match s_asns s with [a] => Some [a] | _ => None end
  | _ => None
  end.
(** aspath.rs:735-758 [AsPath::to_u32_vec_opt]. *)
Fixpoint u32_vec_rev (dd : bool) (rsegs : list seg) (acc : list N) : option (list N) :=
  match rsegs with
  | [] => Some acc
  | s :: r => match seg_to_u32_vec_opt dd s with
              | None => None
              | Some p => u32_vec_rev dd r (acc ++ rev p)
              end
  end.
Definition to_u32_vec_opt (dd : bool) (p : aspath) : option (list N) :=
  match u32_vec_rev dd (rev p) [] with
  | None => None
  | Some [] => None
  | Some v => Some (rev v)
  end.
(** aspath.rs:480-482 [contains_asn]. *)
Definition contains_asn (p : aspath) (x : asn) : bool :=
  existsb (N.eqb x) (flat_map s_asns p).

(** asn.rs:92-98 [required_len], aspath.rs:597-605 [required_asn_length]. *)
Definition required_asn_length (p : aspath) : asn_len :=
  fold_left (fun a x => match a with
                        | Bits16 => if x <=? 65535 then Bits16 else Bits32
                        | Bits32 => Bits32 end) (flat_map s_asns p) Bits16.

(** attr_02_17_as_path.rs:8-12: segment type codes. *)
Definition kind_code (k : skind) : N :=
  match k with KSet => 1 | KSeq => 2 | KCSeq => 3 | KCSet => 4 end.
Definition kind_of_code (n : N) : option skind :=
  if n =? 1 then Some KSet else if n =? 2 then Some KSeq
  else if n =? 3 then Some KCSeq else if n =? 4 then Some KCSet else None.

(** attr_02_17_as_path.rs:26-56 [parse_as_path_segment]. *)
Definition parse_as_path_segment (l : asn_len) : P seg :=
  ty <- read_u8 ;; count <- read_u8 ;;
  rem <- remaining ;;
  if N.of_nat rem <? count * N.of_nat (asn_width l) then fail ETrunc else
  path <- read_asns l count ;;
  match kind_of_code ty with Some k => ret (Seg k path) | None => fail EParse end.
(** attr_02_17_as_path.rs:14-24 [parse_as_path]. *)
Definition parse_as_path (s : bytes) (l : asn_len) : res aspath :=
  many_p (length s) (parse_as_path_segment l) s.

(** error.rs:85-94 [check_max]. *)
Definition check_max (v max : N) : res unit := if max <? v then Err EEncTooLarge else Ok tt.

(** attr_02_17_as_path.rs:78-100 [write_asns]. *)
Definition write_asns (l : asn_len) (xs : list asn) : res bytes :=
  bs <~ rmap (fun a => match l with
                       | Bits32 => Ok (be 4 a)
                       | Bits16 => _ <~ check_max a 65535 ;; Ok (be 2 a)
                       end) xs ;;
  Ok (concat bs).
(** attr_02_17_as_path.rs:58-76 [encode_as_path]. *)
Definition encode_seg (l : asn_len) (s : seg) : res bytes :=
  _ <~ check_max (nlen (s_asns s)) 255 ;;
  b <~ write_asns l (s_asns s) ;;
  Ok (be 1 (kind_code (s_kind s)) ++ be 1 (nlen (s_asns s)) ++ b).
Definition encode_as_path (l : asn_len) (p : aspath) : res bytes :=
  bs <~ rmap (encode_seg l) p ;; Ok (concat bs).
