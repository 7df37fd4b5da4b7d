(** Route-level iteration (/repo/src/parser/iters/route.rs). *)
From Verif Require Import Base Reader Net AsPath Community Nlri Attr BgpMsg Bgp4mp TableDump Stream Framing MrtRecord Elem Filter Iter.

(** route.rs:37-44 [merge_as_path]. *)
Definition merge_as_path (p p4 : option aspath) : res (option aspath) :=
  match p, p4 with
  | None, None => Ok None
  | Some v, None | None, Some v => Ok (Some v)
  | Some v, Some w => m <~ merge_aspath_as4path v w ;; Ok (Some m)
  end.
(** route.rs:52-56: the variables of [parse_route_attributes]; the validation state, whose
    warnings are dropped, is left out. *)
Record rattrs := RAttrs { ra_path : option aspath; ra_path4 : option aspath; ra_ann : list prefix; ra_wd : list prefix }.
(** route.rs:80-118: one attribute; an error leaves the variables as they are. *)
Definition rattr_step (k : acfg) (c : N) (v : bytes) (r : rattrs) : res rattrs :=
  match c with
  | 2 => match parse_as_path v (ac_asn k) with
         | Ok p => Ok (RAttrs (Some p) (ra_path4 r) (ra_ann r) (ra_wd r)) | Err _ => Ok r | Panic => Panic end
  | 17 => match parse_as_path v Bits32 with
          | Ok p => Ok (RAttrs (ra_path r) (Some p) (ra_ann r) (ra_wd r)) | Err _ => Ok r | Panic => Panic end
  | 14 => match parse_nlri v (ac_afi k) (ac_safi k) (ac_prefixes k) true (ac_add_path k) with
          | Ok n => Ok (RAttrs (ra_path r) (ra_path4 r) (nl_prefixes n) (ra_wd r)) | Err _ => Ok r | Panic => Panic end
  | 15 => match parse_nlri v (ac_afi k) (ac_safi k) (ac_prefixes k) false (ac_add_path k) with
          | Ok n => Ok (RAttrs (ra_path r) (ra_path4 r) (ra_ann r) (nl_prefixes n)) | Err _ => Ok r | Panic => Panic end
  | _ => Ok r
  end.
(** route.rs:58-119: the loop. *)
Fixpoint rattrs_loop (fuel : nat) (k : acfg) (r : rattrs) (s : bytes) : res rattrs :=
  if Nat.leb 3 (length s) then
    match fuel with
    | O => Panic
    | S fuel' =>
        '(h, s1) <~ read_attr_header s ;;
        let '(f, c, len) := h in
        if nlen s1 <? len then Ok r
        else
          '(v, s2) <~ split_to (N.to_nat len) s1 ;;
          r' <~ rattr_step k c v r ;;
          rattrs_loop fuel' k r' s2
    end
  else Ok r.
(** route.rs:46-131 [parse_route_attributes]: the path, the announced and the withdrawn prefixes. *)
Definition parse_route_attributes (k : acfg) (s : bytes) : res (option aspath * list prefix * list prefix) :=
  r <~ rattrs_loop (length s) k (RAttrs None None [] []) s ;;
  p <~ merge_as_path (ra_path r) (ra_path4 r) ;;
  Ok (p, ra_ann r, ra_wd r).

(** route.rs:140-150 [RouteUpdateIter], 247-250 [RouteTableDumpIter], 293-301
    [RouteRibAfiIter], 227-234 [RouteRecordIter]; 179-188 [RoutePeerTable] is the list of peers. *)
Record rt_update := RtUpd {
  rm_time : f64; rm_peer : ip; rm_asn : asn; rm_path : option aspath; rm_ann : list prefix; rm_wd : list prefix; rm_phase : bool }.
Inductive route_iter :=
| RtEmpty
| RtUpdate (u : rt_update)
| RtDump (a : afi) (d : bytes)
| RtRib (t : list peer) (a : afi) (sf : safi) (ap : bool) (p : prefix) (n : nat) (d : bytes).
(** route.rs:152-177 [RouteUpdateIter::next_route]. *)
Definition rt_update_next (u : rt_update) : option route * rt_update :=
  let '(RtUpd t pi pa path ann wd ph) := u in
  let withdrawn ann ph :=
    match wd with
    | p :: l => (Some (Route t Withdraw pi pa p None), RtUpd t pi pa path ann l ph)
    | [] => (None, RtUpd t pi pa path ann [] ph)
    end in
  if ph then withdrawn ann true
  else match ann with
       | p :: l => (Some (Route t Announce pi pa p path), RtUpd t pi pa path l wd false)
       | [] => withdrawn [] true
       end.
(** route.rs:258-289: one entry of a TABLE_DUMP record. *)
Definition read_dump_route (a : afi) : P route :=
  p <- (match a with AIpv4 => read_ipv4_prefix | AIpv6 => read_ipv6_prefix | ALinkState => fun _ => Panic end) ;;
  read_u8 ;;; tm <- read_u32 ;; pi <- read_address a ;; pa <- read_u16 ;;
  n <- read_u16 ;; has_n n ;;; b <- split_to (N.to_nat n) ;;
  '(path, _, _) <- lift (parse_route_attributes (ACfg Bits16 false None None None) b) ;;
  ret (Route (f64_of_N tm) Announce pi pa (Pfx p None) path).
(** rib_afi_entries.rs:52-54 [rib_entry_min_len]. *)
Definition rib_entry_min_len (ap : bool) : nat := 8 + if ap then 4 else 0.
(** route.rs:304-360 [RouteRibAfiIter::next_route]: the route, the entries left and the rest of
    the data.  [n] is [remaining_entries]. *)
Fixpoint rt_rib_next (t : list peer) (a : afi) (sf : safi) (ap : bool) (p : prefix) (n : nat) (d : bytes) : res (option route * (nat * bytes)) :=
  match n with
  | O => Ok (None, (O, d))
  | S n' =>
      if Nat.ltb (length d) (rib_entry_min_len ap) then Ok (None, (O, d)) else
      '((pi, tm, len), d1) <~ (pi <- read_u16 ;; tm <- read_u32 ;;
                               (if ap then read_u32 ;;; ret tt else ret tt) ;;;
                               len <- read_u16 ;; ret (pi, tm, len)) d ;;
      if nlen d1 <? len then Ok (None, (O, d1)) else
      '(b, d2) <~ split_to (N.to_nat len) d1 ;;
      '(path, _, _) <~ parse_route_attributes (ACfg Bits32 ap (Some a) (Some sf) (Some [p])) b ;;
      match nth_error t (N.to_nat pi) with
      | None => rt_rib_next t a sf ap p n' d2
      | Some pe => Ok (Some (Route (f64_of_N tm) Announce (pe_ip pe) (pe_asn pe) p path), (n', d2))
      end
  end.
(** route.rs:236-245 [RouteRecordIter::next_route].  After an error the iterator is not used again. *)
Definition rt_next (i : route_iter) : res (option route * route_iter) :=
  match i with
  | RtEmpty => Ok (None, RtEmpty)
  | RtUpdate u => let '(o, u') := rt_update_next u in Ok (o, RtUpdate u')
  | RtDump a [] => Ok (None, RtDump a [])
  | RtDump a d => '(r, d') <~ read_dump_route a d ;; Ok (Some r, RtDump a d')
  | RtRib t a sf ap p n d => '(o, (n', d')) <~ rt_rib_next t a sf ap p n d ;; Ok (o, RtRib t a sf ap p n' d')
  end.

(** route.rs:190-225 [parse_route_peer_table]; the name of the view is skipped. *)
Definition parse_route_peers : P (list peer) :=
  read_u32 ;;; n <- read_u16 ;; has_n n ;;; split_to (N.to_nat n) ;;;
  count <- read_u16 ;;
  repeat_p (N.to_nat count)
    (t <- read_u8 ;; id <- read_ipv4 ;; i <- read_address (if type_ipv6 t then AIpv6 else AIpv4) ;;
     a <- read_asn (if type_as4 t then Bits32 else Bits16) ;; ret (Peer t id i a)).
(** route.rs:363-401 [parse_bgp_update_routes]. *)
Definition parse_update_routes (ap : bool) (al : asn_len) (t : f64) (pi : ip) (pa : asn) (s : bytes) : res rt_update :=
  run (n <- read_u16 ;; has_n n ;;; w <- split_to (N.to_nat n) ;; wd <- lift (parse_nlri_list w ap AIpv4) ;;
       k <- read_u16 ;; has_n k ;;; b <- split_to (N.to_nat k) ;;
       r <- peek ;; an <- lift (parse_nlri_list r ap AIpv4) ;;
       '(path, man, mwd) <- lift (parse_route_attributes (ACfg al ap None None None) b) ;;
       ret (RtUpd t pi pa path (an ++ man) (wd ++ mwd) false)) s.
(** route.rs:403-454 [parse_bgp_message_routes]. *)
Definition parse_message_routes (ap : bool) (al : asn_len) (t : f64) (pi : ip) (pa : asn) (s : bytes) : res route_iter :=
  let total := nlen s in
  run (has_n 19 ;;; has_n 16 ;;; split_to 16 ;;;
       len <- read_u16 ;;
       if len <? 19 then fail EParse else
       let n := if total <? len then total - 19 else len - 19 in
       ty <- read_u8 ;;
       if (ty <? 1) || (5 <? ty) then fail EParse else
       if ((ty =? 1) || (ty =? 4)) && (4096 <? len) then fail EParse else
       has_n n ;;; d <- split_to (N.to_nat n) ;;
       if ty =? 2 then u <- lift (parse_update_routes ap al t pi pa d) ;; ret (RtUpdate u) else ret RtEmpty) s.
(** route.rs:456-468 [bgp4mp_asn_len_and_add_path]. *)
Definition mp_modes (sub : N) : option (asn_len * bool) :=
  match sub with
  | 1 | 6 => Some (Bits16, false) | 4 | 7 => Some (Bits32, false)
  | 8 | 10 => Some (Bits16, true) | 9 | 11 => Some (Bits32, true)
  | _ => None
  end.
(** route.rs:470-509 [parse_bgp4mp_routes]. *)
Definition parse_bgp4mp_routes (sub : N) (t : f64) (s : bytes) : res route_iter :=
  if negb (mp_known sub) then Err EParse else
  match mp_modes sub with
  | None => Ok RtEmpty
  | Some (al, ap) =>
      run (pa <- read_asn al ;; read_asn al ;;;
           if is_short_zebra_open s al then r <- peek ;; lift (parse_message_routes ap al t (V4 0) pa r)
           else
             read_u16 ;;; a <- read_afi ;; n <- lift (mp_payload_len a al (nlen s)) ;;
             pi <- read_address a ;; read_address a ;;;
             r <- peek ;;
             if negb (n =? nlen r) then fail ETrunc else
             lift (parse_message_routes ap al t pi pa r)) s
  end.
(** route.rs:541-560 [parse_table_dump_routes]. *)
Definition parse_dump_routes (sub : N) (s : bytes) : res route_iter :=
  match sub with
  | 1 | 2 =>
      run (read_u16 ;;; read_u16 ;;; r <- peek ;;
           match r with [] => fail ETrunc | _ => ret (RtDump (if sub =? 1 then AIpv4 else AIpv6) r) end) s
  | _ => Err EParse
  end.
(** route.rs:562-590 [parse_legacy_bgp_routes]. *)
Definition parse_legacy_routes (sub : N) (t : f64) (s : bytes) : res route_iter :=
  match sub with
  | 1 =>
      run (pa <- read_u16 ;; pi <- read_ipv4 ;; read_u16 ;;; read_ipv4 ;;; r <- peek ;;
           u <- lift (parse_update_routes false Bits16 t (V4 pi) pa r) ;; ret (RtUpdate u)) s
  | 3 | 5 | 6 | 7 => _ <~ parse_legacy sub s ;; Ok RtEmpty
  | _ => Err EUnsup
  end.
(** route.rs:511-539: families and Add-Path of RIB records, written once more. *)
Definition rt_family (t : N) : option (afi * safi) :=
  match t with
  | 2 | 8 => Some (AIpv4, SUnicast)
  | 3 | 9 => Some (AIpv4, SMulticast)
  | 4 | 10 => Some (AIpv6, SUnicast)
  | 5 | 11 => Some (AIpv6, SMulticast)
  | _ => None
  end.
Definition rt_add_path (t : N) : bool := match t with 8 | 9 | 10 | 11 => true | _ => false end.
(** route.rs:592-630 [parse_table_dump_v2_routes]: the iterator and the peer table afterwards
    (which an error leaves as it was). *)
Definition parse_v2_routes (sub : N) (s : bytes) (t : option (list peer)) : res (route_iter * option (list peer)) :=
  match sub with
  | 1 => l <~ run parse_route_peers s ;; Ok (RtEmpty, Some l)
  | 7 => Ok (RtEmpty, t)
  | 6 | 12 => Err EUnsup
  | _ =>
      match rt_family sub with
      | None => Err EParse
      | Some (a, sf) =>
          '((p, n), d) <~ (read_u32 ;;; p <- read_nlri_prefix a false ;; n <- read_u16 ;; ret (p, n)) s ;;
          match t with
          | None => Err EParse
          | Some l => Ok (RtRib l a sf (rt_add_path sub) p (N.to_nat n) d, t)
          end
      end
  end.
(** route.rs:632-661 [parse_raw_record_route_iter]; 133-138 [record_timestamp] is the
    computation of [record_time]. *)
Definition parse_raw_routes (w : raw) (t : option (list peer)) : res (route_iter * option (list peer)) :=
  let h := r_hdr w in
  let keep (r : res route_iter) := i <~ r ;; Ok (i, t) in
  match h_type h with
  | 12 => keep (parse_dump_routes (h_sub h) (r_body w))
  | 13 => parse_v2_routes (h_sub h) (r_body w) t
  | 16 | 17 => keep (parse_bgp4mp_routes (h_sub h) (record_time h) (r_body w))
  | 5 => keep (parse_legacy_routes (h_sub h) (record_time h) (r_body w))
  | _ => Err EUnsup
  end.

(** route.rs:663-679, 775-791: the state of both iterators. *)
Record rt_state := RtSt { rs_iter : route_iter; rs_table : option (list peer); rs_raw : option bytes; rs_parser : parser }.
(** route.rs:681-773 [RouteIterator]; 713-749 is the policy of the raw iterator. *)
Fixpoint rt_loop (show : meta_community -> bytes) (fuel : nat) (st : rt_state) : res (option route * rt_state) :=
  match fuel with
  | O => Panic
  | S f =>
      let '(RtSt i t raw p) := st in
      match rt_next i with
      | Panic => Panic
      | Ok (Some r, i') =>
          if match_filters show (VRoute r) (pr_filters p) then Ok (Some r, RtSt i' t raw p)
          else rt_loop show f (RtSt i' t raw p)
      | Err _ =>
          let p' := write_dump p raw in
          if pr_core p then Ok (None, RtSt RtEmpty t None p') else rt_loop show f (RtSt RtEmpty t None p')
      | Ok (None, i') =>
          match chunk_mrt_record_s (pr_stream p) with
          | CErr e _ c s =>
              let '(go, p') := raw_policy (with_stream p s) e c in
              if go then rt_loop show f (RtSt i' t None p') else Ok (None, RtSt i' t None p')
          | CRec w s =>
              let p' := with_stream p s in
              match parse_raw_routes w t with
              | Panic => Panic
              | Ok (i2, t2) => rt_loop show f (RtSt i2 t2 (Some (raw_bytes w)) p')
              | Err _ =>
                  let p2 := write_dump p' (Some (raw_bytes w)) in
                  if pr_core p then Ok (None, RtSt i' t None p2) else rt_loop show f (RtSt i' t None p2)
              end
          end
      end
  end.
Definition route_next (show : meta_community -> bytes) (fuel : nat) (st : rt_state) : res (option route * rt_state) :=
  match pr_text (rs_parser st) with Some _ => Ok (None, st) | None => rt_loop show fuel st end.
Definition route_list (show : meta_community -> bytes) (fuel : nat) (p : parser) : res (list route) :=
  collect (route_next show fuel) fuel (RtSt RtEmpty None None p).
(** route.rs:793-846 [FallibleRouteIterator]. *)
Fixpoint frt_loop (show : meta_community -> bytes) (fuel : nat) (st : rt_state) : res (option (item route) * rt_state) :=
  match fuel with
  | O => Panic
  | S f =>
      let '(RtSt i t raw p) := st in
      match rt_next i with
      | Panic => Panic
      | Ok (Some r, i') =>
          if match_filters show (VRoute r) (pr_filters p) then Ok (Some (inl r), RtSt i' t raw p)
          else frt_loop show f (RtSt i' t raw p)
      | Err e => Ok (Some (inr (e, raw)), RtSt RtEmpty t None p)
      | Ok (None, i') =>
          match chunk_mrt_record_s (pr_stream p) with
          | CErr EEofExpected _ _ s => Ok (None, RtSt i' t None (with_stream p s))
          | CErr e _ c s => Ok (Some (inr (e, c)), RtSt i' t None (with_stream p s))
          | CRec w s =>
              let p' := with_stream p s in
              match parse_raw_routes w t with
              | Panic => Panic
              | Ok (i2, t2) => frt_loop show f (RtSt i2 t2 (Some (raw_bytes w)) p')
              | Err e => Ok (Some (inr (e, Some (raw_bytes w))), RtSt i' t None p')
              end
          end
      end
  end.
Definition froute_next (show : meta_community -> bytes) (fuel : nat) (st : rt_state) : res (option (item route) * rt_state) :=
  match pr_text (rs_parser st) with Some _ => Ok (None, st) | None => frt_loop show fuel st end.
Definition froute_list (show : meta_community -> bytes) (fuel : nat) (p : parser) : res (list (item route)) :=
  collect (froute_next show fuel) fuel (RtSt RtEmpty None None p).
