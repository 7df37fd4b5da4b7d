(** The wire form of RPKI-to-router PDUs (RFC 6810, RFC 8210), and vocabulary of the theorems. *)
From Verif Require Import Base Net Stream TableDumpSpec Rtr.

(** [fields] is [version, type, 16 bits, length], then the body; [z] are the bits a receiver ignores. *)
Definition header_bits (v : rtr_version) (ty code len : N) : bytes := [match v with RV0 => 0 | RV1 => 1 end; ty] ++ be 2 code ++ be 4 len.
Definition u8 (n : N) := n < 256.
Definition u16 (n : N) := n < 65536.
Definition u32 (n : N) := n < 2 ^ 32.
Inductive pdu_wire : pdu -> bytes -> Prop :=
| w_notify v i n : u16 i -> u32 n -> pdu_wire (SerialNotify v i n) (header_bits v 0 i 12 ++ be 4 n)
| w_query v i n : u16 i -> u32 n -> pdu_wire (SerialQuery v i n) (header_bits v 1 i 12 ++ be 4 n)
| w_reset v z : u16 z -> pdu_wire (ResetQuery v) (header_bits v 2 z 8)
| w_response v i : u16 i -> pdu_wire (CacheResponse v i) (header_bits v 3 i 8)
| w_ipv4 v f p m i a z z' : u8 f -> p <= m -> m <= 32 -> u32 i -> u32 a -> u16 z -> u8 z' ->
    pdu_wire (Ipv4Prefix v f p m i a) (header_bits v 4 z 20 ++ [f; p; m; z'] ++ be 4 i ++ be 4 a)
| w_ipv6 v f p m i a z z' : u8 f -> p <= m -> m <= 128 -> i < 2 ^ 128 -> u32 a -> u16 z -> u8 z' ->
    pdu_wire (Ipv6Prefix v f p m i a) (header_bits v 6 z 32 ++ [f; p; m; z'] ++ be 16 i ++ be 4 a)
| w_end0 i n : u16 i -> u32 n -> pdu_wire (EndOfData RV0 i n None None None) (header_bits RV0 7 i 12 ++ be 4 n)
| w_end1 i n r t e : u16 i -> u32 n -> u32 r -> u32 t -> u32 e ->
    pdu_wire (EndOfData RV1 i n (Some r) (Some t) (Some e)) (header_bits RV1 7 i 24 ++ be 4 n ++ be 4 r ++ be 4 t ++ be 4 e)
| w_cache_reset v z : u16 z -> pdu_wire (CacheReset v) (header_bits v 8 z 8)
| w_key f k a s z z' : u8 f -> length k = 20%nat -> bytes_ok k -> u32 a -> bytes_ok s -> u32 (34 + nlen s) -> u16 z -> u8 z' ->
    pdu_wire (RouterKey RV1 f k a s) (header_bits RV1 9 z (34 + nlen s) ++ [f; z'] ++ k ++ be 4 a ++ s)
| w_error v c e t z : c <= 8 -> bytes_ok e -> utf8 t -> bytes_ok z -> u32 (16 + nlen e + nlen t + nlen z) ->
    pdu_wire (ErrorReport v c e t) (header_bits v 10 c (16 + nlen e + nlen t + nlen z) ++ be 4 (nlen e) ++ e ++ be 4 (nlen t) ++ t ++ z).
(** PDUs the protocol can carry: fields in range, intervals exactly in version 1, router keys
    in version 1 only, prefix length at most the maximal length, itself at most the width. *)
Definition pdu_ok (p : pdu) : Prop :=
  match p with
  | SerialNotify _ i n | SerialQuery _ i n => u16 i /\ u32 n
  | ResetQuery _ | CacheReset _ => True
  | CacheResponse _ i => u16 i
  | Ipv4Prefix _ f p m i a => u8 f /\ p <= m <= 32 /\ u32 i /\ u32 a
  | Ipv6Prefix _ f p m i a => u8 f /\ p <= m <= 128 /\ i < 2 ^ 128 /\ u32 a
  | EndOfData RV0 i n r t e => u16 i /\ u32 n /\ r = None /\ t = None /\ e = None
  | EndOfData RV1 i n r t e => u16 i /\ u32 n /\ exists a b c, r = Some a /\ t = Some b /\ e = Some c /\ u32 a /\ u32 b /\ u32 c
  | RouterKey v f k a s => v = RV1 /\ u8 f /\ length k = 20%nat /\ bytes_ok k /\ u32 a /\ bytes_ok s /\ u32 (34 + nlen s)
  | ErrorReport _ c e t => c <= 8 /\ bytes_ok e /\ utf8 t /\ u32 (16 + nlen e + nlen t)
  end.
(** Reading PDU after PDU: the outcomes, up to and without the end of the source. *)
Fixpoint reads_rtr (n : nat) (s : stream) : list (tres pdu) * stream :=
  match n with
  | O => ([], s)
  | S n' => let '(o, s') := read_rtr s in let '(l, s'') := reads_rtr n' s' in (o :: l, s'')
  end.
