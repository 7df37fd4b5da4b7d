(** Rust strings: their octets, the check [String::from_utf8] makes, and the conversion of
    single octets to characters. *)
From Verif Require Import Base.

(** The UTF-8 octets of the Unicode scalar value [c] (RFC 3629 section 3). *)
Definition encode_scalar (c : N) : bytes :=
  if c <? 0x80 then [c]
  else if c <? 0x800 then [0xC0 + c / 64; 0x80 + c mod 64]
  else if c <? 0x10000 then [0xE0 + c / 4096; 0x80 + c / 64 mod 64; 0x80 + c mod 64]
  else [0xF0 + c / 262144; 0x80 + c / 4096 mod 64; 0x80 + c / 64 mod 64; 0x80 + c mod 64].

Definition within (lo hi b : N) : bool := (lo <=? b) && (b <=? hi).
Definition cont (b : N) : bool := within 0x80 0xBF b.
(** [core::str::from_utf8] (the standard library's table of well-formed sequences),
    called by [String::from_utf8] in peer_index_table.rs:27. *)
Fixpoint utf8_ok (s : bytes) : bool :=
  match s with
  | [] => true
  | a :: s1 =>
      if a <? 0x80 then utf8_ok s1 else
      match s1 with
      | [] => false
      | b :: s2 =>
          if within 0xC2 0xDF a then cont b && utf8_ok s2 else
          match s2 with
          | [] => false
          | c :: s3 =>
              if within 0xE0 0xEF a then
                (if a =? 0xE0 then within 0xA0 0xBF b else if a =? 0xED then within 0x80 0x9F b else cont b)
                && cont c && utf8_ok s3
              else
              match s3 with
              | [] => false
              | d :: s4 =>
                  within 0xF0 0xF4 a &&
                  (if a =? 0xF0 then within 0x90 0xBF b else if a =? 0xF4 then within 0x80 0x8F b else cont b)
                  && cont c && cont d && utf8_ok s4
              end
          end
      end
  end.

(** utils.rs:181-187 [read_n_bytes_to_string]: [x as char] for each octet. *)
Definition latin1 (s : bytes) : bytes := flat_map encode_scalar s.
