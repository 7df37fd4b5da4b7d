(** Text forms: decimal numbers, AS paths. *)
From Coq Require Import String Ascii.
From Verif Require Import Base Net AsPath.

(** A string literal as its bytes. *)
Definition str (s : string) : bytes := map N_of_ascii (list_ascii_of_string s).
(** [Display] of the unsigned integers. *)
Fixpoint dec_digits (fuel : nat) (n : N) (acc : bytes) : bytes :=
  match fuel with
  | O => acc
  | S f => let acc' := (48 + n mod 10) :: acc in if n / 10 =? 0 then acc' else dec_digits f (n / 10) acc'
  end.
Definition dec (n : N) : bytes := dec_digits (S (N.to_nat (N.size n))) n [].
(** [u32::from_str]: an optional plus sign, then one or more digits; no overflow. *)
Fixpoint parse_digits (acc : N) (s : bytes) : option N :=
  match s with
  | [] => Some acc
  | c :: s' =>
      if (48 <=? c) && (c <=? 57) then
        let v := acc * 10 + (c - 48) in if 4294967295 <? v then None else parse_digits v s'
      else None
  end.
Definition parse_u32 (s : bytes) : option N :=
  match s with
  | [] => None
  | 43 :: [] => None
  | 43 :: s' => parse_digits 0 s'
  | _ => parse_digits 0 s
  end.
(** [join]. *)
Fixpoint join (sep : bytes) (l : list bytes) : bytes :=
  match l with [] => [] | [x] => x | x :: l' => x ++ sep ++ join sep l' end.
(** [str::split] on one character. *)
Fixpoint split_on (c : N) (s : bytes) : list bytes :=
  match s with
  | [] => [[]]
  | x :: s' => if x =? c then [] :: split_on c s'
               else match split_on c s' with h :: t => (x :: h) :: t | [] => [[x]] end
  end.
(** asn.rs:261-265 [Display for Asn], 273-285 [FromStr for Asn]. *)
Definition show_asn (a : asn) : bytes := dec a.
Definition parse_asn (s : bytes) : option asn :=
  match s with 65 :: 83 :: s' => parse_u32 s' | _ => parse_u32 s end.
(** aspath.rs:786-821 [Display for AsPath]. *)
Definition show_seg (x : seg) : bytes :=
  match s_kind x with
  | KSeq | KCSeq => join [32] (map show_asn (s_asns x))
  | KSet | KCSet => [123] ++ join [44] (map show_asn (s_asns x)) ++ [125]
  end.
Definition show_path (p : aspath) : bytes := join [32] (map show_seg p).
