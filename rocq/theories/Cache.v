(** * Cached sources: the checksum of a location and the name of its cache file

    Models [crc32] (/repo/src/parser/utils.rs:351-379), [add_suffix_to_filename]
    (/repo/src/parser/mod.rs:198-211) and the file name that
    [BgpkitParser::new_cached] (mod.rs:125-144) hands to the [oneio] library.
    Strings are their UTF-8 bytes.  What [oneio] then does with the name (look for
    the file in the cache directory, read it when it is there, and otherwise fetch
    the location and write it there) is the other library's work and is not
    modelled. *)
From Coq Require Import List NArith String.
From Verif Require Import Base Text Render.
Import ListNotations.
Local Open Scope string_scope.
Local Open Scope list_scope.
Local Open Scope N_scope.

(** utils.rs:358: [0xedb88320u32]. *)
Definition polynomial : N := 3988292384.

(** utils.rs:363-367: one turn of the inner loop, on a 32 bit word. *)
Definition turn (crc : N) : N :=
  if N.land crc 1 =? 1 then N.lxor (N.shiftr crc 1) polynomial else N.shiftr crc 1.

(** utils.rs:362: [for _ in 0..8]. *)
Fixpoint turns (n : nat) (crc : N) : N :=
  match n with O => crc | S n' => turns n' (turn crc) end.

(** utils.rs:357,360-370: the table, entry by entry. *)
Definition table : list N := map (fun i => turns 8 (N.of_nat i)) (seq 0 256).

(** utils.rs:373-376: one octet of the input.  The index is below 256, so looking it
    up in the table of 256 never panics: the default of [nth] is never used
    ([table_entry] in CacheFacts.v). *)
Definition octet_step (crc b : N) : N :=
  let index := N.land (N.lxor crc b) 255 in
  N.lxor (N.shiftr crc 8) (nth (N.to_nat index) table 0).

(** [!x] on [u32]. *)
Definition not32 (x : N) : N := 4294967295 - x.

(** utils.rs:372-378: the word that is printed. *)
Definition crc_word (input : bytes) : N :=
  not32 (fold_left octet_step input (not32 0)).

(** utils.rs:378: [{:08x}] of a [u32]: eight lower case digits, zeros in front. *)
Definition hex8 (n : N) : bytes := flat_map low_octet (be 4 n).

(** utils.rs:355-379 [crc32]. *)
Definition crc32 (input : bytes) : bytes := hex8 (crc_word input).

(** mod.rs:199-211 [add_suffix_to_filename].  [pop] takes the last part away and
    [push] puts the new one in its place. *)
Definition add_suffix (filename suffix : bytes) : bytes :=
  let parts := split_on 46 filename in
  if (1 <? List.length parts)%nat then
    join [46] (removelast parts ++ [suffix ++ [46] ++ last parts []])
  else filename ++ [46] ++ suffix.

(** mod.rs:131: [path.rsplit('/').next().unwrap()]: the text after the last slash. *)
Definition file_name (path : bytes) : bytes := last (split_on 47 path) [].

(** mod.rs:130-135: the file name for a location. *)
Definition cache_name (path : bytes) : bytes :=
  str "cache-" ++ add_suffix (file_name path) (crc32 path).
