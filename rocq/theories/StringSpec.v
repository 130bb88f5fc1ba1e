(** Specification of Unicode text on the wire, after the Unicode standard (tables 3-5 and 3-6)
    and the SOME/IP rules for strings: byte order mark, text, terminator. *)
From Coq Require Import List NArith Bool.
From Verif Require Import BytesModel.
Import ListNotations.
Open Scope N_scope.

(** A Unicode scalar value: a code point that is not a surrogate. *)
Definition scalar (c : N) : Prop := c < 0xD800 \/ (0xE000 <= c /\ c <= 0x10FFFF).

(** UTF-8 form of a scalar value. *)
Definition utf8_char (c : N) : list N :=
  if c <? 0x80 then [c]
  else if c <? 0x800 then [0xC0 + c / 64; 0x80 + c mod 64]
  else if c <? 0x10000 then [0xE0 + c / 4096; 0x80 + c / 64 mod 64; 0x80 + c mod 64]
  else [0xF0 + c / 262144; 0x80 + c / 4096 mod 64; 0x80 + c / 64 mod 64; 0x80 + c mod 64].
Definition utf8 (s : list N) : list N := concat (map utf8_char s).

(** UTF-16 code units of a scalar value. *)
Definition utf16_char (c : N) : list N :=
  if c <? 0x10000 then [c]
  else [0xD800 + (c - 0x10000) / 1024; 0xDC00 + (c - 0x10000) mod 1024].
Definition utf16 (s : list N) : list N := concat (map utf16_char s).

(** The bytes of code units in each byte order. *)
Definition units_be (us : list N) : list N := concat (map (fun u => [u / 256; u mod 256]) us).
Definition units_le (us : list N) : list N := concat (map (fun u => [u mod 256; u / 256]) us).

(** The three wire forms of a string. *)
Definition text_utf8 (s : list N) : list N := [0xEF; 0xBB; 0xBF] ++ utf8 s ++ [0].
Definition text_utf16_be (s : list N) : list N := [0xFE; 0xFF] ++ units_be (utf16 s) ++ [0; 0].
Definition text_utf16_le (s : list N) : list N := [0xFF; 0xFE] ++ units_le (utf16 s) ++ [0; 0].

(** A string of scalar values without U+0000. *)
Definition text (s : list N) : Prop := Forall (fun c => scalar c /\ c <> 0) s.

(** The wire forms of a string without U+0000. *)
Inductive wire_text : list N -> list N -> Prop :=
| wt_utf8 s : text s -> wire_text s (text_utf8 s)
| wt_be s : text s -> wire_text s (text_utf16_be s)
| wt_le s : text s -> wire_text s (text_utf16_le s).
