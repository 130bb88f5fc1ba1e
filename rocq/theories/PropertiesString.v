(** Property theorems C15-C17: strings. *)
From Coq Require Import List NArith ZArith Bool Lia.
From Verif Require Import BytesModel WireSpec StringModel StringSpec StringProofs StringTheorems.
Import ListNotations.
Open Scope N_scope.

(** Hé語😀 *)
Definition ex_str : list N := [0x48; 0xE9; 0x8A9E; 0x1F600].
Example ex_str_text : text ex_str.
Proof. unfold text, ex_str, scalar. repeat apply Forall_cons; try apply Forall_nil; lia. Qed.

(** C15.  serialize_utf8 writes mark, text and terminator, behind an exact length if requested,
    and refuses exactly when the length does not fit its field. *)
Theorem C15_utf8_written : forall s, Forall scalar s ->
  (forall data room, len (text_utf8 s) <= room ->
     serialize_utf8 s None (mkW data room) =
     WOk (len (text_utf8 s)) (mkW (data ++ text_utf8 s) (room - len (text_utf8 s)))) /\
  (forall lf data room, len (text_utf8 s) < 256 ^ N.of_nat (lf_size lf) ->
     N.of_nat (lf_size lf) + len (text_utf8 s) <= room ->
     serialize_utf8 s (Some lf) (mkW data room) =
     WOk (N.of_nat (lf_size lf) + len (text_utf8 s))
         (mkW (data ++ be (lf_size lf) (len (text_utf8 s)) ++ text_utf8 s)
              (room - (N.of_nat (lf_size lf) + len (text_utf8 s))))) /\
  (forall lf b, 256 ^ N.of_nat (lf_size lf) <= len (text_utf8 s) ->
     serialize_utf8 s (Some lf) b =
     WErr (InvalidLength (len (text_utf8 s)) (256 ^ N.of_nat (lf_size lf) - 1)) b).
Proof. exact utf8_written. Qed.
Print Assumptions C15_utf8_written.
Theorem C15_utf8_round_trip : forall host s rest, text s ->
  de_string host (text_utf8 s ++ rest) = DOk s rest.
Proof. exact read_utf8. Qed.
Print Assumptions C15_utf8_round_trip.
Theorem C15_utf8_framed_round_trip : forall host lf s rest, text s ->
  len (text_utf8 s) < 256 ^ N.of_nat (lf_size lf) ->
  deserialize_len (de_string host) lf (be (lf_size lf) (len (text_utf8 s)) ++ text_utf8 s ++ rest) = DOk s rest.
Proof. exact strings_in_frame. Qed.
Print Assumptions C15_utf8_framed_round_trip.
Theorem C15_utf8_truncated_at_nul : forall host a b rest, text a ->
  de_string host (text_utf8 (a ++ 0 :: b) ++ rest) = DOk a (utf8 b ++ [0] ++ rest).
Proof. exact utf8_nul. Qed.
Print Assumptions C15_utf8_truncated_at_nul.
Example C15_example :
  serialize_utf8 ex_str (Some LF8) (mkW [] 20)
  = WOk 15 (mkW [14; 0xEF; 0xBB; 0xBF; 0x48; 0xC3; 0xA9; 0xE8; 0xAA; 0x9E; 0xF0; 0x9F; 0x98; 0x80; 0] 5) /\
  deserialize_len (de_string Little) LF8
    [14; 0xEF; 0xBB; 0xBF; 0x48; 0xC3; 0xA9; 0xE8; 0xAA; 0x9E; 0xF0; 0x9F; 0x98; 0x80; 0; 7] = DOk ex_str [7].
Proof. vm_compute. split; reflexivity. Qed.

(** C16.  UTF-16, both byte orders. *)
Theorem C16_utf16_written : forall e s, Forall scalar s ->
  let form := match e with Little => text_utf16_le s | Big => text_utf16_be s end in
  (forall data room, len form <= room ->
     serialize_utf16 e s None (mkW data room) = WOk (len form) (mkW (data ++ form) (room - len form))) /\
  (forall lf data room, len form < 256 ^ N.of_nat (lf_size lf) ->
     N.of_nat (lf_size lf) + len form <= room ->
     serialize_utf16 e s (Some lf) (mkW data room) =
     WOk (N.of_nat (lf_size lf) + len form)
         (mkW (data ++ be (lf_size lf) (len form) ++ form)
              (room - (N.of_nat (lf_size lf) + len form)))) /\
  (forall lf b, 256 ^ N.of_nat (lf_size lf) <= len form ->
     serialize_utf16 e s (Some lf) b =
     WErr (InvalidLength (len form) (256 ^ N.of_nat (lf_size lf) - 1)) b).
Proof. exact utf16_written. Qed.
Print Assumptions C16_utf16_written.
Theorem C16_utf16_be_round_trip : forall host s rest, text s ->
  de_string host (text_utf16_be s ++ rest) = DOk s rest.
Proof. exact read_utf16_be. Qed.
Print Assumptions C16_utf16_be_round_trip.
Theorem C16_utf16_le_round_trip : forall s rest, text s ->
  de_string Little (text_utf16_le s ++ rest) = DOk s rest.
Proof. exact read_utf16_le. Qed.
Print Assumptions C16_utf16_le_round_trip.
Theorem C16_utf16_be_truncated_at_nul : forall host a b rest, text a ->
  de_string host (text_utf16_be (a ++ 0 :: b) ++ rest) = DOk a (units_be (utf16 b) ++ [0; 0] ++ rest).
Proof. exact utf16_be_nul. Qed.
Print Assumptions C16_utf16_be_truncated_at_nul.
Theorem C16_utf16_le_truncated_at_nul : forall a b rest, text a ->
  de_string Little (text_utf16_le (a ++ 0 :: b) ++ rest) = DOk a (units_le (utf16 b) ++ [0; 0] ++ rest).
Proof. exact utf16_le_nul. Qed.
Print Assumptions C16_utf16_le_truncated_at_nul.
(** On a big-endian host the little-endian form is read as if it were big-endian. *)
Theorem C16_big_endian_host_refuted : exists s s', text s /\ s <> s' /\
  de_string Big (text_utf16_le s) = DOk s' [].
Proof. exact be_host_misreads. Qed.
Print Assumptions C16_big_endian_host_refuted.
Theorem C16_big_endian_host_accepts_iff : forall buf s rest, bytes_ok buf ->
  (de_string Big buf = DOk s rest <->
   text s /\ (buf = text_utf8 s ++ rest \/ buf = text_utf16_be s ++ rest \/
              buf = ([0xFF; 0xFE] ++ units_be (utf16 s) ++ [0; 0]) ++ rest)).
Proof. exact accepts_iff_be_host. Qed.
Print Assumptions C16_big_endian_host_accepts_iff.
Example C16_example :
  serialize_utf16 Little ex_str None (mkW [] 20)
  = WOk 14 (mkW [0xFF; 0xFE; 0x48; 0; 0xE9; 0; 0x9E; 0x8A; 0x3D; 0xD8; 0; 0xDE; 0; 0] 6) /\
  de_string Little [0xFF; 0xFE; 0x48; 0; 0xE9; 0; 0x9E; 0x8A; 0x3D; 0xD8; 0; 0xDE; 0; 0; 1] = DOk ex_str [1].
Proof. vm_compute. split; reflexivity. Qed.

(** C17.  String decoding accepts exactly the three wire forms. *)
Theorem C17_accepts_iff : forall buf s rest, bytes_ok buf ->
  (de_string Little buf = DOk s rest <->
   text s /\ (buf = text_utf8 s ++ rest \/ buf = text_utf16_be s ++ rest \/ buf = text_utf16_le s ++ rest)).
Proof. exact accepts_iff. Qed.
Print Assumptions C17_accepts_iff.
Theorem C17_always_returns : forall host buf,
  de_string host buf <> DPanic /\ de_string host buf <> DHang /\
  (forall s rest, de_string host buf = DOk s rest -> exists used, buf = used ++ rest) /\
  (forall e rest, de_string host buf = DErr e rest -> exists used, buf = used ++ rest).
Proof. exact always_returns. Qed.
Print Assumptions C17_always_returns.
(** The errors. *)
Theorem C17_wrong_mark : forall host a b rest, a < 256 -> b < 256 ->
  ~ (a = 0xEF /\ b = 0xBB) -> ~ (a = 0xFE /\ b = 0xFF) -> ~ (a = 0xFF /\ b = 0xFE) ->
  de_string host (a :: b :: rest) = DErr (DeOther (InvalidMark (a * 256 + b))) rest.
Proof. exact wrong_mark. Qed.
Print Assumptions C17_wrong_mark.
Theorem C17_no_mark : forall host buf, (length buf < 2)%nat -> de_string host buf = DErr (InsufficientData 2 (len buf)) buf.
Proof. exact no_mark. Qed.
Print Assumptions C17_no_mark.
Theorem C17_wrong_utf8_mark : forall host c rest, c < 256 -> c <> 0xBF ->
  de_string host (0xEF :: 0xBB :: c :: rest) = DErr (DeOther (BadUtf8Mark c)) rest.
Proof. exact wrong_utf8_mark. Qed.
Print Assumptions C17_wrong_utf8_mark.
Theorem C17_utf8_unterminated : forall host bs, Forall (fun b => b <> 0) bs ->
  de_string host ([0xEF; 0xBB; 0xBF] ++ bs) = DErr (InsufficientData 1 0) [].
Proof. exact utf8_unterminated. Qed.
Print Assumptions C17_utf8_unterminated.
Theorem C17_utf16_unterminated : forall host us tail,
  Forall (fun u => u < 65536 /\ u <> 0) us -> (length tail <= 1)%nat ->
  de_string host ([0xFE; 0xFF] ++ units_be us ++ tail) = DErr (InsufficientData 2 (len tail)) tail.
Proof. exact utf16_unterminated. Qed.
Print Assumptions C17_utf16_unterminated.
Theorem C17_utf8_ill_formed : forall host raw rest, bytes_ok raw -> Forall (fun b => b <> 0) raw ->
  (forall s, Forall scalar s -> raw <> utf8 s) ->
  de_string host ([0xEF; 0xBB; 0xBF] ++ raw ++ [0] ++ rest) = DErr (DeOther InvalidUtf8) rest.
Proof. exact utf8_ill_formed. Qed.
Print Assumptions C17_utf8_ill_formed.
Theorem C17_utf16_le_unterminated : forall us tail,
  Forall (fun u => u < 65536 /\ u <> 0) us -> (length tail <= 1)%nat ->
  de_string Little ([0xFF; 0xFE] ++ units_le us ++ tail) = DErr (InsufficientData 2 (len tail)) tail.
Proof. exact utf16_le_unterminated. Qed.
Print Assumptions C17_utf16_le_unterminated.
Theorem C17_utf16_be_ill_formed : forall host us rest, Forall (fun u => u < 65536 /\ u <> 0) us ->
  (forall s, Forall scalar s -> us <> utf16 s) ->
  de_string host ([0xFE; 0xFF] ++ units_be us ++ [0; 0] ++ rest) = DErr (DeOther InvalidUtf16) rest.
Proof. exact utf16_be_ill_formed. Qed.
Print Assumptions C17_utf16_be_ill_formed.
Theorem C17_utf16_le_ill_formed : forall us rest, Forall (fun u => u < 65536 /\ u <> 0) us ->
  (forall s, Forall scalar s -> us <> utf16 s) ->
  de_string Little ([0xFF; 0xFE] ++ units_le us ++ [0; 0] ++ rest) = DErr (DeOther InvalidUtf16) rest.
Proof. exact utf16_le_ill_formed. Qed.
Print Assumptions C17_utf16_le_ill_formed.
(** A Vec<String> reads back any mixture of the three forms. *)
Theorem C17_vec_of_strings : forall ss bss, Forall2 wire_text ss bss ->
  de_vec (de_string Little) (concat bss) = DOk ss [].
Proof. exact vec_of_strings. Qed.
Print Assumptions C17_vec_of_strings.
(** Overlong form, surrogate in UTF-8, unpaired surrogate in UTF-16, beyond U+10FFFF. *)
Example C17_example :
  de_string Little [0xEF; 0xBB; 0xBF; 0xC0; 0xAF; 0] = DErr (DeOther InvalidUtf8) [] /\
  de_string Little [0xEF; 0xBB; 0xBF; 0xED; 0xA0; 0x80; 0] = DErr (DeOther InvalidUtf8) [] /\
  de_string Little [0xFE; 0xFF; 0xD8; 0x00; 0x00; 0x41; 0; 0] = DErr (DeOther InvalidUtf16) [] /\
  de_string Little [0xEF; 0xBB; 0xBF; 0xF4; 0x90; 0x80; 0x80; 0] = DErr (DeOther InvalidUtf8) [] /\
  de_vec (de_string Little) (text_utf8 ex_str ++ text_utf16_be ex_str ++ text_utf16_le ex_str)
  = DOk [ex_str; ex_str; ex_str] [].
Proof. vm_compute. repeat split. Qed.
