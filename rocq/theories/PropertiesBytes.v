(** Property theorems C01-C14: the byte codec of rsomeip-bytes. *)
From Coq Require Import List NArith ZArith Bool.
From Verif Require Import BytesModel StringModel UniverseModel WireSpec BytesProofs UniverseProofs BytesTheorems.
Import ListNotations.
Open Scope N_scope.

(** A message-like type used by the examples: (u8, i16, bool, [u16; 2], length-prefixed Vec of
    (u32, length-prefixed Bytes)), and a value of it; and a type with strings: (u16,
    length-prefixed Vec of UTF-8 strings, UTF-16 string). *)
Definition ex_ty : ty :=
  TTuple [TUInt B1; TSInt B2; TBool; TArray (TUInt B2) 2;
          TLen LF16 (TVec (TTuple [TUInt B4; TLen LF8 TBytes]))].
Definition ex_val : value ex_ty :=
  (7, ((-2)%Z, (true, ([258; 65535], ([(5, ([1; 2; 3], tt)); (6, ([], tt))], tt))))).
Definition ex_bytes : list N :=
  [7; 255; 254; 1; 1; 2; 255; 255; 0; 13; 0; 0; 0; 5; 3; 1; 2; 3; 0; 0; 0; 6; 0].
Definition ex_text_ty : ty :=
  TTuple [TUInt B2; TLen LF8 (TVec (TString Utf8)); TString (Utf16 Big)].
Definition ex_text_val : value ex_text_ty := (1, ([[72; 233]; []], ([0x1F600], tt))).
Definition ex_text_bytes : list N :=
  [0; 1; 11; 0xEF; 0xBB; 0xBF; 72; 0xC3; 0xA9; 0; 0xEF; 0xBB; 0xBF; 0;
   0xFE; 0xFF; 0xD8; 0x3D; 0xDE; 0; 0; 0].

(** C01.  With room in the buffer, serialize appends exactly the wire form of the value after
    what the buffer already holds and returns the number of bytes appended. *)
Theorem C01_serialize_appends_wire : forall t v bs data room,
  valid t v = true -> wire t v = Some bs -> len bs <= room ->
  serialize (ser t) v (mkW data room) = WOk (len bs) (mkW (data ++ bs) (room - len bs)).
Proof. exact serialize_appends_wire. Qed.
Print Assumptions C01_serialize_appends_wire.
Example C01_example : valid ex_ty ex_val = true /\ wire ex_ty ex_val = Some ex_bytes /\ len ex_bytes <= 100.
Proof. vm_compute. repeat split. discriminate. Qed.
Example C01_text_example : valid ex_text_ty ex_text_val = true /\
  wire ex_text_ty ex_text_val = Some ex_text_bytes /\
  serialize (ser ex_text_ty) ex_text_val (mkW [9] 22) = WOk 22 (mkW (9 :: ex_text_bytes) 0).
Proof. vm_compute. repeat split. Qed.

(** C01, converse: serialize succeeds only with the wire form. *)
Theorem C01_serialize_success_is_wire : forall t v b n b',
  valid t v = true -> serialize (ser t) v b = WOk n b' ->
  exists bs, wire t v = Some bs /\ n = len bs /\ size_hint (ser t) v = n /\
             len bs <= w_room b /\ b' = mkW (w_data b ++ bs) (w_room b - len bs).
Proof. exact serialize_success_is_wire. Qed.
Print Assumptions C01_serialize_success_is_wire.
Example C01_success_example :
  serialize (ser ex_ty) ex_val (mkW [9] 23) = WOk 23 (mkW (9 :: ex_bytes) 0).
Proof. vm_compute. reflexivity. Qed.

(** C02.  The size hint is the exact number of bytes a successful serialize appends and returns. *)
Theorem C02_size_hint_exact : forall t v b n b',
  valid t v = true -> serialize (ser t) v b = WOk n b' ->
  size_hint (ser t) v = n /\ len (w_data b') = len (w_data b) + n.
Proof. exact size_hint_exact. Qed.
Print Assumptions C02_size_hint_exact.
(** C02, without reference to a call: the hint of every value that has a wire form. *)
Theorem C02_size_hint_is_wire_length : forall t v bs,
  valid t v = true -> wire t v = Some bs -> size_hint (ser t) v = len bs.
Proof. exact size_hint_is_wire_length. Qed.
Print Assumptions C02_size_hint_is_wire_length.
Example C02_example : size_hint (ser ex_ty) ex_val = 23 /\ size_hint (ser ex_text_ty) ex_text_val = 22.
Proof. vm_compute. split; reflexivity. Qed.

(** C03.  serialize_len writes the big-endian payload length and the payload, or refuses with
    the required and the maximal length without touching the buffer. *)
Theorem C03_serialize_len_exact : forall t lf v payload,
  valid t v = true -> wire t v = Some payload ->
  (len payload < 256 ^ N.of_nat (lf_size lf) -> forall data room,
     N.of_nat (lf_size lf) + len payload <= room ->
     serialize_len (ser t) lf v (mkW data room) =
     WOk (N.of_nat (lf_size lf) + len payload)
         (mkW (data ++ be (lf_size lf) (len payload) ++ payload)
              (room - (N.of_nat (lf_size lf) + len payload)))) /\
  (256 ^ N.of_nat (lf_size lf) <= len payload -> forall b,
     serialize_len (ser t) lf v b =
     WErr (InvalidLength (len payload) (256 ^ N.of_nat (lf_size lf) - 1)) b).
Proof. exact serialize_len_exact. Qed.
Print Assumptions C03_serialize_len_exact.
Example C03_example_ok :
  serialize_len (ser ex_ty) LF16 ex_val (mkW [] 25) = WOk 25 (mkW (0 :: 23 :: ex_bytes) 0).
Proof. vm_compute. reflexivity. Qed.
Example C03_example_refused :
  serialize_len (ser (TVec (TUInt B2))) LF8 (repeat 1 128) (mkW [] 1000)
  = WErr (InvalidLength 256 255) (mkW [] 1000).
Proof. vm_compute. reflexivity. Qed.

(** C03, nested: a value with a too small length field anywhere inside is never serialized
    successfully; the error is InvalidLength, after a fixed prefix of bytes has been written. *)
Theorem C03_unencodable_is_refused : forall t v, valid t v = true -> wire t v = None ->
  exists pre required maximum, maximum < required /\ forall b,
  (len pre <= w_room b ->
   serialize (ser t) v b = WErr (InvalidLength required maximum) (mkW (w_data b ++ pre) (w_room b - len pre))) /\
  (w_room b < len pre -> serialize (ser t) v b = WPanic).
Proof. exact serialize_unencodable. Qed.
Print Assumptions C03_unencodable_is_refused.
Example C03_unencodable_example :
  valid (TTuple [TUInt B1; TLen LF8 TBytes]) (9, (repeat 0 256, tt)) = true /\
  wire (TTuple [TUInt B1; TLen LF8 TBytes]) (9, (repeat 0 256, tt)) = None /\
  serialize (ser (TTuple [TUInt B1; TLen LF8 TBytes])) (9, (repeat 0 256, tt)) (mkW [] 1000)
  = WErr (InvalidLength 256 255) (mkW [9] 999).
Proof. vm_compute. repeat split. Qed.

(** C04.  A value that has a wire form makes serialize panic exactly when the buffer has too
    little room for it, and never makes it return an error. *)
Theorem C04_panics_iff_no_room : forall t v bs b,
  valid t v = true -> wire t v = Some bs ->
  (serialize (ser t) v b = WPanic <-> w_room b < len bs) /\
  (forall e b', serialize (ser t) v b <> WErr e b').
Proof. exact serialize_panics_iff_no_room. Qed.
Print Assumptions C04_panics_iff_no_room.
Example C04_example : serialize (ser ex_ty) ex_val (mkW [] 22) = WPanic.
Proof. vm_compute. reflexivity. Qed.

(** C05.  The wire form of a value of a self-delimiting type, followed by anything, decodes to
    the value and leaves exactly what followed.  The strings in it must not contain U+0000 (for
    which see C15 and C16). *)
Theorem C05_round_trip : forall t v bs rest,
  delimited t = true -> valid t v = true -> nul_free t v = true -> wire t v = Some bs ->
  de t (bs ++ rest) = DOk v rest.
Proof. exact round_trip_delimited. Qed.
Print Assumptions C05_round_trip.
Theorem C05_serialize_then_deserialize : forall t v data room n b' rest,
  delimited t = true -> valid t v = true -> nul_free t v = true ->
  serialize (ser t) v (mkW data room) = WOk n b' ->
  exists bs, w_data b' = data ++ bs /\ len bs = n /\ de t (bs ++ rest) = DOk v rest.
Proof. exact serialize_then_deserialize. Qed.
Print Assumptions C05_serialize_then_deserialize.
Example C05_example : delimited ex_ty = true /\ valid ex_ty ex_val = true /\ nul_free ex_ty ex_val = true /\
  de ex_ty (ex_bytes ++ [1; 2; 3]) = DOk ex_val [1; 2; 3].
Proof. vm_compute. repeat split. Qed.
Example C05_text_example : delimited ex_text_ty = true /\ valid ex_text_ty ex_text_val = true /\
  nul_free ex_text_ty ex_text_val = true /\
  de ex_text_ty (ex_text_bytes ++ [1; 2; 3]) = DOk ex_text_val [1; 2; 3].
Proof. vm_compute. repeat split. Qed.

(** C06.  A type whose end is given by the end of its frame round-trips when nothing follows,
    and behind a length field with anything following. *)
Theorem C06_round_trip_framed : forall t v bs,
  framed t = true -> valid t v = true -> nul_free t v = true -> wire t v = Some bs -> de t bs = DOk v [].
Proof. exact round_trip_framed. Qed.
Print Assumptions C06_round_trip_framed.
Theorem C06_round_trip_len : forall t lf v data room n b' rest,
  framed t = true -> valid t v = true -> nul_free t v = true ->
  serialize_len (ser t) lf v (mkW data room) = WOk n b' ->
  exists bs, w_data b' = data ++ bs /\ len bs = n /\ deserialize_len (de t) lf (bs ++ rest) = DOk v rest.
Proof. exact round_trip_len. Qed.
Print Assumptions C06_round_trip_len.
Example C06_example :
  framed (TTuple [TUInt B2; TVec (TUInt B4)]) = true /\
  de (TTuple [TUInt B2; TVec (TUInt B4)]) [0; 1; 0; 0; 0; 2; 0; 0; 0; 3] = DOk (1, ([2; 3], tt)) [].
Proof. vm_compute. split; reflexivity. Qed.

(** C07.  Basic types: big-endian value of exactly the first bytes, or InsufficientData with the
    buffer unchanged. *)
Theorem C07_unsigned : forall s used rest,
  length used = isize_bytes s -> bytes_ok used ->
  de (TUInt s) (used ++ rest) = DOk (be_value used) rest.
Proof. exact basic_unsigned. Qed.
Print Assumptions C07_unsigned.
Theorem C07_float : forall s used rest,
  length used = fsize_bytes s -> bytes_ok used ->
  de (TFloat s) (used ++ rest) = DOk (be_value used) rest.
Proof. exact basic_float. Qed.
Print Assumptions C07_float.
Theorem C07_signed : forall s used rest,
  length used = isize_bytes s -> bytes_ok used ->
  exists z, de (TSInt s) (used ++ rest) = DOk z rest /\
    (- 2 ^ (8 * Z.of_nat (isize_bytes s) - 1) <= z < 2 ^ (8 * Z.of_nat (isize_bytes s) - 1))%Z /\
    (z mod 2 ^ (8 * Z.of_nat (isize_bytes s)) = Z.of_N (be_value used))%Z.
Proof. exact basic_signed. Qed.
Print Assumptions C07_signed.
Theorem C07_insufficient : forall t k buf,
  basic_size t = Some k -> (length buf < k)%nat ->
  de t buf = DErr (InsufficientData (N.of_nat k) (len buf)) buf.
Proof. exact basic_short. Qed.
Print Assumptions C07_insufficient.
Example C07_example :
  de (TUInt B4) [1; 2; 3; 4; 5] = DOk 16909060 [5] /\ de (TSInt B2) [255; 254] = DOk (-2)%Z [] /\
  de (TUInt B4) [1; 2; 3] = DErr (InsufficientData 4 3) [1; 2; 3].
Proof. vm_compute. repeat split. Qed.

(** C08.  Decoding never panics, leaves a suffix of its input, and yields values in range. *)
Theorem C08_decode_never_panics : forall t buf,
  de t buf <> DPanic /\
  (forall v rest, de t buf = DOk v rest -> exists used, buf = used ++ rest) /\
  (forall e rest, de t buf = DErr e rest -> exists used, buf = used ++ rest).
Proof. exact decode_never_panics. Qed.
Print Assumptions C08_decode_never_panics.
Theorem C08_decoded_values_in_range : forall t buf v rest,
  bytes_ok buf -> de t buf = DOk v rest -> valid t v = true /\ nul_free t v = true.
Proof. exact de_in_range. Qed.
Print Assumptions C08_decoded_values_in_range.
Example C08_example : de ex_ty (firstn 20 ex_bytes) = DErr (InsufficientData 4 2) [0; 0] /\
  de ex_text_ty (firstn 16 ex_text_bytes) = DErr (InsufficientData 2 0) [].
Proof. vm_compute. split; reflexivity. Qed.

(** C09.  Strict types: what was consumed is exactly the wire form of the result. *)
Theorem C09_strict_reencode : forall t, strict t = true -> forall buf v rest, bytes_ok buf ->
  de t buf = DOk v rest -> exists used, wire t v = Some used /\ buf = used ++ rest.
Proof. exact strict_reencode. Qed.
Print Assumptions C09_strict_reencode.
Theorem C09_strict_injective : forall t b1 b2 v rest,
  strict t = true -> bytes_ok b1 -> bytes_ok b2 ->
  de t b1 = DOk v rest -> de t b2 = DOk v rest -> b1 = b2.
Proof. exact strict_injective. Qed.
Print Assumptions C09_strict_injective.
Example C09_example : strict (TTuple [TUInt B2; TSInt B1; TBytes]) = true /\
  de (TTuple [TUInt B2; TSInt B1; TBytes]) [1; 2; 255; 4; 5] = DOk (258, ((-1)%Z, ([4; 5], tt))) [].
Proof. vm_compute. split; reflexivity. Qed.
(** For the other types two different inputs can decode to the same value. *)
Theorem C09_bool_refuted : exists b1 b2 v, b1 <> b2 /\ bytes_ok b1 /\ bytes_ok b2 /\
  de TBool b1 = DOk v [] /\ de TBool b2 = DOk v [].
Proof. exact bool_ambiguous. Qed.
Print Assumptions C09_bool_refuted.
Theorem C09_array_refuted : exists b1 b2 v, b1 <> b2 /\ bytes_ok b1 /\ bytes_ok b2 /\
  de (TArray (TUInt B1) 2) b1 = DOk v [] /\ de (TArray (TUInt B1) 2) b2 = DOk v [].
Proof. exact array_ambiguous. Qed.
Print Assumptions C09_array_refuted.
Theorem C09_len_refuted : exists b1 b2 v, b1 <> b2 /\ bytes_ok b1 /\ bytes_ok b2 /\
  de (TLen LF8 TBytes) b1 = DOk v [] /\ de (TLen LF8 TBytes) b2 = DOk v [].
Proof. exact len_ambiguous. Qed.
Print Assumptions C09_len_refuted.
Theorem C09_string_refuted : forall e, exists b1 b2 v, b1 <> b2 /\ bytes_ok b1 /\ bytes_ok b2 /\
  de (TString e) b1 = DOk v [] /\ de (TString e) b2 = DOk v [].
Proof. exact string_ambiguous. Qed.
Print Assumptions C09_string_refuted.

(** C10.  A type of fixed size n decodes from any n bytes, whatever follows, and without fixed
    arrays never from fewer. *)
Theorem C10_fixed_size_decodes : forall t n buf, fixed_size t = Some n -> n <= len buf ->
  exists v, forall other, de t (firstn (N.to_nat n) buf ++ other) = DOk v other.
Proof. exact fixed_size_decodes. Qed.
Print Assumptions C10_fixed_size_decodes.
Theorem C10_fixed_size_short : forall t, array_free t = true -> forall n, fixed_size t = Some n ->
  forall buf, len buf < n ->
  exists expected available rest, available < expected /\
    de t buf = DErr (InsufficientData expected available) rest.
Proof. exact fixed_short. Qed.
Print Assumptions C10_fixed_size_short.
Example C10_example : fixed_size (TTuple [TUInt B2; TArray (TTuple [TBool; TFloat F4]) 3]) = Some 17 /\
  array_free (TTuple [TUInt B2; TBool]) = true /\
  de (TTuple [TUInt B2; TBool]) [1; 2] = DErr (InsufficientData 1 0) [].
Proof. vm_compute. repeat split. Qed.

(** C11.  bool reads one byte of which only the lowest bit counts, and is written as 1 or 0. *)
Theorem C11_bool_lsb : forall b rest, de TBool (b :: rest) = DOk (N.odd b) rest.
Proof. exact bool_lsb. Qed.
Print Assumptions C11_bool_lsb.
Theorem C11_bool_wire : wire TBool true = Some [1] /\ wire TBool false = Some [0].
Proof. exact bool_wire. Qed.
Print Assumptions C11_bool_wire.

(** C12.  A fixed array always decodes to N elements, unless an element decode hangs; after the
    elements that are present, an element that cannot be decoded is the default value. *)
Theorem C12_array_never_fails : forall t n buf,
  (forall b, de t b <> DHang) ->
  exists v rest, de (TArray t n) buf = DOk v rest /\ length v = n.
Proof. exact array_never_fails. Qed.
Print Assumptions C12_array_never_fails.
Theorem C12_array_default_fill : forall t n (vs : list (value t)) used tail e,
  (length vs < n)%nat ->
  wire (TVec t) vs = Some used -> valid (TVec t) vs = true -> nul_free (TVec t) vs = true ->
  delimited t = true -> de t tail = DErr e tail ->
  de (TArray t n) (used ++ tail) = DOk (vs ++ repeat (default t) (n - length vs)) tail.
Proof. exact array_default_fill. Qed.
Print Assumptions C12_array_default_fill.
(** Each element is read where the one before it stopped, also after one that failed. *)
Theorem C12_array_goes_on : forall t n buf rest (vs : list (value t)) rest',
  de (TArray t n) rest = DOk vs rest' ->
  (forall v, de t buf = DOk v rest -> de (TArray t (S n)) buf = DOk (v :: vs) rest') /\
  (forall e, de t buf = DErr e rest -> de (TArray t (S n)) buf = DOk (default t :: vs) rest').
Proof. exact array_goes_on. Qed.
Print Assumptions C12_array_goes_on.
Example C12_goes_on_example :
  de (TArray (TString Utf8) 2) [0xEF; 0xBB; 0x0C; 0xEF; 0xBB; 0xBF; 72; 0; 9] = DOk [[]; [72]] [9].
Proof. vm_compute. reflexivity. Qed.
Example C12_example : de (TArray (TUInt B2) 4) [0; 1; 0; 2; 9] = DOk [1; 2; 0; 0] [9] /\
  de (TArray (TString Utf8) 3) [0xEF; 0xBB; 0xBF; 72; 0; 9] = DOk [[72]; []; []] [9].
Proof. vm_compute. split; reflexivity. Qed.

(** C13.  Decoding terminates for every type in which the elements of every Vec consume input
    when they succeed. *)
Theorem C13_terminating_never_hangs : forall t, terminating t = true -> forall buf, de t buf <> DHang.
Proof. exact terminating_sound. Qed.
Print Assumptions C13_terminating_never_hangs.
(** The loop of Vec runs forever, whatever the number of iterations allowed, exactly when after
    some elements one is decoded from a non-empty buffer without consuming anything (or hangs). *)
Theorem C13_vec_hangs_iff : forall t buf,
  (forall fuel, vec_loop (de t) fuel buf = DHang) <-> loops (de t) buf.
Proof. exact vec_hangs_iff. Qed.
Print Assumptions C13_vec_hangs_iff.
(** [de (TVec t)] is the loop run with any sufficient number of iterations. *)
Theorem C13_vec_fuel_irrelevant : forall t buf fuel, (length buf < fuel)%nat ->
  vec_loop (de t) fuel buf = de (TVec t) buf.
Proof. exact vec_fuel_irrelevant. Qed.
Print Assumptions C13_vec_fuel_irrelevant.
(** Vec<[T; 0]> never returns on a non-empty buffer; Vec<[u16; N]> (also u32, u64) and
    Vec<[String; N]> never return on a one-byte buffer. *)
Theorem C13_vec_of_empty_arrays_refuted : forall t buf, buf <> [] ->
  forall fuel, vec_loop (de (TArray t 0)) fuel buf = DHang.
Proof. exact vec_of_empty_arrays_hangs. Qed.
Print Assumptions C13_vec_of_empty_arrays_refuted.
Theorem C13_vec_of_wide_arrays_refuted : forall s n b, isize_bytes s <> 1%nat ->
  forall fuel, vec_loop (de (TArray (TUInt s) n)) fuel [b] = DHang.
Proof. exact vec_of_wide_arrays_hangs. Qed.
Print Assumptions C13_vec_of_wide_arrays_refuted.
Theorem C13_vec_of_string_arrays_refuted : forall e n b,
  forall fuel, vec_loop (de (TArray (TString e) n)) fuel [b] = DHang.
Proof. exact vec_of_string_arrays_hangs. Qed.
Print Assumptions C13_vec_of_string_arrays_refuted.
Example C13_example : terminating ex_ty = true /\ terminating (TVec (TArray (TUInt B1) 3)) = true /\
  terminating (TVec (TArray (TUInt B2) 3)) = false /\
  de (TVec (TArray (TUInt B2) 2)) [0; 1; 0; 2; 0; 3; 0] = DHang.
Proof. vm_compute. repeat split. Qed.

(** C14.  With a complete frame, deserialize_len gives what the inner decoder gives on exactly the
    payload; unread payload bytes stay in front of the bytes behind the frame. *)
Theorem C14_len_confined : forall A (d : Deserialize A) lf n payload rest,
  n < 256 ^ N.of_nat (lf_size lf) -> len payload = n ->
  deserialize_len d lf (be (lf_size lf) n ++ payload ++ rest) =
  match d payload with
  | DOk v unread => DOk v (unread ++ rest)
  | DErr e unread => DErr e (unread ++ rest)
  | DPanic => DPanic
  | DHang => DHang
  end.
Proof. exact @len_confined. Qed.
Print Assumptions C14_len_confined.
(** A length larger than the data available is not an error: it has the effect of the exact
    length. *)
Theorem C14_len_not_enforced : forall A (d : Deserialize A) lf n payload,
  n < 256 ^ N.of_nat (lf_size lf) -> len payload <= n ->
  deserialize_len d lf (be (lf_size lf) n ++ payload) = d payload.
Proof. exact @len_not_enforced. Qed.
Print Assumptions C14_len_not_enforced.
Theorem C14_len_short_field : forall A (d : Deserialize A) lf buf, (length buf < lf_size lf)%nat ->
  deserialize_len d lf buf = DErr (InsufficientData (N.of_nat (lf_size lf)) (len buf)) buf.
Proof. exact @len_short_field. Qed.
Print Assumptions C14_len_short_field.
Example C14_example :
  deserialize_len de_bytes LF8 [3; 1; 2; 3; 4] = DOk [1; 2; 3] [4] /\
  deserialize_len de_bytes LF8 [9; 1; 2; 3; 4] = DOk [1; 2; 3; 4] [] /\
  deserialize_len (de_uint 1) LF8 [3; 1; 2; 3; 4] = DOk 1 [2; 3; 4].
Proof. vm_compute. repeat split. Qed.
