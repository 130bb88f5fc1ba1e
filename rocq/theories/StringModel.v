(** Model of the string codec of rsomeip-bytes (ser.rs 257-448, de.rs 177-229).
    Definitions only.

    A Rust [str] is modelled by the list of its Unicode scalar values; [str::as_bytes],
    [str::encode_utf16], [String::from_utf8] and [String::from_utf16] are modelled after the
    sources of core/std (char/methods.rs, str/validations.rs, char/decode.rs). *)
From Coq Require Import List NArith ZArith Bool.
From Verif Require Import BytesModel.
Import ListNotations.
Open Scope N_scope.

(** The scalar values a Rust [char] can hold. *)
Definition is_char (c : N) : bool := (c <? 0xD800) || ((0xDFFF <? c) && (c <? 0x110000)).

(** [char::encode_utf8] (core char/methods.rs, encode_utf8_raw). *)
Definition encode_utf8_char (c : N) : list N :=
  if c <? 0x80 then [c]
  else if c <? 0x800 then
    [N.lor (N.land (N.shiftr c 6) 0x1F) 0xC0; N.lor (N.land c 0x3F) 0x80]
  else if c <? 0x10000 then
    [N.lor (N.land (N.shiftr c 12) 0x0F) 0xE0; N.lor (N.land (N.shiftr c 6) 0x3F) 0x80;
     N.lor (N.land c 0x3F) 0x80]
  else
    [N.lor (N.land (N.shiftr c 18) 0x07) 0xF0; N.lor (N.land (N.shiftr c 12) 0x3F) 0x80;
     N.lor (N.land (N.shiftr c 6) 0x3F) 0x80; N.lor (N.land c 0x3F) 0x80].

(** [str::as_bytes]. *)
Definition as_bytes (s : list N) : list N := flat_map encode_utf8_char s.

(** [str::encode_utf16] (core char/methods.rs, encode_utf16_raw). *)
Definition encode_utf16_char (c : N) : list N :=
  if c <? 0x10000 then [c]
  else [N.lor 0xD800 (N.shiftr (c - 0x10000) 10); N.lor 0xDC00 (N.land (c - 0x10000) 0x3FF)].
Definition encode_utf16 (s : list N) : list N := flat_map encode_utf16_char s.

(** A continuation byte of UTF-8. *)
Definition cont (b : N) : bool := (0x80 <=? b) && (b <=? 0xBF).

(** [String::from_utf8] (core str/validations.rs, run_utf8_validation): the validation table,
    returning the scalar values. *)
Fixpoint from_utf8 (bs : list N) : option (list N) :=
  match bs with
  | [] => Some []
  | b0 :: r0 =>
      if b0 <? 0x80 then option_map (cons b0) (from_utf8 r0)
      else
        match r0 with
        | [] => None
        | b1 :: r1 =>
            if (0xC2 <=? b0) && (b0 <=? 0xDF) then
              if cont b1
              then option_map (cons ((b0 - 0xC0) * 64 + (b1 - 0x80))) (from_utf8 r1)
              else None
            else
              match r1 with
              | [] => None
              | b2 :: r2 =>
                  if (0xE0 <=? b0) && (b0 <=? 0xEF) then
                    if ((b0 =? 0xE0) && (0xA0 <=? b1) && (b1 <=? 0xBF)
                        || (0xE1 <=? b0) && (b0 <=? 0xEC) && cont b1
                        || (b0 =? 0xED) && (0x80 <=? b1) && (b1 <=? 0x9F)
                        || (0xEE <=? b0) && (b0 <=? 0xEF) && cont b1) && cont b2
                    then option_map (cons ((b0 - 0xE0) * 4096 + (b1 - 0x80) * 64 + (b2 - 0x80)))
                                    (from_utf8 r2)
                    else None
                  else
                    match r2 with
                    | [] => None
                    | b3 :: r3 =>
                        if ((b0 =? 0xF0) && (0x90 <=? b1) && (b1 <=? 0xBF)
                            || (0xF1 <=? b0) && (b0 <=? 0xF3) && cont b1
                            || (b0 =? 0xF4) && (0x80 <=? b1) && (b1 <=? 0x8F)) && cont b2 && cont b3
                        then option_map
                               (cons ((b0 - 0xF0) * 262144 + (b1 - 0x80) * 4096 +
                                      (b2 - 0x80) * 64 + (b3 - 0x80)))
                               (from_utf8 r3)
                        else None
                    end
              end
        end
  end.

(** [String::from_utf16] (core char/decode.rs, DecodeUtf16::next). *)
Fixpoint from_utf16 (us : list N) : option (list N) :=
  match us with
  | [] => Some []
  | u :: r =>
      if negb ((0xD800 <=? u) && (u <=? 0xDFFF)) then option_map (cons u) (from_utf16 r)
      else if 0xDC00 <=? u then None
      else
        match r with
        | [] => None
        | u2 :: r2 =>
            if (u2 <? 0xDC00) || (0xDFFF <? u2) then None
            else option_map (cons ((u - 0xD800) * 1024 + (u2 - 0xDC00) + 0x10000)) (from_utf16 r2)
        end
  end.

(** * Serialization *)

(** The tuple serialized by [serialize_utf8] (ser.rs 365-369):
    ([0xef, 0xbb, 0xbf], self.as_bytes(), 0x00_u8). *)
Definition ser_utf8_tuple : Serialize (list N * (list N * (N * unit))) :=
  ser_tuple_cons (ser_slice (ser_uint 1))
    (ser_tuple_cons (ser_slice (ser_uint 1)) (ser_tuple_cons (ser_uint 1) ser_tuple_nil)).

(** ser.rs 360-374: [<&str>::serialize_utf8]. *)
Definition serialize_utf8 (s : list N) (length : option length_field) (b : wbuf) : wres :=
  let data := ([0xEF; 0xBB; 0xBF], (as_bytes s, (0, tt))) in
  match length with
  | Some lf => serialize_len ser_utf8_tuple lf data b
  | None => serialize ser_utf8_tuple data b
  end.

(** ser.rs 444-448: [Endianness]. *)
Inductive endianness := Little | Big.

(** [u16::to_le_bytes]. *)
Definition to_le_bytes2 (v : N) : list N := rev (to_be_bytes 2 v).

(** ser.rs 414-442: [impl Serialize for Utf16String].  The code units are written as [[u8; 2]],
    one after the other. *)
Definition ser_utf16 (e : endianness) : Serialize (list N) := {|
  serialize := fun (s : list N) b =>
    let '(mark, unit_bytes) :=
      match e with
      | Little => (0xFFFE, to_le_bytes2)
      | Big => (0xFEFF, to_be_bytes 2)
      end in
    wbind (serialize (ser_uint 2) mark b) (fun n b1 =>
    wbind (ser_elems (ser_slice (ser_uint 1)) (map unit_bytes (encode_utf16 s)) n b1) (fun m b2 =>
    wbind (serialize (ser_uint 2) 0 b2) (fun k b3 => WOk (m + k) b3)));
  size_hint := fun (s : list N) =>
    fold_left (fun size _ => size + 2) (encode_utf16 s) (2 * 2)
|}.

(** ser.rs 376-389, 391-404: [serialize_utf16_be], [serialize_utf16_le]. *)
Definition serialize_utf16 (e : endianness) (s : list N) (length : option length_field) (b : wbuf) : wres :=
  match length with
  | Some lf => serialize_len (ser_utf16 e) lf s b
  | None => serialize (ser_utf16 e) s b
  end.

(** * Deserialization *)

(** The two loops of de.rs 189-196 and 205-216: read values until a zero is read, for at most
    [fuel] rounds. *)
Fixpoint raw_loop (d : Deserialize N) (fuel : nat) (buf : list N) : dres (list N) :=
  match fuel with
  | O => DHang
  | S fuel' =>
      dbind (d buf) (fun v rest =>
      if v =? 0 then DOk [] rest else dmap (cons v) (raw_loop d fuel' rest))
  end.

(** The number of rounds is bounded by the number of bytes, each round consuming some. *)
Definition de_raw (d : Deserialize N) : Deserialize (list N) := fun buf => raw_loop d (S (length buf)) buf.

(** de.rs 182-199: [deserialize_utf8]. *)
Definition deserialize_utf8 : Deserialize (list N) := fun buf =>
  dbind (de_uint 1 buf) (fun bom rest =>
  if negb (bom =? 0xBF) then DErr (DeOther (BadUtf8Mark bom)) rest
  else
    dbind (de_raw (de_uint 1) rest) (fun raw rest' =>
    match from_utf8 raw with
    | Some s => DOk s rest'
    | None => DErr (DeOther InvalidUtf8) rest'
    end)).

(** [u16::swap_bytes]. *)
Definition swap_bytes2 (v : N) : N := N.lor (N.shiftl (N.land v 0xFF) 8) (N.shiftr v 8).

(** [u16::from_be]: a byte swap on a little-endian host, the identity on a big-endian one. *)
Definition from_be2 (host : endianness) (v : N) : N :=
  match host with Little => swap_bytes2 v | Big => v end.

(** de.rs 201-219: [deserialize_utf16]. *)
Definition deserialize_utf16 (host : endianness) (is_be : bool) : Deserialize (list N) := fun buf =>
  let unit := if is_be then de_uint 2
              else fun buf => dmap (from_be2 host) (de_uint 2 buf) in
  dbind (de_raw unit buf) (fun raw rest =>
  match from_utf16 raw with
  | Some s => DOk s rest
  | None => DErr (DeOther InvalidUtf16) rest
  end).

(** de.rs 180-228: [<String as Deserialize>::deserialize]. *)
Definition de_string (host : endianness) : Deserialize (list N) := fun buf =>
  dbind (de_uint 2 buf) (fun mark rest =>
  if mark =? 0xEFBB then deserialize_utf8 rest
  else if mark =? 0xFEFF then deserialize_utf16 host true rest
  else if mark =? 0xFFFE then deserialize_utf16 host false rest
  else DErr (DeOther (InvalidMark mark)) rest).
