(** Model of the texts of the errors, as [thiserror] derives them from the [#[error]] attributes:
    rsomeip-bytes/src/ser.rs (S), rsomeip-bytes/src/de.rs (D), rsomeip-proto/src/tp.rs (T),
    rsomeip-proto/src/endpoint.rs (E), rsomeip-proto/src/interface.rs (I).  Definitions only.
    Where BytesModel replaces the text of an [Other] by what it is about, the text is built here. *)
From Coq Require Import List NArith Bool Ascii String.
From Verif Require Import BytesModel PrimitivesModel MessageModel TpModel EndpointModel DisplayModel.
Import ListNotations.
Open Scope N_scope.

(** [{:02X}] and [{:04X}]: as [{:02x}] and [{:04x}], with the letters in upper case. *)
Definition upper_char (c : ascii) : ascii :=
  let n := N_of_ascii c in if (97 <=? n) && (n <=? 122) then ascii_of_N (n - 32) else c.
Fixpoint upper (s : string) : string :=
  match s with EmptyString => EmptyString | String c s => String (upper_char c) (upper s) end.
Definition fmt_02X (v : N) : string := upper (fmt_02x v).
Definition fmt_04X (v : N) : string := upper (fmt_04x v).

(** S 453-460: [SerializeError], with T 181-186 for the only text put into [Other]. *)
Definition show_ser_error (e : ser_error) : string :=
  match e with
  | InvalidLength required maximum =>
      "length exceeds capacity of length field: " ++ fmt_dec required ++ " vs " ++ fmt_dec maximum
  | SerOther (OffsetTooLarge maximum actual) =>
      "offset exceeds max value: max=" ++ fmt_dec maximum ++ " actual=" ++ fmt_dec actual
  end%string.

(** D 242-254: [DeserializeError], with D 183-187, 197-198, 217-218 and 223-226 for the texts put
    into [Other].  [std] is the text of the standard library's error about a string that is not
    UTF-8 or UTF-16: any text at all.  T 208-209 makes one more [Other] for an offset that does
    not fit a usize, which does not happen where a usize has 32 bits or more. *)
Definition show_de_error (std : string) (e : de_error) : string :=
  match e with
  | InsufficientData expected available =>
      "insufficient data in buffer: " ++ fmt_dec expected ++ " vs " ++ fmt_dec available
  | DeOther (BadUtf8Mark b) => "incorrect UTF-8 Byte Order Mark: 'EF BB BF' vs 'EF BB " ++ fmt_02X b ++ "'"
  | DeOther InvalidUtf8 => "invalid UTF-8 string: " ++ std
  | DeOther InvalidUtf16 => "invalid UTF-16 string: " ++ std
  | DeOther (InvalidMark v) => "invalid Byte Order Mark: " ++ fmt_04X v
  end%string.

(** T 217-228: [TpError]. *)
Definition show_tp_error (e : tp_error) : string :=
  match e with
  | UnexpectedSegment _ => "not expecting more segments"
  | WrongOffset expected other =>
      "tried to join header with wrong offset: expected=" ++ fmt_dec expected ++ " actual=" ++ fmt_dec (tp_offset other)
  end%string.

(** I 362-368: [MessageError]. *)
Definition show_message_error (e : message_error) : string :=
  match e with
  | Invalid c => "invalid message: " ++ show_return_code c
  | Dropped c => "message dropped: " ++ show_return_code c
  end%string.

(** E 274-297: [EndpointError]. *)
Definition show_endpoint_error {B} (std : string) (e : endpoint_error B) : string :=
  match e with
  | InvalidData e => "could not deserialize a message: " ++ show_de_error std e
  | InvalidInput e => "could not serialize the message: " ++ show_ser_error e
  | InvalidMessage m c => "invalid message: " ++ show_message show_header m ++ " reason=" ++ show_return_code c
  | MessageDropped m c => "message dropped: " ++ show_message show_header m ++ " reason=" ++ show_return_code c
  end%string.
