(** Property theorems C83: the texts of errors. *)
From Coq Require Import List NArith ZArith Bool Ascii String.
From Verif Require Import BytesModel UniverseModel PrimitivesModel MessageModel TpModel EndpointModel WireSpec MessageSpec
  DisplayModel DisplaySpec ErrorDisplayModel ErrorDisplaySpec ErrorDisplayTheorems.
Import ListNotations.
Open Scope N_scope.

(** C83.  The text of an error has its numbers in it: lengths and offsets in decimal, bytes and
    byte order marks in upper-case hexadecimal of two and four digits. *)
Theorem C83_serialize_text : forall (e : ser_error),
  match e with
  | InvalidLength required maximum => exists a b, decimal a required /\ decimal b maximum /\
      show_ser_error e = ("length exceeds capacity of length field: " ++ a ++ " vs " ++ b)%string
  | SerOther (OffsetTooLarge maximum actual) => exists a b, decimal a maximum /\ decimal b actual /\
      show_ser_error e = ("offset exceeds max value: max=" ++ a ++ " actual=" ++ b)%string
  end.
Proof. exact @ser_text. Qed.
Print Assumptions C83_serialize_text.
Theorem C83_deserialize_text : forall (std : string) (e : de_error),
  de_error_ok e -> match e with
  | InsufficientData expected available => exists a b, decimal a expected /\ decimal b available /\
      show_de_error std e = ("insufficient data in buffer: " ++ a ++ " vs " ++ b)%string
  | DeOther (BadUtf8Mark b) => exists a, String.length a = 2%nat /\ upper_hex a b /\
      show_de_error std e = ("incorrect UTF-8 Byte Order Mark: 'EF BB BF' vs 'EF BB " ++ a ++ "'")%string
  | DeOther InvalidUtf8 => show_de_error std e = ("invalid UTF-8 string: " ++ std)%string
  | DeOther InvalidUtf16 => show_de_error std e = ("invalid UTF-16 string: " ++ std)%string
  | DeOther (InvalidMark v) => exists a, String.length a = 4%nat /\ upper_hex a v /\
      show_de_error std e = ("invalid Byte Order Mark: " ++ a)%string
  end.
Proof. exact @de_text. Qed.
Print Assumptions C83_deserialize_text.
Theorem C83_segment_text : forall (e : tp_error),
  match e with
  | UnexpectedSegment _ => show_tp_error e = "not expecting more segments"%string
  | WrongOffset expected other => exists a b, decimal a expected /\ decimal b (tp_offset other) /\
      show_tp_error e = ("tried to join header with wrong offset: expected=" ++ a ++ " actual=" ++ b)%string
  end.
Proof. exact @tp_text. Qed.
Print Assumptions C83_segment_text.
Theorem C83_endpoint_text : forall (B : Type) (std : string) (e : endpoint_error B),
  match e with
  | InvalidData d => show_endpoint_error std e = ("could not deserialize a message: " ++ show_de_error std d)%string
  | InvalidInput s => show_endpoint_error std e = ("could not serialize the message: " ++ show_ser_error s)%string
  | InvalidMessage m c => show_endpoint_error std e =
      ("invalid message: " ++ show_message show_header m ++ " reason=" ++ show_return_code c)%string
  | MessageDropped m c => show_endpoint_error std e =
      ("message dropped: " ++ show_message show_header m ++ " reason=" ++ show_return_code c)%string
  end.
Proof. exact @endpoint_text. Qed.
Print Assumptions C83_endpoint_text.

(** Whatever bytes are read as whatever type, the error is one of those this speaks of; so is the
    error of polling an endpoint with them. *)
Theorem C83_read : forall (t : ty) (buf : list N) (e : de_error) (rest : list N),
  bytes_ok buf -> de t buf = DErr e rest -> de_error_ok e.
Proof. exact @de_error_reached. Qed.
Print Assumptions C83_read.
Theorem C83_polled : forall (ep : endpoint) (buf : list N) (e : endpoint_error (list N)) (rest : list N),
  bytes_ok buf -> poll de_bytes ep buf = PErr e rest -> endpoint_error_ok e.
Proof. exact @poll_error_reached. Qed.
Print Assumptions C83_polled.

(** Errors that print the same are the same error with the same numbers, whatever the standard
    library says of the malformed strings in them. *)
Theorem C83_serialize_told_apart : forall (e e' : ser_error),
  show_ser_error e = show_ser_error e' -> e = e'.
Proof. exact @ser_told_apart. Qed.
Print Assumptions C83_serialize_told_apart.
Theorem C83_deserialize_told_apart : forall (std std' : string) (e e' : de_error),
  de_error_ok e -> de_error_ok e' ->
  show_de_error std e = show_de_error std' e' -> e = e'.
Proof. exact @de_told_apart. Qed.
Print Assumptions C83_deserialize_told_apart.
Theorem C83_check_told_apart : forall (e e' : message_error),
  show_message_error e = show_message_error e' -> e = e'.
Proof. exact @message_error_told_apart. Qed.
Print Assumptions C83_check_told_apart.
(** Of the segment that did not fit only the offset is shown, and of one too many nothing. *)
Theorem C83_segment_told_apart : forall (e e' : tp_error),
  show_tp_error e = show_tp_error e' <->
  match e, e' with
  | UnexpectedSegment _, UnexpectedSegment _ => True
  | WrongOffset x o, WrongOffset x' o' => x = x' /\ tp_offset o = tp_offset o'
  | _, _ => False
  end.
Proof. exact @tp_told_apart. Qed.
Print Assumptions C83_segment_told_apart.
(** The text of an endpoint's error tells which error it is, the reason, and the fields of the
    message that a message's printed form shows. *)
Theorem C83_endpoint_told_apart : forall (B C : Type) (std std' : string) (e : endpoint_error B) (e' : endpoint_error C),
  endpoint_error_ok e -> endpoint_error_ok e' ->
  show_endpoint_error std e = show_endpoint_error std' e' ->
  match e, e' with
  | InvalidData d, InvalidData d' => d = d'
  | InvalidInput s, InvalidInput s' => s = s'
  | InvalidMessage m c, InvalidMessage m' c' | MessageDropped m c, MessageDropped m' c' =>
      c = c' /\ m_service m = m_service m' /\ m_method m = m_method m' /\ msg_client m = msg_client m' /\
      msg_session m = msg_session m' /\ h_type (m_header m) = h_type (m_header m') /\
      rc_as_u8 (msg_code m) = rc_as_u8 (msg_code m')
  | _, _ => False
  end.
Proof. exact @endpoint_told_apart. Qed.
Print Assumptions C83_endpoint_told_apart.

Example C83_example_mark : exists rest,
  de (TString Utf8) [0xEF; 0xBB; 0x0C; 0x41; 0] = DErr (DeOther (BadUtf8Mark 0x0C)) rest /\
  show_de_error "" (DeOther (BadUtf8Mark 0x0C)) = "incorrect UTF-8 Byte Order Mark: 'EF BB BF' vs 'EF BB 0C'"%string.
Proof. eexists. split; vm_compute; reflexivity. Qed.
Example C83_example_poll : exists m rest,
  poll de_bytes [] [0x12; 0x34; 0x56; 0x78; 0; 0; 0; 8; 0; 1; 0; 2; 1; 0; 0; 0] = PErr (InvalidMessage m RcUnknownService) rest /\
  show_endpoint_error "" (InvalidMessage m RcUnknownService) = "invalid message: 1234.5678.0001.0002.00.00 reason=UnknownService"%string.
Proof. eexists. eexists. split; vm_compute; reflexivity. Qed.
Example C83_example_short :
  poll de_bytes [] [0x12] = PErr (InvalidData (InsufficientData 2 1)) [0x12] /\
  show_endpoint_error (B := list N) "" (InvalidData (InsufficientData 2 1)) =
    "could not deserialize a message: insufficient data in buffer: 2 vs 1"%string.
Proof. split; vm_compute; reflexivity. Qed.
