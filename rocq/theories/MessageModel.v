(** Model of rsomeip-proto/src/message.rs.  Definitions only.  Line numbers are of that file
    unless another is named.  Integer new-types are the [N] they hold (see PrimitivesModel.v). *)
From Coq Require Import List NArith Bool.
From Verif Require Import BytesModel PrimitivesModel.
Import ListNotations.
Open Scope N_scope.

(** 26-35: [GenericMessage<H, B>]. *)
Record message (H B : Type) := mkMessage {
  m_service : N;
  m_method : N;
  m_header : H;
  m_body : B
}.
Arguments mkMessage {H B}. Arguments m_service {H B}. Arguments m_method {H B}.
Arguments m_header {H B}. Arguments m_body {H B}.

(** 52-59: [new]. *)
Definition msg_new {H B} (header : H) (body : B) : message H B := mkMessage 0 0 header body.

(** 75-77: [id]. *)
Definition msg_id {H B} (m : message H B) : message_id := mkMessageId (m_service m) (m_method m).

(** 92-96: [with_id]. *)
Definition msg_with_id {H B} (m : message H B) (id : message_id) : message H B :=
  mkMessage (mid_service id) (mid_method id) (m_header m) (m_body m).

(** 110-113: [with_service]. *)
Definition msg_with_service {H B} (m : message H B) (service : N) : message H B :=
  mkMessage service (m_method m) (m_header m) (m_body m).

(** 127-130: [with_method]. *)
Definition msg_with_method {H B} (m : message H B) (method : N) : message H B :=
  mkMessage (m_service m) method (m_header m) (m_body m).

(** 145-149: [with_header]. *)
Definition msg_with_header {H B T} (m : message H B) (header : T) : message T B :=
  msg_with_method (msg_with_service (msg_new header (m_body m)) (m_service m)) (m_method m).

(** 164-168: [with_body]. *)
Definition msg_with_body {H B T} (m : message H B) (body : T) : message H T :=
  msg_with_method (msg_with_service (msg_new (m_header m) body) (m_service m)) (m_method m).

(** 185-193: [map]. *)
Definition msg_map {H B T U} (f : H -> B -> T * U) (m : message H B) : message T U :=
  let (header, body) := f (m_header m) (m_body m) in
  msg_with_method (msg_with_service (msg_new header body) (m_service m)) (m_method m).

(** 208-215: [map_header]. *)
Definition msg_map_header {H B T} (f : H -> T) (m : message H B) : message T B :=
  msg_with_method (msg_with_service (msg_new (f (m_header m)) (m_body m)) (m_service m)) (m_method m).

(** 230-237: [map_body]. *)
Definition msg_map_body {H B T} (f : B -> T) (m : message H B) : message H T :=
  msg_with_method (msg_with_service (msg_new (m_header m) (f (m_body m))) (m_service m)) (m_method m).

(** 254-256, 273-275: [replace_header], [replace_body]: the returned value and the new message. *)
Definition msg_replace_header {H B} (m : message H B) (value : H) : H * message H B :=
  (m_header m, mkMessage (m_service m) (m_method m) value (m_body m)).
Definition msg_replace_body {H B} (m : message H B) (value : B) : B * message H B :=
  (m_body m, mkMessage (m_service m) (m_method m) (m_header m) value).

(** 642-655: [Header]; the type field is the raw byte of [MessageTypeField]. *)
Record header := mkHeader {
  h_client : N;
  h_session : N;
  h_protocol : N;
  h_interface : N;
  h_type : N;
  h_code : return_code
}.

(** 661-670, 812-816: [Header::new], [Default]. *)
Definition header_new : header := mkHeader 0 session_disabled 1 0 0 RcOk.

(** 686-688, 703-707: [Header::id], [Header::with_id]. *)
Definition h_id (h : header) : request_id := mkRequestId (h_client h) (h_session h).
Definition h_with_id (h : header) (id : request_id) : header :=
  mkHeader (rid_client id) (rid_session id) (h_protocol h) (h_interface h) (h_type h) (h_code h).

(** 721-809: [with_client], ..., [with_return_code]. *)
Definition h_with_client (h : header) (v : N) : header :=
  mkHeader v (h_session h) (h_protocol h) (h_interface h) (h_type h) (h_code h).
Definition h_with_session (h : header) (v : N) : header :=
  mkHeader (h_client h) v (h_protocol h) (h_interface h) (h_type h) (h_code h).
Definition h_with_protocol (h : header) (v : N) : header :=
  mkHeader (h_client h) (h_session h) v (h_interface h) (h_type h) (h_code h).
Definition h_with_interface (h : header) (v : N) : header :=
  mkHeader (h_client h) (h_session h) (h_protocol h) v (h_type h) (h_code h).
Definition h_with_type_field (h : header) (v : N) : header :=   (* assignment to the pub field *)
  mkHeader (h_client h) (h_session h) (h_protocol h) (h_interface h) v (h_code h).
Definition h_with_type (h : header) (t : message_type) : header := h_with_type_field h (mtf_from_type t).
Definition h_with_code (h : header) (c : return_code) : header :=
  mkHeader (h_client h) (h_session h) (h_protocol h) (h_interface h) (h_type h) c.

(** 818-841: [impl Serialize for Header]: the 6-tuple of the fields ([serialize_into!],
    macros.rs 37-41). *)
Definition ser_header_tuple : Serialize (N * (N * (N * (N * (N * (return_code * unit)))))) :=
  ser_tuple_cons ser_u16 (ser_tuple_cons ser_u16 (ser_tuple_cons ser_u8 (ser_tuple_cons ser_u8
    (ser_tuple_cons ser_u8 (ser_tuple_cons ser_return_code ser_tuple_nil))))).
Definition header_tuple (h : header) :=
  (h_client h, (h_session h, (h_protocol h, (h_interface h, (h_type h, (h_code h, tt)))))).
Definition ser_header : Serialize header := {|
  serialize := fun (h : header) b => serialize ser_header_tuple (header_tuple h) b;
  size_hint := fun (h : header) => size_hint ser_header_tuple (header_tuple h)
|}.

(** 843-856: [impl Deserialize for Header]. *)
Definition de_header : Deserialize header := fun buf =>
  dbind (de_u16 buf) (fun client buf =>
  dbind (de_u16 buf) (fun session buf =>
  dbind (de_u8 buf) (fun protocol buf =>
  dbind (de_u8 buf) (fun interface buf =>
  dbind (de_u8 buf) (fun message_type buf =>
  dbind (de_return_code buf) (fun return_code buf =>
  DOk (mkHeader client session protocol interface message_type return_code) buf)))))).

(** 295-301, 318-324: [into_response], [into_error]. *)
Definition msg_into_response {B} (m : message header B) (c : return_code) : message header B :=
  msg_map_header (fun h => h_with_code (h_with_type h Response) c) m.
Definition msg_into_error {B} (m : message header B) (c : return_code) : message header B :=
  msg_map_header (fun h => h_with_code (h_with_type h Error) c) m.

(** 339-341 ... 514-516: the accessors. *)
Definition msg_client {B} (m : message header B) : N := h_client (m_header m).
Definition msg_session {B} (m : message header B) : N := h_session (m_header m).
Definition msg_protocol {B} (m : message header B) : N := h_protocol (m_header m).
Definition msg_interface {B} (m : message header B) : N := h_interface (m_header m).
Definition msg_type {B} (m : message header B) : message_type := mtf_as_type (h_type (m_header m)).
Definition msg_code {B} (m : message header B) : return_code := h_code (m_header m).

(** 356-359 ... 531-534: the builders, assignments to [self.header]. *)
Definition msg_set_header {B} (m : message header B) (h : header) : message header B :=
  mkMessage (m_service m) (m_method m) h (m_body m).
Definition msg_with_client {B} (m : message header B) v := msg_set_header m (h_with_client (m_header m) v).
Definition msg_with_session {B} (m : message header B) v := msg_set_header m (h_with_session (m_header m) v).
Definition msg_with_protocol {B} (m : message header B) v := msg_set_header m (h_with_protocol (m_header m) v).
Definition msg_with_interface {B} (m : message header B) v := msg_set_header m (h_with_interface (m_header m) v).
Definition msg_with_type {B} (m : message header B) t := msg_set_header m (h_with_type (m_header m) t).
Definition msg_with_code {B} (m : message header B) c := msg_set_header m (h_with_code (m_header m) c).

(** 537-555: [impl Serialize for GenericMessage]. *)
Definition ser_message {H B} (SH : Serialize H) (SB : Serialize B) : Serialize (message H B) := {|
  serialize := fun (m : message H B) b =>
    wbind (serialize (ser_tuple_cons ser_u16 (ser_tuple_cons ser_u16 ser_tuple_nil))
             (m_service m, (m_method m, tt)) b) (fun n b1 =>
    wbind (serialize_len (ser_tuple_cons SH (ser_tuple_cons SB ser_tuple_nil)) LF32
             (m_header m, (m_body m, tt)) b1) (fun k b2 => WOk (n + k) b2));
  size_hint := fun (m : message H B) =>
    (size_hint ser_u16 (m_service m) + size_hint ser_u16 (m_method m)) +
    (4 + size_hint SH (m_header m) + size_hint SB (m_body m))
|}.

(** 557-574: [impl Deserialize for GenericMessage]. *)
Definition de_message {H B} (dh : Deserialize H) (db : Deserialize B) : Deserialize (message H B) := fun buf =>
  dbind (de_tuple_cons de_u16 (de_tuple_cons de_u16 de_tuple_nil) buf) (fun ids buf =>
  dbind (deserialize_len (de_tuple_cons dh (de_tuple_cons db de_tuple_nil)) LF32 buf) (fun hb buf =>
  DOk (mkMessage (fst ids) (fst (snd ids)) (fst hb) (fst (snd hb))) buf)).

(** 586-590: [to_bytes].  [room]: what a fresh [BytesMut] can hold (usize::MAX). *)
Inductive bytes_res := BOk (bytes : list N) | BErr (e : ser_error) | BPanic.
Definition msg_to_bytes {H B} (SH : Serialize H) (SB : Serialize B) (room : N) (m : message H B) : bytes_res :=
  match serialize (ser_message SH SB) m (mkW [] room) with
  | WOk _ b => BOk (w_data b)
  | WErr e _ => BErr e
  | WPanic => BPanic
  end.

(** 597-599: [from_bytes]. *)
Definition msg_from_bytes {H B} (dh : Deserialize H) (db : Deserialize B) : Deserialize (message H B) :=
  de_message dh db.

(** lib.rs 12: [Message<T>] is [GenericMessage<Header, T>]. *)
Definition ser_msg {B} (SB : Serialize B) : Serialize (message header B) := ser_message ser_header SB.
Definition de_msg {B} (db : Deserialize B) : Deserialize (message header B) := de_message de_header db.
