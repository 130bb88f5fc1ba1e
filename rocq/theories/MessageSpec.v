(** Specification of the SOME/IP message format (PRS_SOMEIPProtocol 4.1.2), without reference to
    the serializer. *)
From Coq Require Import List NArith Bool.
From Verif Require Import BytesModel UniverseModel WireSpec PrimitivesModel PrimitivesSpec MessageModel.
Import ListNotations.
Open Scope N_scope.

(** The 8 header bytes covered by the length field. *)
Definition header_form (h : header) : list N :=
  be 2 (h_client h) ++ be 2 (h_session h) ++
  [h_protocol h; h_interface h; h_type h; rc_as_u8 (h_code h)].

(** The message: ids, the length of what follows, header, payload. *)
Definition message_form (service method : N) (h : header) (payload : list N) : list N :=
  be 2 service ++ be 2 method ++ be 4 (8 + len payload) ++ header_form h ++ payload.

(** What the Rust type can hold. *)
Definition header_ok (h : header) : Prop :=
  h_client h < 2 ^ 16 /\ h_session h < 2 ^ 16 /\ h_protocol h < 2 ^ 8 /\ h_interface h < 2 ^ 8 /\
  h_type h < 2 ^ 8 /\ valid_code (h_code h).
Definition message_ok {B} (m : message header B) : Prop :=
  m_service m < 2 ^ 16 /\ m_method m < 2 ^ 16 /\ header_ok (m_header m).

(** A header whose return code is in the form in which it is received. *)
Definition canonical_header (h : header) : Prop := canonical_code (h_code h).

(** A message with its wire form, for sequences of messages. *)
Definition bytes_message_form (m : message header (list N)) : list N :=
  message_form (m_service m) (m_method m) (m_header m) (m_body m).
Definition sendable (m : message header (list N)) : Prop :=
  message_ok m /\ canonical_header (m_header m) /\ bytes_ok (m_body m) /\ 8 + len (m_body m) < 2 ^ 32.

(** Everything a message of header type [Header] shows: service, method, client, session,
    protocol version, interface version, message type, TP flag, return code, body. *)
Definition observe {B} (m : message header B) :=
  (m_service m, m_method m, msg_client m, msg_session m, msg_protocol m, msg_interface m,
   msg_type m, mtf_is_tp (h_type (m_header m)), msg_code m, m_body m).

(** Everything a header shows. *)
Definition observe_header (h : header) :=
  (h_client h, h_session h, h_protocol h, h_interface h, mtf_as_type (h_type h), mtf_is_tp (h_type h), h_code h).
