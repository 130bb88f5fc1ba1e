(** When a message of rsomeip and a message of rsomeip-proto are the same message. *)
From Coq Require Import List NArith Bool.
From Verif Require Import BytesModel WireSpec PrimitivesModel PrimitivesSpec MessageModel SomeipModel.
Import ListNotations.
Open Scope N_scope.

(** A message type of rsomeip as a type and a TP flag of rsomeip-proto. *)
Definition type_view (t : s_type) : message_type * bool :=
  match t with
  | StRequest => (Request, false)
  | StRequestNoReturn => (RequestNoReturn, false)
  | StNotification => (Notification, false)
  | StResponse => (Response, false)
  | StError => (Error, false)
  | StTpRequest => (Request, true)
  | StTpRequestNoReturn => (RequestNoReturn, true)
  | StTpNotification => (Notification, true)
  | StTpResponse => (Response, true)
  | StTpError => (Error, true)
  | StUnknown v => (Unknown (without_tp v), tp_bit v)
  end.

(** A return code of rsomeip as one of rsomeip-proto. *)
Definition code_view (c : s_code) : return_code :=
  match c with
  | ScOk => RcOk | ScNotOk => RcNotOk | ScUnknownService => RcUnknownService
  | ScUnknownMethod => RcUnknownMethod | ScNotReady => RcNotReady | ScNotReachable => RcNotReachable
  | ScTimeout => RcTimeout | ScWrongProtocolVersion => RcWrongProtocolVersion
  | ScWrongInterfaceVersion => RcWrongInterfaceVersion | ScMalformedMessage => RcMalformedMessage
  | ScWrongMessageType => RcWrongMessageType | ScE2eRepeated => RcE2eRepeated
  | ScE2eWrongSequence => RcE2eWrongSequence | ScE2e => RcE2e | ScE2eNotAvailable => RcE2eNotAvailable
  | ScE2eNoNewData => RcE2eNoNewData | ScReserved v => RcReserved v | ScUnknown v => RcOther v
  end.

Definition same {T} (s : smessage T) (p : message header T) : Prop :=
  s_service s = m_service p /\ s_method s = m_method p /\ s_client s = msg_client p /\
  s_session s = msg_session p /\ s_protocol s = msg_protocol p /\ s_interface s = msg_interface p /\
  type_view (s_mtype s) = (msg_type p, mtf_is_tp (h_type (m_header p))) /\
  code_view (s_rcode s) = msg_code p /\ s_payload s = m_body p.

(** The outcomes of two decoders on the same bytes: both succeed with the same message and leave
    the same bytes, or both fail, or neither returns. *)
Definition agree {T} (a : dres (smessage T)) (b : dres (message header T)) : Prop :=
  match a, b with
  | DOk s rest, DOk p rest' => same s p /\ rest = rest'
  | DErr _ _, DErr _ _ | DPanic, DPanic | DHang, DHang => True
  | _, _ => False
  end.

(** The values the Rust types can hold. *)
Definition smessage_ok {T} (m : smessage T) : Prop :=
  s_service m < 2 ^ 16 /\ s_method m < 2 ^ 16 /\ s_client m < 2 ^ 16 /\ s_session m < 2 ^ 16 /\
  s_protocol m < 2 ^ 8 /\ s_interface m < 2 ^ 8 /\
  match s_mtype m with StUnknown v => v < 2 ^ 8 | _ => True end /\
  match s_rcode m with ScReserved v | ScUnknown v => v < 2 ^ 8 | _ => True end.

(** The bytes of a message: ids, the length of what follows, the header, the payload. *)
Definition s_form (m : smessage (list N)) : list N :=
  be 2 (s_service m) ++ be 2 (s_method m) ++ be 4 (8 + len (s_payload m)) ++
  be 2 (s_client m) ++ be 2 (s_session m) ++
  [s_protocol m; s_interface m; st_as_u8 (s_mtype m); sc_as_u8 (s_rcode m)] ++ s_payload m.

(** Calls of the builders of a message, in any order. *)
Inductive s_op (T : Type) :=
| SetService (v : N) | SetMethod (v : N) | SetId (id : N)
| SetClient (v : N) | SetSession (v : N) | SetRequest (request : N)
| SetProtocol (v : N) | SetInterface (v : N) | SetType (t : s_type) | SetCode (c : s_code) | SetPayload (p : T).
Arguments SetService {T}. Arguments SetMethod {T}. Arguments SetId {T}. Arguments SetClient {T}. Arguments SetSession {T}.
Arguments SetRequest {T}. Arguments SetProtocol {T}. Arguments SetInterface {T}. Arguments SetType {T}. Arguments SetCode {T}.
Arguments SetPayload {T}.
Definition s_apply {T} (m : smessage T) (o : s_op T) : smessage T :=
  match o with
  | SetService v => s_with_service m v | SetMethod v => s_with_method m v | SetId id => s_with_id m id
  | SetClient v => s_with_client m v | SetSession v => s_with_session m v | SetRequest r => s_with_request m r
  | SetProtocol v => s_with_protocol m v | SetInterface v => s_with_interface m v
  | SetType t => s_with_type m t | SetCode c => s_with_code m c | SetPayload p => s_with_payload m p
  end.
(** The last value given to a field: [pick] is the value one call gives to it, if any. *)
Fixpoint last_given {A B} (pick : A -> option B) (start : B) (ops : list A) : B :=
  match ops with [] => start | o :: l => last_given pick (match pick o with Some v => v | None => start end) l end.
