(** Model of rsomeip/src/someip.rs (line numbers are of that file).  Definitions only.
    The type aliases of 15-36 are the [N] they hold. *)
From Coq Require Import List NArith Bool.
From Verif Require Import BytesModel PrimitivesModel.
Import ListNotations.
Open Scope N_scope.

(** 352-365: [MessageType]. *)
Inductive s_type :=
| StRequest | StRequestNoReturn | StNotification | StResponse | StError
| StTpRequest | StTpRequestNoReturn | StTpNotification | StTpResponse | StTpError
| StUnknown (v : N).

(** 367-383: [From<u8> for MessageType]. *)
Definition st_from_u8 (v : N) : s_type :=
  match v with
  | 0x00 => StRequest
  | 0x01 => StRequestNoReturn
  | 0x02 => StNotification
  | 0x80 => StResponse
  | 0x81 => StError
  | 0x20 => StTpRequest
  | 0x21 => StTpRequestNoReturn
  | 0x22 => StTpNotification
  | 0xa0 => StTpResponse
  | 0xa1 => StTpError
  | x => StUnknown x
  end.

(** 385-401: [From<MessageType> for u8]. *)
Definition st_as_u8 (t : s_type) : N :=
  match t with
  | StRequest => 0x00
  | StRequestNoReturn => 0x01
  | StNotification => 0x02
  | StResponse => 0x80
  | StError => 0x81
  | StTpRequest => 0x20
  | StTpRequestNoReturn => 0x21
  | StTpNotification => 0x22
  | StTpResponse => 0xa0
  | StTpError => 0xa1
  | StUnknown x => x
  end.

(** 427-447: [ReturnCode]. *)
Inductive s_code :=
| ScOk | ScNotOk | ScUnknownService | ScUnknownMethod | ScNotReady | ScNotReachable | ScTimeout
| ScWrongProtocolVersion | ScWrongInterfaceVersion | ScMalformedMessage | ScWrongMessageType
| ScE2eRepeated | ScE2eWrongSequence | ScE2e | ScE2eNotAvailable | ScE2eNoNewData
| ScReserved (v : N) | ScUnknown (v : N).

(** 449-472: [From<u8> for ReturnCode]. *)
Definition sc_from_u8 (v : N) : s_code :=
  match v with
  | 0x00 => ScOk
  | 0x01 => ScNotOk
  | 0x02 => ScUnknownService
  | 0x03 => ScUnknownMethod
  | 0x04 => ScNotReady
  | 0x05 => ScNotReachable
  | 0x06 => ScTimeout
  | 0x07 => ScWrongProtocolVersion
  | 0x08 => ScWrongInterfaceVersion
  | 0x09 => ScMalformedMessage
  | 0x0a => ScWrongMessageType
  | 0x0b => ScE2eRepeated
  | 0x0c => ScE2eWrongSequence
  | 0x0d => ScE2e
  | 0x0e => ScE2eNotAvailable
  | 0x0f => ScE2eNoNewData
  | n => if (0x10 <=? n) && (n <=? 0x5e) then ScReserved n else ScUnknown n
  end.

(** 474-496: [From<ReturnCode> for u8]. *)
Definition sc_as_u8 (c : s_code) : N :=
  match c with
  | ScOk => 0x00
  | ScNotOk => 0x01
  | ScUnknownService => 0x02
  | ScUnknownMethod => 0x03
  | ScNotReady => 0x04
  | ScNotReachable => 0x05
  | ScTimeout => 0x06
  | ScWrongProtocolVersion => 0x07
  | ScWrongInterfaceVersion => 0x08
  | ScMalformedMessage => 0x09
  | ScWrongMessageType => 0x0a
  | ScE2eRepeated => 0x0b
  | ScE2eWrongSequence => 0x0c
  | ScE2e => 0x0d
  | ScE2eNotAvailable => 0x0e
  | ScE2eNoNewData => 0x0f
  | ScReserved x | ScUnknown x => x
  end.

(** 403-419, 498-514: their [Serialize] and [Deserialize]. *)
Definition ser_s_type : Serialize s_type := {|
  serialize := fun (t : s_type) b => serialize (ser_uint 1) (st_as_u8 t) b;
  size_hint := fun (_ : s_type) => 1
|}.
Definition de_s_type : Deserialize s_type := fun buf => dmap st_from_u8 (de_uint 1 buf).
Definition ser_s_code : Serialize s_code := {|
  serialize := fun (c : s_code) b => serialize (ser_uint 1) (sc_as_u8 c) b;
  size_hint := fun (_ : s_code) => 1
|}.
Definition de_s_code : Deserialize s_code := fun buf => dmap sc_from_u8 (de_uint 1 buf).

(** 62-81: [Message<T>]. *)
Record smessage (T : Type) := mkS {
  s_service : N;
  s_method : N;
  s_client : N;
  s_session : N;
  s_protocol : N;
  s_interface : N;
  s_mtype : s_type;
  s_rcode : s_code;
  s_payload : T
}.
Arguments mkS {T}. Arguments s_service {T}. Arguments s_method {T}. Arguments s_client {T}.
Arguments s_session {T}. Arguments s_protocol {T}. Arguments s_interface {T}.
Arguments s_mtype {T}. Arguments s_rcode {T}. Arguments s_payload {T}.

(** 85-97, 311-315: [new], [Default]. *)
Definition s_new {T} (payload : T) : smessage T := mkS 0 0 0 0 1 0 StRequest ScOk payload.

(** 101-111, 135-145, 169-200: the builders of single fields. *)
Definition s_with_service {T} (m : smessage T) v : smessage T :=
  mkS v (s_method m) (s_client m) (s_session m) (s_protocol m) (s_interface m) (s_mtype m) (s_rcode m) (s_payload m).
Definition s_with_method {T} (m : smessage T) v : smessage T :=
  mkS (s_service m) v (s_client m) (s_session m) (s_protocol m) (s_interface m) (s_mtype m) (s_rcode m) (s_payload m).
Definition s_with_client {T} (m : smessage T) v : smessage T :=
  mkS (s_service m) (s_method m) v (s_session m) (s_protocol m) (s_interface m) (s_mtype m) (s_rcode m) (s_payload m).
Definition s_with_session {T} (m : smessage T) v : smessage T :=
  mkS (s_service m) (s_method m) (s_client m) v (s_protocol m) (s_interface m) (s_mtype m) (s_rcode m) (s_payload m).
Definition s_with_protocol {T} (m : smessage T) v : smessage T :=
  mkS (s_service m) (s_method m) (s_client m) (s_session m) v (s_interface m) (s_mtype m) (s_rcode m) (s_payload m).
Definition s_with_interface {T} (m : smessage T) v : smessage T :=
  mkS (s_service m) (s_method m) (s_client m) (s_session m) (s_protocol m) v (s_mtype m) (s_rcode m) (s_payload m).
Definition s_with_type {T} (m : smessage T) v : smessage T :=
  mkS (s_service m) (s_method m) (s_client m) (s_session m) (s_protocol m) (s_interface m) v (s_rcode m) (s_payload m).
Definition s_with_code {T} (m : smessage T) v : smessage T :=
  mkS (s_service m) (s_method m) (s_client m) (s_session m) (s_protocol m) (s_interface m) (s_mtype m) v (s_payload m).
Definition s_with_payload {T} (m : smessage T) (v : T) : smessage T :=
  mkS (s_service m) (s_method m) (s_client m) (s_session m) (s_protocol m) (s_interface m) (s_mtype m) (s_rcode m) v.

(** 127-131, 161-165: [with_id], [with_request]. *)
Definition s_with_id {T} (m : smessage T) (id : N) : smessage T :=
  s_with_method (s_with_service m (as_u16 (N.shiftr id 16))) (as_u16 (N.land id 0xFFFF)).
Definition s_with_request {T} (m : smessage T) (request : N) : smessage T :=
  s_with_session (s_with_client m (as_u16 (N.shiftr request 16))) (as_u16 (N.land request 0xFFFF)).

(** 216-218, 234-236: [id], [request]. *)
Definition s_id {T} (m : smessage T) : N := N.lor (N.shiftl (s_service m) 16) (s_method m).
Definition s_request {T} (m : smessage T) : N := N.lor (N.shiftl (s_client m) 16) (s_session m).

(** 249-259: the tuple serialized with its length. *)
Definition ser_s_tuple {T} (ST : Serialize T) :
    Serialize (N * (N * (N * (N * (s_type * (s_code * (T * unit))))))) :=
  ser_tuple_cons ser_u16 (ser_tuple_cons ser_u16 (ser_tuple_cons ser_u8 (ser_tuple_cons ser_u8
    (ser_tuple_cons ser_s_type (ser_tuple_cons ser_s_code (ser_tuple_cons ST ser_tuple_nil)))))).
Definition s_tuple {T} (m : smessage T) :=
  (s_client m, (s_session m, (s_protocol m, (s_interface m, (s_mtype m, (s_rcode m, (s_payload m, tt))))))).

(** 239-278: [impl Serialize for Message]. *)
Definition ser_smessage {T} (ST : Serialize T) : Serialize (smessage T) := {|
  serialize := fun (m : smessage T) b =>
    wbind (serialize (ser_uint 4) (s_id m) b) (fun n b1 =>
    wbind (serialize_len (ser_s_tuple ST) LF32 (s_tuple m) b1) (fun k b2 => WOk (n + k) b2));
  size_hint := fun (m : smessage T) =>
    (size_hint ser_u16 (s_service m) + size_hint ser_u16 (s_method m)) +
    (4 + size_hint ser_u16 (s_client m) + size_hint ser_u16 (s_session m) + size_hint ser_u8 (s_protocol m) +
     size_hint ser_u8 (s_interface m) + size_hint ser_s_type (s_mtype m) + size_hint ser_s_code (s_rcode m) +
     size_hint ST (s_payload m))
|}.

(** 280-309: [impl Deserialize for Message]. *)
Definition de_smessage {T} (dt : Deserialize T) : Deserialize (smessage T) := fun buf =>
  dbind (de_uint 4 buf) (fun id buf =>
  dbind (deserialize_len
           (de_tuple_cons (de_uint 4) (de_tuple_cons de_u8 (de_tuple_cons de_u8 (de_tuple_cons de_s_type
             (de_tuple_cons de_s_code (de_tuple_cons dt de_tuple_nil)))))) LF32 buf) (fun r buf =>
  let '(request, (protocol, (interface, (message_type, (return_code, (payload, _)))))) := r in
  DOk (s_with_code (s_with_type (s_with_interface (s_with_protocol
         (s_with_request (s_with_id (s_new payload) id) request) protocol) interface) message_type) return_code) buf)).
