(** Model of rsomeip-proto/src/interface.rs and rsomeip-proto/src/endpoint.rs.  Definitions
    only.  [I] and [E] before line numbers name the file.  The version of an interface and the
    ids of methods and services are the [N] they hold. *)
From Coq Require Import List NArith Bool.
From Verif Require Import BytesModel PrimitivesModel MessageModel MapModel.
Import ListNotations.
Open Scope N_scope.

(** I 317-323, 329-336, 340-345, 363-368: [InterfaceType], [MethodType], [Direction], [MessageError]. *)
Inductive interface_type := Stub | Proxy.
Inductive method_type := Procedure | Method | Event.
Inductive direction := Incoming | Outgoing.
Inductive message_error := Invalid (c : return_code) | Dropped (c : return_code).

(** I 19-27: [Interface] with its derived [Default]. *)
Record interface := mkInterface {
  i_version : N;
  i_flavor : interface_type;
  i_methods : list (N * method_type)
}.
Definition interface_default : interface := mkInterface 0 Stub [].

(** I 44-47, 63-66, 80-83: [into_stub], [into_proxy], [with_version]. *)
Definition into_stub (i : interface) : interface := mkInterface (i_version i) Stub (i_methods i).
Definition into_proxy (i : interface) : interface := mkInterface (i_version i) Proxy (i_methods i).
Definition with_version (i : interface) (v : N) : interface := mkInterface v (i_flavor i) (i_methods i).

Definition i_set_methods (i : interface) m : interface := mkInterface (i_version i) (i_flavor i) m.

(** I 156-158, 172-174: [insert], [remove]: the returned value and the new interface. *)
Definition i_insert (i : interface) (id : N) (flavor : method_type) : option method_type * interface :=
  (map_get N.eqb id (i_methods i), i_set_methods i (map_insert N.eqb id flavor (i_methods i))).
Definition i_remove (i : interface) (id : N) : option method_type * interface :=
  (map_get N.eqb id (i_methods i), i_set_methods i (map_remove N.eqb id (i_methods i))).

(** I 188-190: [get].  I 204-206: [get_mut], as the returned value and the interface after the
    write [f] through it. *)
Definition i_get (i : interface) (id : N) : option method_type := map_get N.eqb id (i_methods i).
Definition i_get_mut (i : interface) (id : N) (f : method_type -> method_type) : option method_type * interface :=
  (map_get N.eqb id (i_methods i), i_set_methods i (map_update N.eqb id f (i_methods i))).

(** I 99-102, 118-121, 137-140: [with_method], [with_procedure], [with_event]. *)
Definition with_method (i : interface) (id : N) : interface := snd (i_insert i id Method).
Definition with_procedure (i : interface) (id : N) : interface := snd (i_insert i id Procedure).
Definition with_event (i : interface) (id : N) : interface := snd (i_insert i id Event).

(** primitives.rs 677: the derived [PartialEq] of [MessageType]. *)
Definition mt_eqb (a b : message_type) : bool :=
  match a, b with
  | Request, Request | RequestNoReturn, RequestNoReturn | Notification, Notification
  | Response, Response | Error, Error => true
  | Unknown x, Unknown y => x =? y
  | _, _ => false
  end.

(** I 376-382: [MessageError::invalid_or_dropped]. *)
Definition invalid_or_dropped (t : message_type) (c : return_code) : message_error :=
  if mt_eqb t Request then Invalid c else Dropped c.

(** I 239-310: [check]; [None] is [Ok(())]. *)
Definition check {B} (i : interface) (m : message header B) (d : direction) : option message_error :=
  if negb (msg_interface m =? i_version i)
  then Some (invalid_or_dropped (msg_type m) RcWrongInterfaceVersion)
  else match map_get N.eqb (m_method m) (i_methods i) with
  | None => Some (invalid_or_dropped (msg_type m) RcUnknownMethod)
  | Some method =>
      match d with
      | Incoming =>
          match i_flavor i, method with
          | Stub, Procedure =>
              if negb (mt_eqb (msg_type m) RequestNoReturn) then Some (Dropped RcWrongMessageType) else None
          | Stub, Method =>
              if negb (mt_eqb (msg_type m) Request) then Some (Invalid RcWrongMessageType) else None
          | Proxy, Method =>
              if negb (match msg_type m with Response | Error => true | _ => false end)
              then Some (Dropped RcWrongMessageType) else None
          | Proxy, Event =>
              if negb (mt_eqb (msg_type m) Notification) then Some (Dropped RcWrongMessageType) else None
          | _, _ => Some (Dropped RcWrongMessageType)
          end
      | Outgoing =>
          match i_flavor i, method with
          | Stub, Method =>
              if negb (match msg_type m with Response | Error => true | _ => false end)
              then Some (Invalid RcWrongMessageType) else None
          | Stub, Event =>
              if negb (mt_eqb (msg_type m) Notification) then Some (Invalid RcWrongMessageType) else None
          | Proxy, Procedure =>
              if negb (mt_eqb (msg_type m) RequestNoReturn) then Some (Invalid RcWrongMessageType) else None
          | Proxy, Method =>
              if negb (mt_eqb (msg_type m) Request) then Some (Invalid RcWrongMessageType) else None
          | _, _ => Some (Invalid RcWrongMessageType)
          end
      end
  end.

(** E 12-14, 19-21: [Endpoint], [new]. *)
Definition endpoint := list (N * interface).
Definition endpoint_new : endpoint := [].

(** E 52-54, 67-69: [insert], [remove]: the returned value and the new endpoint. *)
Definition e_insert (e : endpoint) (id : N) (i : interface) : option interface * endpoint :=
  (map_get N.eqb id e, map_insert N.eqb id i e).
Definition e_remove (e : endpoint) (id : N) : option interface * endpoint :=
  (map_get N.eqb id e, map_remove N.eqb id e).

(** E 82-84: [get].  E 97-99: [get_mut], with the write [f] through it.  E 34-37: [with_interface]. *)
Definition e_get (e : endpoint) (id : N) : option interface := map_get N.eqb id e.
Definition e_get_mut (e : endpoint) (id : N) (f : interface -> interface) : option interface * endpoint :=
  (map_get N.eqb id e, map_update N.eqb id f e).
Definition with_interface (e : endpoint) (id : N) (i : interface) : endpoint := snd (e_insert e id i).

(** E 276-297: [EndpointError]; [Custom] is never built by this crate. *)
Inductive endpoint_error (B : Type) :=
| InvalidData (e : de_error)
| InvalidInput (e : ser_error)
| InvalidMessage (m : message header B) (c : return_code)
| MessageDropped (m : message header B) (c : return_code).
Arguments InvalidData {B}. Arguments InvalidInput {B}. Arguments InvalidMessage {B}. Arguments MessageDropped {B}.

(** E 305-317: [EndpointError::invalid_or_dropped]. *)
Definition ep_invalid_or_dropped {B} (m : message header B) (c : return_code) : endpoint_error B :=
  if mt_eqb (msg_type m) Request then InvalidMessage m c else MessageDropped m c.

(** Outcome of [poll]: a message or an error, with what is left of the buffer. *)
Inductive poll_res (B : Type) :=
| POk (m : message header B) (rest : list N)
| PErr (e : endpoint_error B) (rest : list N)
| PPanic
| PHang.
Arguments POk {B}. Arguments PErr {B}. Arguments PPanic {B}. Arguments PHang {B}.

(** E 136-181: [poll]. *)
Definition poll {B} (db : Deserialize B) (e : endpoint) (buf : list N) : poll_res B :=
  match de_msg db buf with
  | DPanic => PPanic
  | DHang => PHang
  | DErr err rest => PErr (InvalidData err) rest
  | DOk m rest =>
      if negb (msg_protocol m =? 1) then PErr (ep_invalid_or_dropped m RcWrongProtocolVersion) rest
      else match map_get N.eqb (m_service m) e with
      | None => PErr (ep_invalid_or_dropped m RcUnknownService) rest
      | Some i =>
          match check i m Incoming with
          | None => POk m rest
          | Some (Invalid c) => PErr (InvalidMessage m c) rest
          | Some (Dropped c) => PErr (MessageDropped m c) rest
          end
      end
  end.

(** Outcome of [process]: the size written or an error, with the buffer. *)
Inductive process_res (B : Type) :=
| ROk (n : N) (b : wbuf)
| RErr (e : endpoint_error B) (b : wbuf)
| RPanic.
Arguments ROk {B}. Arguments RErr {B}. Arguments RPanic {B}.

(** E 222-271: [process]. *)
Definition process {B} (SB : Serialize B) (e : endpoint) (m : message header B) (b : wbuf) : process_res B :=
  if negb (msg_protocol m =? 1) then RErr (InvalidMessage m RcWrongProtocolVersion) b
  else match map_get N.eqb (m_service m) e with
  | None => RErr (InvalidMessage m RcUnknownService) b
  | Some i =>
      match check i m Outgoing with
      | Some (Invalid c) => RErr (InvalidMessage m c) b
      | Some (Dropped c) => RErr (MessageDropped m c) b
      | None =>
          match serialize (ser_msg SB) m b with
          | WOk n b' => ROk n b'
          | WErr err b' => RErr (InvalidInput err) b'
          | WPanic => RPanic
          end
      end
  end.
