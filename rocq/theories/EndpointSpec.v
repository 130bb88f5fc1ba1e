(** Specification of the checks of endpoints and interfaces: who may send what to whom, the
    order of the checks, and what a table holds after a history of operations. *)
From Coq Require Import List NArith Bool.
From Verif Require Import BytesModel PrimitivesModel MessageModel MapModel EndpointModel.
Import ListNotations.
Open Scope N_scope.

(** [sent_by kind type role]: messages of this type concerning a method of this kind are sent by
    this role (and received by the other one). *)
Inductive sent_by : method_type -> message_type -> interface_type -> Prop :=
| sent_call : sent_by Method Request Proxy
| sent_fire_and_forget : sent_by Procedure RequestNoReturn Proxy
| sent_response : sent_by Method Response Stub
| sent_error : sent_by Method Error Stub
| sent_event : sent_by Event Notification Stub.

Definition other (r : interface_type) : interface_type := match r with Stub => Proxy | Proxy => Stub end.
Definition sender (r : interface_type) (d : direction) : interface_type :=
  match d with Outgoing => r | Incoming => other r end.

(** A message an interface lets through. *)
Definition passes {B} (i : interface) (m : message header B) (d : direction) : Prop :=
  msg_interface m = i_version i /\
  exists kind, i_get i (m_method m) = Some kind /\ sent_by kind (msg_type m) (sender (i_flavor i) d).

(** Why an interface does not let a message through. *)
Inductive fault {B} (i : interface) (m : message header B) (d : direction) : return_code -> Prop :=
| fault_version : msg_interface m <> i_version i -> fault i m d RcWrongInterfaceVersion
| fault_method : msg_interface m = i_version i -> i_get i (m_method m) = None -> fault i m d RcUnknownMethod
| fault_type kind : msg_interface m = i_version i -> i_get i (m_method m) = Some kind ->
    ~ sent_by kind (msg_type m) (sender (i_flavor i) d) -> fault i m d RcWrongMessageType.

(** The same for endpoints. *)
Definition accepted {B} (e : endpoint) (m : message header B) (d : direction) : Prop :=
  msg_protocol m = 1 /\ exists i, e_get e (m_service m) = Some i /\ passes i m d.
Inductive rejected {B} (e : endpoint) (m : message header B) (d : direction) : return_code -> Prop :=
| rej_protocol : msg_protocol m <> 1 -> rejected e m d RcWrongProtocolVersion
| rej_service : msg_protocol m = 1 -> e_get e (m_service m) = None -> rejected e m d RcUnknownService
| rej_fault i c : msg_protocol m = 1 -> e_get e (m_service m) = Some i -> fault i m d c -> rejected e m d c.

(** A method of kind [Method] of a stub of the endpoint is addressed. *)
Definition calls_stub_method {B} (e : endpoint) (m : message header B) : Prop :=
  exists i, e_get e (m_service m) = Some i /\ i_flavor i = Stub /\ i_get i (m_method m) = Some Method.

(** Operations on a table.  [OpWrite k f]: the caller writes [f v] over the value [v] under [k]
    through [get_mut]. *)
Inductive table_op (V : Type) := OpInsert (k : N) (v : V) | OpRemove (k : N) | OpWrite (k : N) (f : V -> V).
Arguments OpInsert {V}. Arguments OpRemove {V}. Arguments OpWrite {V}.
Definition op_key {V} (o : table_op V) : N := match o with OpInsert k _ | OpRemove k | OpWrite k _ => k end.

(** What is under [k] after a history, newest operation first; [start]: before it. *)
Fixpoint latest {V} (start : N -> option V) (k : N) (history : list (table_op V)) : option V :=
  match history with
  | [] => start k
  | o :: before =>
      if op_key o =? k then
        match o with
        | OpInsert _ v => Some v
        | OpRemove _ => None
        | OpWrite _ f => option_map f (latest start k before)
        end
      else latest start k before
  end.

(** One operation on an endpoint or an interface: what the call returns, and the new value. *)
Definition e_apply (e : endpoint) (o : table_op interface) : option interface * endpoint :=
  match o with
  | OpInsert k v => e_insert e k v
  | OpRemove k => e_remove e k
  | OpWrite k f => e_get_mut e k f
  end.
Definition i_apply (i : interface) (o : table_op method_type) : option method_type * interface :=
  match o with
  | OpInsert k v => i_insert i k v
  | OpRemove k => i_remove i k
  | OpWrite k f => i_get_mut i k f
  end.

(** The endpoint after a history, newest operation first; an interface, from [start]. *)
Definition e_after (history : list (table_op interface)) : endpoint :=
  fold_right (fun o e => snd (e_apply e o)) endpoint_new history.
Definition i_after (start : interface) (history : list (table_op method_type)) : interface :=
  fold_right (fun o i => snd (i_apply i o)) start history.

(** Two ends of the same service interface. *)
Definition complementary (i1 i2 : interface) : Prop :=
  i_version i1 = i_version i2 /\ i_flavor i1 = other (i_flavor i2) /\ forall id, i_get i1 id = i_get i2 id.
