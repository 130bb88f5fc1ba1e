(** Property theorems C34-C39, C51, C52: interfaces and endpoints. *)
From Coq Require Import List NArith ZArith Bool Lia.
From Verif Require Import BytesModel UniverseModel WireSpec PrimitivesModel PrimitivesSpec
  MessageModel MessageSpec EndpointModel EndpointSpec EndpointProofs EndpointTheorems.
Import ListNotations.
Open Scope N_scope.

(** A service with a method 1, a procedure 2 and an event 0x8001, seen from both sides. *)
Definition ex_stub : interface :=
  with_event (with_procedure (with_method (with_version interface_default 7) 1) 2) 0x8001.
Definition ex_proxy : interface := into_proxy ex_stub.
Definition ex_server : endpoint := with_interface endpoint_new 0x1234 ex_stub.
Definition ex_client : endpoint := with_interface endpoint_new 0x1234 ex_proxy.
Definition ex_call : message header (list N) := mkMessage 0x1234 1 (mkHeader 3 4 1 7 0 RcOk) [1; 2; 3].
Definition ex_event : message header (list N) := mkMessage 0x1234 0x8001 (mkHeader 3 4 1 7 2 RcOk) [9].
Example ex_complementary : complementary ex_proxy ex_stub.
Proof. repeat split. Qed.
Example ex_call_accepted : accepted ex_server ex_call Incoming /\ accepted ex_client ex_call Outgoing.
Proof.
  split; (split; [reflexivity|]); eexists; (split; [reflexivity|]); (split; [reflexivity|]); exists Method;
    (split; [reflexivity|constructor]).
Qed.

(** C34.  The interface check. *)
Theorem C34_check : forall (B : Type) i (m : message header B) d,
  (check i m d = None <-> passes i m d) /\
  (forall c, check i m d = Some (Invalid c) \/ check i m d = Some (Dropped c) <-> fault i m d c).
Proof. exact @check_spec. Qed.
Print Assumptions C34_check.
Theorem C34_builders : forall i,
  (forall v, i_version (with_version i v) = v /\ i_flavor (with_version i v) = i_flavor i /\
             forall k, i_get (with_version i v) k = i_get i k) /\
  (i_flavor (into_stub i) = Stub /\ i_version (into_stub i) = i_version i /\ forall k, i_get (into_stub i) k = i_get i k) /\
  (i_flavor (into_proxy i) = Proxy /\ i_version (into_proxy i) = i_version i /\ forall k, i_get (into_proxy i) k = i_get i k) /\
  (forall id k, i_get (with_method i id) k = if id =? k then Some Method else i_get i k) /\
  (forall id k, i_get (with_procedure i id) k = if id =? k then Some Procedure else i_get i k) /\
  (forall id k, i_get (with_event i id) k = if id =? k then Some Event else i_get i k) /\
  (forall id, i_version (with_method i id) = i_version i /\ i_flavor (with_method i id) = i_flavor i /\
     i_version (with_procedure i id) = i_version i /\ i_flavor (with_procedure i id) = i_flavor i /\
     i_version (with_event i id) = i_version i /\ i_flavor (with_event i id) = i_flavor i).
Proof. exact @interface_builders. Qed.
Print Assumptions C34_builders.
(** What is built starts as a stub of version 0 without methods, in an endpoint without services. *)
Theorem C34_new :
  i_version interface_default = 0 /\ i_flavor interface_default = Stub /\ (forall k, i_get interface_default k = None) /\
  (forall k, e_get endpoint_new k = None) /\
  (forall e id i k, e_get (with_interface e id i) k = if id =? k then Some i else e_get e k).
Proof. exact new_endpoint. Qed.
Print Assumptions C34_new.
Example C34_example :
  check ex_stub ex_call Incoming = None /\ check ex_proxy ex_call Incoming = Some (Dropped RcWrongMessageType) /\
  check ex_stub ex_event Outgoing = None /\ check ex_stub ex_event Incoming = Some (Dropped RcWrongMessageType).
Proof. repeat split. Qed.

(** C35.  poll. *)
Theorem C35_poll_ok : forall (B : Type) (db : Deserialize B) e buf m rest,
  poll db e buf = POk m rest <-> de_msg db buf = DOk m rest /\ accepted e m Incoming.
Proof. exact @poll_ok. Qed.
Print Assumptions C35_poll_ok.
Theorem C35_poll_rejects : forall (B : Type) (db : Deserialize B) e buf m rest,
  de_msg db buf = DOk m rest ->
  forall c, rejected e m Incoming c <->
    poll db e buf = PErr (InvalidMessage m c) rest \/ poll db e buf = PErr (MessageDropped m c) rest.
Proof. exact @poll_rejects. Qed.
Print Assumptions C35_poll_rejects.
Theorem C35_poll_other : forall (B : Type) (db : Deserialize B) e buf,
  (forall err rest, poll db e buf = PErr (InvalidData err) rest <-> de_msg db buf = DErr err rest) /\
  (forall err rest, poll db e buf <> PErr (InvalidInput err) rest) /\
  (poll db e buf = PPanic <-> de_msg db buf = DPanic) /\
  (poll db e buf = PHang <-> de_msg db buf = DHang) /\
  (forall m c rest, poll db e buf = PErr (InvalidMessage m c) rest \/ poll db e buf = PErr (MessageDropped m c) rest ->
     de_msg db buf = DOk m rest).
Proof. exact @poll_other. Qed.
Print Assumptions C35_poll_other.
Theorem C35_poll_total : forall e buf,
  match poll de_bytes e buf with
  | POk _ rest | PErr _ rest => exists used, buf = used ++ rest
  | PPanic | PHang => False
  end.
Proof. exact @poll_total. Qed.
Print Assumptions C35_poll_total.
Example C35_example :
  poll de_bytes ex_server [0x12; 0x34; 0; 1; 0; 0; 0; 11; 0; 3; 0; 4; 1; 7; 0; 0; 1; 2; 3; 99] = POk ex_call [99] /\
  poll de_bytes ex_client [0x12; 0x34; 0; 1; 0; 0; 0; 8; 0; 3; 0; 4; 1; 8; 0; 0; 5]
  = PErr (InvalidMessage (mkMessage 0x1234 1 (mkHeader 3 4 1 8 0 RcOk) []) RcWrongInterfaceVersion) [5].
Proof. split; reflexivity. Qed.

(** C36.  process. *)
Theorem C36_process_writes : forall t e (m : message header (value t)) payload data room,
  message_ok m -> valid t (m_body m) = true -> wire t (m_body m) = Some payload -> accepted e m Outgoing -> 8 + len payload < 2 ^ 32 ->
  16 + len payload <= room ->
  process (ser t) e m (mkW data room)
  = ROk (16 + len payload)
        (mkW (data ++ message_form (m_service m) (m_method m) (m_header m) payload) (room - (16 + len payload))).
Proof. exact @process_writes. Qed.
Print Assumptions C36_process_writes.
Theorem C36_process_only : forall t e (m : message header (value t)) b n b',
  message_ok m -> valid t (m_body m) = true -> process (ser t) e m b = ROk n b' ->
  accepted e m Outgoing /\ exists payload, wire t (m_body m) = Some payload /\ 8 + len payload < 2 ^ 32 /\
    n = 16 + len payload /\
    w_data b' = w_data b ++ message_form (m_service m) (m_method m) (m_header m) payload.
Proof. exact @process_only. Qed.
Print Assumptions C36_process_only.
Theorem C36_process_rejected : forall (B : Type) (SB : Serialize B) e (m : message header B) b c,
  rejected e m Outgoing c ->
  process SB e m b = RErr (InvalidMessage m c) b \/
  (process SB e m b = RErr (MessageDropped m c) b /\ msg_type m <> Request).
Proof. exact @process_rejected. Qed.
Print Assumptions C36_process_rejected.
(** Which of the two it is: a wrong interface version or an unknown method is silent unless the message
    is a request; everything else is not. *)
Theorem C36_process_rejects_how : forall (B : Type) (SB : Serialize B) e (m : message header B) b c,
  rejected e m Outgoing c ->
  ((c = RcWrongInterfaceVersion \/ c = RcUnknownMethod) /\ msg_type m <> Request -> process SB e m b = RErr (MessageDropped m c) b) /\
  (~ ((c = RcWrongInterfaceVersion \/ c = RcUnknownMethod) /\ msg_type m <> Request) -> process SB e m b = RErr (InvalidMessage m c) b).
Proof. exact @process_rejects_how. Qed.
Print Assumptions C36_process_rejects_how.
Theorem C36_process_too_long : forall t e (m : message header (value t)) payload data room,
  message_ok m -> valid t (m_body m) = true -> wire t (m_body m) = Some payload -> accepted e m Outgoing -> 2 ^ 32 <= 8 + len payload ->
  4 <= room ->
  process (ser t) e m (mkW data room)
  = RErr (InvalidInput (InvalidLength (8 + len payload) (2 ^ 32 - 1)))
         (mkW (data ++ be 2 (m_service m) ++ be 2 (m_method m)) (room - 4)).
Proof. exact @process_too_long. Qed.
Print Assumptions C36_process_too_long.
Example C36_example :
  process ser_bytes ex_client ex_call (mkW [9] 30)
  = ROk 19 (mkW [9; 0x12; 0x34; 0; 1; 0; 0; 0; 11; 0; 3; 0; 4; 1; 7; 0; 0; 1; 2; 3] 11) /\
  process ser_bytes ex_client ex_event (mkW [9] 30) = RErr (InvalidMessage ex_event RcWrongMessageType) (mkW [9] 30).
Proof. split; reflexivity. Qed.

(** C37.  Both ends agree. *)
Theorem C37_both_ends : forall t e1 e2 i1 i2 (m : message header (value t)) payload data room rest,
  e_get e1 (m_service m) = Some i1 -> e_get e2 (m_service m) = Some i2 -> complementary i1 i2 ->
  message_ok m -> canonical_header (m_header m) -> framed t = true -> valid t (m_body m) = true ->
  nul_free t (m_body m) = true -> wire t (m_body m) = Some payload -> 8 + len payload < 2 ^ 32 -> 16 + len payload <= room ->
  let form := message_form (m_service m) (m_method m) (m_header m) payload in
  (accepted e1 m Outgoing /\
   process (ser t) e1 m (mkW data room) = ROk (len form) (mkW (data ++ form) (room - len form)) /\
   poll (de t) e2 (form ++ rest) = POk m rest) \/
  (~ accepted e1 m Outgoing /\
   (exists c, process (ser t) e1 m (mkW data room) = RErr (InvalidMessage m c) (mkW data room) \/
              process (ser t) e1 m (mkW data room) = RErr (MessageDropped m c) (mkW data room)) /\
   (exists c, poll (de t) e2 (form ++ rest) = PErr (InvalidMessage m c) rest \/
              poll (de t) e2 (form ++ rest) = PErr (MessageDropped m c) rest)).
Proof. exact @duality. Qed.
Print Assumptions C37_both_ends.
Theorem C37_nothing_else : forall e1 e2 i1 i2 buf m rest data room,
  bytes_ok buf -> poll de_bytes e2 buf = POk m rest ->
  e_get e1 (m_service m) = Some i1 -> e_get e2 (m_service m) = Some i2 -> complementary i1 i2 ->
  16 + len (m_body m) <= room ->
  process ser_bytes e1 m (mkW data room)
  = ROk (16 + len (m_body m)) (mkW (data ++ bytes_message_form m) (room - (16 + len (m_body m)))).
Proof. exact @nothing_else. Qed.
Print Assumptions C37_nothing_else.
Example C37_example :
  poll de_bytes ex_client (bytes_message_form ex_event ++ [1]) = POk ex_event [1] /\
  process ser_bytes ex_server ex_event (mkW [] 17) = ROk 17 (mkW (bytes_message_form ex_event) 0).
Proof. split; reflexivity. Qed.

(** C38.  Answerable rejections. *)
Theorem C38_requests_only : forall (B : Type) (db : Deserialize B) e buf m rest c,
  de_msg db buf = DOk m rest -> rejected e m Incoming c -> c <> RcWrongMessageType ->
  (msg_type m = Request -> poll db e buf = PErr (InvalidMessage m c) rest) /\
  (msg_type m <> Request -> poll db e buf = PErr (MessageDropped m c) rest).
Proof. exact @request_only. Qed.
Print Assumptions C38_requests_only.
Theorem C38_wrong_type : forall (B : Type) (db : Deserialize B) e buf m rest,
  de_msg db buf = DOk m rest -> rejected e m Incoming RcWrongMessageType ->
  (calls_stub_method e m -> poll db e buf = PErr (InvalidMessage m RcWrongMessageType) rest) /\
  (~ calls_stub_method e m -> poll db e buf = PErr (MessageDropped m RcWrongMessageType) rest).
Proof. exact @wrong_type. Qed.
Print Assumptions C38_wrong_type.
Example C38_example :
  let m := msg_with_type ex_call Response in
  poll de_bytes ex_server (bytes_message_form m) = PErr (InvalidMessage m RcWrongMessageType) [] /\
  calls_stub_method ex_server m /\
  let m' := msg_with_service m 9 in
  poll de_bytes ex_server (bytes_message_form m') = PErr (MessageDropped m' RcUnknownService) [].
Proof. split; [reflexivity|]. split; [exists ex_stub; repeat split|reflexivity]. Qed.

(** C39.  Tables over any history, newest operation first. *)
Theorem C39_endpoint_history : forall history o k,
  e_get (e_after history) k = latest (fun _ => None) k history /\
  fst (e_apply (e_after history) o) = latest (fun _ => None) (op_key o) history.
Proof. exact @endpoint_history. Qed.
Print Assumptions C39_endpoint_history.
Theorem C39_interface_history : forall start history o k,
  let i := i_after start history in
  i_get i k = latest (i_get start) k history /\ fst (i_apply i o) = latest (i_get start) (op_key o) history /\
  i_version i = i_version start /\ i_flavor i = i_flavor start.
Proof. exact @interface_history. Qed.
Print Assumptions C39_interface_history.
Example C39_example :
  let history := [OpRemove 5; OpWrite 7 (fun _ => Event); OpInsert 5 Method; OpInsert 7 Procedure] in
  latest (i_get ex_stub) 7 history = Some Event /\ latest (i_get ex_stub) 5 history = None /\
  i_get (i_after ex_stub history) 7 = Some Event /\ i_get (i_after ex_stub history) 1 = Some Method.
Proof. repeat split. Qed.

(** C51.  Answers to accepted requests pass on both sides. *)
Theorem C51_answers_pass : forall (B : Type) e_stub e_proxy i_st i_pr (m : message header B) c,
  accepted e_stub m Incoming -> msg_type m = Request ->
  e_get e_stub (m_service m) = Some i_st -> e_get e_proxy (m_service m) = Some i_pr -> complementary i_pr i_st ->
  accepted e_stub (msg_into_response m c) Outgoing /\ accepted e_proxy (msg_into_response m c) Incoming /\
  accepted e_stub (msg_into_error m c) Outgoing /\ accepted e_proxy (msg_into_error m c) Incoming.
Proof. exact @answers_pass. Qed.
Print Assumptions C51_answers_pass.
Example C51_example :
  poll de_bytes ex_client (bytes_message_form (msg_into_response ex_call RcOk)) = POk (msg_into_response ex_call RcOk) [].
Proof. reflexivity. Qed.

(** C52.  Error answers to rejected messages. *)
Theorem C52_error_answer : forall (B : Type) e (m : message header B) c c',
  rejected e m Incoming c ->
  (c <> RcWrongMessageType -> rejected e (msg_into_error m c') Outgoing c) /\
  (c = RcWrongMessageType ->
     (calls_stub_method e m -> accepted e (msg_into_error m c') Outgoing) /\
     (~ calls_stub_method e m -> rejected e (msg_into_error m c') Outgoing RcWrongMessageType)).
Proof. exact @error_answer. Qed.
Print Assumptions C52_error_answer.
Example C52_example :
  let m := msg_with_interface ex_call 8 in
  poll de_bytes ex_server (bytes_message_form m) = PErr (InvalidMessage m RcWrongInterfaceVersion) [] /\
  let answer := msg_into_error m RcWrongInterfaceVersion in
  process ser_bytes ex_server answer (mkW [] 100) = RErr (MessageDropped answer RcWrongInterfaceVersion) (mkW [] 100).
Proof. split; reflexivity. Qed.
