(** Model of the example programs of rsomeip-proto: examples/request-sample.rs (R), response-sample.rs
    (S) and common/mod.rs (C).  Definitions only.

    A program stops when one of its [expect]s panics; it would be stuck if [poll] did not end.  Both
    are the same here: the program does nothing any more.  Printing and the pause of a second (R 67) are
    left out, but what is printed is in the observations.  Binding the sockets succeeds. *)
From Coq Require Import List NArith Bool.
From Verif Require Import BytesModel PrimitivesModel MessageModel EndpointModel.
Import ListNotations.
Open Scope N_scope.

(** C 5, 8. *)
Definition sample_service : N := 0x1234.
Definition sample_method : N := 0x0421.

(** R 11, S 11: [Message<Vec<u8>>]. *)
Notation sample_message := (message header (list N)).
Definition ser_vec_u8 : Serialize (list N) := ser_slice (ser_uint 1).
Definition de_vec_u8 : Deserialize (list N) := de_vec (de_uint 1).

(** R 18-23, S 18-23: the endpoints. *)
Definition client_endpoint : endpoint :=
  with_interface endpoint_new sample_service (into_proxy (with_method interface_default sample_method)).
Definition service_endpoint : endpoint :=
  with_interface endpoint_new sample_service (into_stub (with_method interface_default sample_method)).

(** R 32-36; message.rs 602-612: [default].  The address of the body is not shared: [clone] copies. *)
Definition first_request : sample_message :=
  msg_with_body
    (msg_with_client (msg_with_method (msg_with_service (msg_new header_new ([] : list N)) sample_service) sample_method) 1)
    [0; 1; 2; 3; 4; 5; 6; 7; 8; 9].

(** A socket reads at most 64 bytes of a datagram (R 57-60, S 33-36); the rest is lost, as on Linux. *)
Definition received (d : list N) : list N := firstn 64 d.

(** R 29-69: where the client is: about to send or waiting for an answer, with its session id; or stopped. *)
Inductive client := Asking (session : N) | Awaiting (session : N) | Stopped.
Definition client_start : client := Asking session_enabled.

(** [CSend ok]: R 41-54 with the result of [send_to].  [CRecv r]: R 57-66, with the datagram or an error. *)
Inductive cevent := CSend (ok : bool) | CRecv (r : option (list N)).
Inductive cobs := CAsked (m : sample_message) (d : list N) | CHeard (m : sample_message) | CPanic.

(** [room]: what a [BytesMut] can grow to (usize::MAX). *)
Definition client_step (room : N) (c : client) (e : cevent) : option (client * cobs) :=
  match c, e with
  | Asking s, CSend ok =>
      let (id, s') := session_increment s in
      let m := msg_with_session first_request id in
      match process ser_vec_u8 client_endpoint m (mkW [] room) with
      | ROk _ b => if ok then Some (Awaiting s', CAsked m (w_data b)) else Some (Stopped, CPanic)
      | _ => Some (Stopped, CPanic)
      end
  | Awaiting s, CRecv (Some d) =>
      match poll de_vec_u8 client_endpoint (received d) with
      | POk m _ => Some (Asking s, CHeard m)
      | _ => Some (Stopped, CPanic)
      end
  | Awaiting s, CRecv None => Some (Stopped, CPanic)
  | _, _ => None
  end.

(** S 29-58: one turn of the service, which is running or not.  [SRecv r ok]: the datagram and where it
    comes from, or an error; and the result of [send_to]. *)
Inductive sevent := SRecv (r : option (N * list N)) (ok : bool).
Inductive sobs := SAnswered (request response : sample_message) (to : N) (d : list N) | SPanic.
Definition service_step (room : N) (up : bool) (e : sevent) : option (bool * sobs) :=
  if up then
    match e with
    | SRecv None _ => Some (false, SPanic)
    | SRecv (Some (a, d)) ok =>
        match poll de_vec_u8 service_endpoint (received d) with
        | POk m _ =>
            let response := msg_with_type m Response in
            match process ser_vec_u8 service_endpoint response (mkW [] room) with
            | ROk _ b => if ok then Some (true, SAnswered m response a (w_data b)) else Some (false, SPanic)
            | _ => Some (false, SPanic)
            end
        | _ => Some (false, SPanic)
        end
    end
  else None.

(** Both programs. *)
Record samples := mkSamples { w_client : client; w_service : bool }.
Definition samples_init : samples := mkSamples client_start true.
Inductive event := EClient (e : cevent) | EService (e : sevent).
Inductive obs := OClient (o : cobs) | OService (o : sobs).
Definition sample_step (room : N) (w : samples) (e : event) : option (samples * obs) :=
  match e with
  | EClient c => match client_step room (w_client w) c with
                 | Some (c', o) => Some (mkSamples c' (w_service w), OClient o)
                 | None => None
                 end
  | EService s => match service_step room (w_service w) s with
                  | Some (up, o) => Some (mkSamples (w_client w) up, OService o)
                  | None => None
                  end
  end.
Inductive history (room : N) : list (event * obs) -> samples -> Prop :=
| h_init : history room [] samples_init
| h_step tr w e w' o : history room tr w -> sample_step room w e = Some (w', o) -> history room (tr ++ [(e, o)]) w'.
(** The history of a list of events, for examples. *)
Fixpoint run (room : N) (w : samples) (es : list event) : option (samples * list (event * obs)) :=
  match es with
  | [] => Some (w, [])
  | e :: es' => match sample_step room w e with
                | Some (w', o) => match run room w' es' with Some (w2, tr) => Some (w2, (e, o) :: tr) | None => None end
                | None => None
                end
  end.
