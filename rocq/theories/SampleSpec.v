(** What the claims about the example programs mean. *)
From Coq Require Import List NArith Bool.
From Verif Require Import BytesModel WireSpec PrimitivesModel PrimitivesSpec MessageModel MessageSpec SampleModel.
Import ListNotations.
Open Scope N_scope.

(** The message the first 64 bytes of a datagram hold, of one of the given types, for the service and
    method of the examples: what follows the header is the body, at most as much as the length field says. *)
Definition holds (types : list N) (d : list N) (m : sample_message) : Prop :=
  exists length h tail,
    firstn 64 d = be 2 0x1234 ++ be 2 0x0421 ++ be 4 length ++ header_form h ++ tail /\
    length < 2 ^ 32 /\ 8 <= length /\ header_ok h /\ canonical_header h /\
    h_protocol h = 1 /\ h_interface h = 0 /\ In (h_type h) types /\
    m = mkMessage 0x1234 0x0421 h (firstn (N.to_nat (length - 8)) tail).
(** A request, with or without the TP flag; a response or an error, the same. *)
Definition request_types : list N := [0x00; 0x20].
Definition answer_types : list N := [0x80; 0x81; 0xA0; 0xA1].

(** The requests of the client, from number 0: session ids count from 1 to 65535 and start again at 1. *)
Definition request_no (k : nat) : sample_message :=
  mkMessage 0x1234 0x0421 (mkHeader 1 (1 + N.of_nat k mod 65535) 1 0 0x00 RcOk) [0; 1; 2; 3; 4; 5; 6; 7; 8; 9].
(** The answer to a request: the same as a plain response. *)
Definition answer_to (m : sample_message) : sample_message :=
  let h := m_header m in
  mkMessage (m_service m) (m_method m) (mkHeader (h_client h) (h_session h) (h_protocol h) (h_interface h) 0x80 (h_code h)) (m_body m).

(** The session id the client will use next. *)
Definition session_of (c : client) : option N := match c with Asking s | Awaiting s => Some s | Stopped => None end.

(** What the client asked and heard; the datagrams it sent and received; those the service received
    from address [a] and sent to it. *)
Fixpoint asked (tr : list (event * obs)) : list sample_message :=
  match tr with
  | [] => []
  | (_, OClient (CAsked m _)) :: tr' => m :: asked tr'
  | _ :: tr' => asked tr'
  end.
Fixpoint heard (tr : list (event * obs)) : list sample_message :=
  match tr with
  | [] => []
  | (_, OClient (CHeard m)) :: tr' => m :: heard tr'
  | _ :: tr' => heard tr'
  end.
Fixpoint client_sent (tr : list (event * obs)) : list (list N) :=
  match tr with
  | [] => []
  | (_, OClient (CAsked _ d)) :: tr' => d :: client_sent tr'
  | _ :: tr' => client_sent tr'
  end.
Fixpoint client_received (tr : list (event * obs)) : list (list N) :=
  match tr with
  | [] => []
  | (EClient (CRecv (Some d)), _) :: tr' => d :: client_received tr'
  | _ :: tr' => client_received tr'
  end.
Fixpoint service_received (tr : list (event * obs)) : list (N * list N) :=
  match tr with
  | [] => []
  | (EService (SRecv (Some p) _), _) :: tr' => p :: service_received tr'
  | _ :: tr' => service_received tr'
  end.
Fixpoint service_sent (tr : list (event * obs)) : list (N * list N) :=
  match tr with
  | [] => []
  | (_, OService (SAnswered _ _ a d)) :: tr' => (a, d) :: service_sent tr'
  | _ :: tr' => service_sent tr'
  end.
Definition with_addr (a : N) (l : list (N * list N)) : list (list N) := map snd (filter (fun p => fst p =? a) l).

(** No socket call fails. *)
Definition io_ok (e : event) : Prop :=
  match e with
  | EClient (CSend ok) => ok = true
  | EClient (CRecv r) => r <> None
  | EService (SRecv r ok) => r <> None /\ ok = true
  end.
(** Other programs, at other addresses than the client's, send only requests to the service. *)
Definition others_ask (a : N) (tr : list (event * obs)) : Prop :=
  forall b d, In (b, d) (service_received tr) -> b = a \/ bytes_ok d /\ exists m, holds request_types d m.
(** The network, with the client at address [a].  It may lose, repeat and reorder, but makes nothing up. *)
Definition nothing_made_up (a : N) (tr : list (event * obs)) : Prop :=
  forall t1 t2, tr = t1 ++ t2 ->
    incl (with_addr a (service_received t1)) (client_sent t1) /\ incl (client_received t1) (with_addr a (service_sent t1)).
(** It does not repeat or reorder either. *)
Definition prefix {A} (l1 l2 : list A) : Prop := exists l, l2 = l1 ++ l.
Definition in_order (a : N) (tr : list (event * obs)) : Prop :=
  forall t1 t2, tr = t1 ++ t2 ->
    prefix (with_addr a (service_received t1)) (client_sent t1) /\ prefix (client_received t1) (with_addr a (service_sent t1)).
