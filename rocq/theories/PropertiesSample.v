(** Property theorem C81: the example programs of rsomeip-proto. *)
From Coq Require Import List NArith Bool PeanoNat Lia.
From Verif Require Import BytesModel WireSpec PrimitivesModel PrimitivesSpec MessageModel MessageSpec SampleModel SampleSpec SampleTheorems.
Import ListNotations.
Open Scope N_scope.

(** C81.  [room] is what a buffer can grow to: 64 bytes are enough.
    The service answers every request with the same message as a response, to where it came from; any
    other datagram stops it. *)
Theorem C81_service : forall room d a, 64 <= room -> bytes_ok d ->
  (forall m, holds request_types d m ->
     service_step room true (SRecv (Some (a, d)) true) = Some (true, SAnswered m (answer_to m) a (bytes_message_form (answer_to m)))) /\
  ((~ exists m, holds request_types d m) -> forall ok, service_step room true (SRecv (Some (a, d)) ok) = Some (false, SPanic)).
Proof. exact @service_answers. Qed.
Print Assumptions C81_service.
(** The client goes on after every response or error for its method, whoever sent it and whatever its
    session id; any other datagram stops it. *)
Theorem C81_client : forall room d s, bytes_ok d ->
  (forall m, holds answer_types d m -> client_step room (Awaiting s) (CRecv (Some d)) = Some (Asking s, CHeard m)) /\
  ((~ exists m, holds answer_types d m) -> client_step room (Awaiting s) (CRecv (Some d)) = Some (Stopped, CPanic)).
Proof. exact @client_listens. Qed.
Print Assumptions C81_client.
(** Whatever happens, the client's requests are numbered with the session ids 1 to 65535, again and
    again, and each is sent in its wire form. *)
Theorem C81_requests : forall room tr w, 64 <= room -> history room tr w ->
  asked tr = map request_no (seq 0 (length (asked tr))) /\ client_sent tr = map bytes_message_form (asked tr) /\
  forall s, session_of (w_client w) = Some s -> s = 1 + N.of_nat (length (asked tr)) mod 65535.
Proof. exact @asked_are. Qed.
Print Assumptions C81_requests.
(** If the network makes nothing up, both programs go on for ever, whatever it loses, repeats and
    reorders, and the client hears only answers to its requests. *)
Theorem C81_goes_on : forall room a tr w, 64 <= room -> history room tr w -> Forall (fun p => io_ok (fst p)) tr ->
  nothing_made_up a tr -> others_ask a tr ->
  w_client w <> Stopped /\ w_service w = true /\ incl (heard tr) (map answer_to (asked tr)).
Proof. exact @stays_up. Qed.
Print Assumptions C81_goes_on.
(** If it keeps the order and repeats nothing, the client hears the answers to its requests one by one. *)
Theorem C81_in_order : forall room a tr w, 64 <= room -> history room tr w -> Forall (fun p => io_ok (fst p)) tr ->
  in_order a tr -> others_ask a tr ->
  exists n,
  asked tr = map request_no (seq 0 n) /\ prefix (heard tr) (map answer_to (asked tr)) /\
  (length (heard tr) = n /\ w_client w = Asking (1 + N.of_nat n mod 65535) \/
   S (length (heard tr)) = n /\ w_client w = Awaiting (1 + N.of_nat n mod 65535)) /\
  (with_addr a (service_received tr) = client_sent tr -> client_received tr = with_addr a (service_sent tr) ->
   heard tr = map answer_to (asked tr)).
Proof. exact @all_answered. Qed.
Print Assumptions C81_in_order.

(** Client 7 asks twice; another program asks in between. *)
Definition ex_ask (k : nat) : list N := bytes_message_form (request_no k).
Definition ex_reply (k : nat) : list N := bytes_message_form (answer_to (request_no k)).
Definition ex_run : list event :=
  [EClient (CSend true); EService (SRecv (Some (7, ex_ask 0)) true); EClient (CRecv (Some (ex_reply 0))); EService (SRecv (Some (8, ex_ask 5)) true);
   EClient (CSend true); EService (SRecv (Some (7, ex_ask 1)) true); EClient (CRecv (Some (ex_reply 1)))].
Ltac each_prefix t1 E :=
  match type of E with
  | [] = t1 ++ ?t2 => destruct t1; [|discriminate E]
  | _ :: _ = t1 ++ ?t2 => destruct t1 as [|? t1]; [|injection E as <- E; each_prefix t1 E]
  end.
Example C81_example : exists tr w, history 64 tr w /\ Forall (fun p => io_ok (fst p)) tr /\ in_order 7 tr /\ others_ask 7 tr /\
  heard tr = [answer_to (request_no 0); answer_to (request_no 1)].
Proof.
  destruct (run 64 samples_init ex_run) as [[w tr]|] eqn:R; [|vm_compute in R; discriminate]. exists tr, w.
  split; [apply (run_history 64 ex_run [] samples_init w tr (h_init 64) R)|].
  vm_compute in R. injection R as <- <-.
  split; [repeat constructor; cbn; try discriminate|]. split.
  - intros t1 t2 E. each_prefix t1 E; (split; eexists; reflexivity).
  - split; [|reflexivity]. intros b d I. cbn in I. repeat (destruct I as [I|I]; [injection I as <- <-|]); [left; reflexivity| |left; reflexivity|destruct I].
    right. destruct (request_holds 5) as [X Y]. split; [exact Y|eexists; exact X].
Qed.
(** An answer that is delivered twice is taken for the answer to the next request. *)
Definition ex_stale : list event :=
  [EClient (CSend true); EService (SRecv (Some (7, ex_ask 0)) true); EClient (CRecv (Some (ex_reply 0))); EClient (CSend true); EClient (CRecv (Some (ex_reply 0)))].
Theorem C81_stale : exists tr w, history 64 tr w /\ Forall (fun p => io_ok (fst p)) tr /\ nothing_made_up 7 tr /\ others_ask 7 tr /\
  asked tr = [request_no 0; request_no 1] /\ heard tr = [answer_to (request_no 0); answer_to (request_no 0)] /\
  session_of (w_client w) = Some 3.
Proof.
  destruct (run 64 samples_init ex_stale) as [[w tr]|] eqn:R; [|vm_compute in R; discriminate]. exists tr, w.
  split; [apply (run_history 64 ex_stale [] samples_init w tr (h_init 64) R)|].
  vm_compute in R. injection R as <- <-.
  split; [repeat constructor; cbn; try discriminate|]. split; [|split; [|repeat split]].
  - intros t1 t2 E. each_prefix t1 E; (split; intros x I; cbn in I |- *; tauto).
  - intros b d I. cbn in I. repeat (destruct I as [I|I]; [injection I as <- <-|]); [left; reflexivity|destruct I].
Qed.
Print Assumptions C81_stale.
(** A datagram that is too long is answered cut off; one for another service stops the service. *)
Example C81_example_service :
  let m k := mkMessage 0x1234 0x0421 (mkHeader 9 9 1 0 0 RcOk) (repeat 1 k) in
  holds request_types (bytes_message_form (m 60%nat)) (m 48%nat) /\
  service_step 64 true (SRecv (Some (7, bytes_message_form (msg_with_service (m 3%nat) 9))) true) = Some (false, SPanic).
Proof.
  cbv zeta. split; [|vm_compute; reflexivity]. exists 68, (mkHeader 9 9 1 0 0 RcOk), (repeat 1 48).
  split; [reflexivity|]. repeat split; try (cbn; lia); left; reflexivity.
Qed.
