(** Property theorems C84: an endpoint over TCP comes to rest, and two of them at rest.
    [bk] and [cbk] say which entries of the shared maps share a lock: all theorems hold whatever
    they are. *)
From Coq Require Import List NArith Bool PeanoNat Lia.
From Verif Require Import BytesModel WireSpec SomeipModel SomeipSpec MapModel RuntimeModel RuntimeSpec NodeSpec
  TcpModel TcpSpec TcpNodeModel TcpNodeSpec TcpRestSpec TcpRestTheorems PropertiesTcpNode.
Import ListNotations.
Open Scope nat_scope.

(** C84.  An endpoint over TCP that is left to itself does not go on for ever: whatever its tasks do
    first, and however little the streams take or give at a time, only finitely many steps change
    anything. *)
Theorem C84_stops : forall bk cbk (f : nat -> tnode) tr, thistory bk cbk tr (f 0) ->
  ~ (forall n, f (S n) <> f n /\ exists e x, tcp_settles (f n) e /\ tnode_step bk cbk (f n) e = Some (f (S n), x)).
Proof. exact @tcp_stops. Qed.
Print Assumptions C84_stops.
(** When nothing changes any more, nothing is left to do and every connection that runs has read all
    that arrived, or the endpoint is in the deadlock of C60. *)
Theorem C84_stopped : forall bk cbk tr s, thistory bk cbk tr s ->
  (forall e s' x, tcp_settles s e -> tnode_step bk cbk s e = Some (s', x) -> s' = s) ->
  (idle (t_rt s) /\ all_read tr s) \/ exists c n, jammed bk (tcp_trace tr) (t_rt s) c n.
Proof. exact @tcp_stopped. Qed.
Print Assumptions C84_stopped.
(** So from wherever it is, it gets there. *)
Theorem C84_comes_to_rest : forall bk cbk tr s, thistory bk cbk tr s ->
  exists tr' s', tcp_settling bk cbk s tr' s' /\ thistory bk cbk (tr ++ tr') s' /\
  ((idle (t_rt s') /\ all_read (tr ++ tr') s') \/ exists c n, jammed bk (tcp_trace (tr ++ tr')) (t_rt s') c n).
Proof. exact @tcp_comes_to_rest. Qed.
Print Assumptions C84_comes_to_rest.
(** Two messages have arrived and a third is to be sent.  The stream gives and takes them in small
    pieces, or nothing, and the endpoint goes on until the stub has both. *)
Definition ex_before : list tnevent :=
  ex_serve (1%N, 1%N) ++ [TBytes 0 (s_form (note 1 7) ++ s_form (note 1 9)); TRun (ESendTo 0 9%N (note 3 1))].
Definition ex_after : list tnevent :=
  map TRun [EStub 0 true; EStub 0 true; EStub 0 true; ESender 0] ++ [TWrite 0 (NotReady, None); TWrite 0 (Ready, Some 10)] ++
  ex_read (Ready, Some 17) ++ [TWrite 0 (Ready, Some 0); TWrite 0 (Ready, Some 10)] ++ ex_read all ++ map TRun [ERecvFrom 0; ERecvFrom 0].
Example C84_example : exists s tr s' tr', tnode_run b0 c0 tnode_init ex_before = Some (s, tr) /\ tnode_run b0 c0 s ex_after = Some (s', tr') /\
  tcp_settling b0 c0 s tr' s' /\ idle (t_rt s') /\ all_read (tr ++ tr') s' /\ conn_runs (t_rt s') 0 /\ s' <> s /\
  stub_got 0 (tcp_trace tr) = [] /\ map it_msg (stub_got 0 (tcp_trace (tr ++ tr'))) = [note 1 7; note 1 9] /\
  bytes_out 0 tr = [] /\ bytes_out 0 (tr ++ tr') = s_form (note 3 1).
Proof.
  eexists. eexists. eexists. eexists. split; [vm_compute; reflexivity|]. split; [vm_compute; reflexivity|].
  split.
  { repeat (eapply ts_more;
      [ first [exact I | left; reflexivity | right; split; [reflexivity|discriminate]
              | split; [right; split; [reflexivity|discriminate]|intros _; eexists; split; [reflexivity|left; discriminate]]]
      | vm_compute; reflexivity | ]). apply ts_none. }
  split; [ex_idle|]. split; [intros [|[|c]] (x & X & _); [reflexivity|discriminate X|discriminate X]|].
  split; [eexists; split; reflexivity|]. split; [discriminate|]. repeat split; vm_compute; reflexivity.
Qed.

(** Both endpoints are at rest and the network has brought everything each of them wrote.  The proxy of
    one was given exactly the messages for its service that the other has accepted, in order, if every
    read stopped where a message stops (C76). *)
Theorem C84_answers : forall bk cbk bk' cbk' ta a ca tb1 tb2 b cb n id p,
  thistory bk cbk ta a -> thistory bk' cbk' (tb1 ++ tb2) b ->
  idle (t_rt a) -> conn_runs (t_rt a) ca -> idle (t_rt b) -> conn_runs (t_rt b) cb ->
  bytes_in cb (tb1 ++ tb2) = bytes_out ca ta -> concat (reads cb (tb1 ++ tb2)) = bytes_in cb (tb1 ++ tb2) ->
  Forall ordinary (accepted ca (tcp_trace ta)) -> between_messages (accepted ca (tcp_trace ta)) (reads cb (tb1 ++ tb2)) ->
  proxied n id p (tcp_trace tb1) -> reads cb tb1 = [] -> opened cb p (tcp_trace (tb1 ++ tb2)) ->
  proxy_exists (t_rt b) n -> proxy_connected (t_rt b) n ->
  map it_msg (from_conn cb (proxy_got n (tcp_trace (tb1 ++ tb2)))) = filter (of_id id) (accepted ca (tcp_trace ta)).
Proof. exact @tcp_all_answered. Qed.
Print Assumptions C84_answers.
(** So if the program with the stub answers every message it is given with its [reply], in order, and
    sends nothing else, the proxy has been given the replies to what was sent: one for each, in order,
    and nothing else. *)
Theorem C84_exchange : forall bk cbk bk' cbk' ta1 ta2 a ca tb1 tb2 b cb n k id p reply,
  thistory bk cbk (ta1 ++ ta2) a -> thistory bk' cbk' (tb1 ++ tb2) b ->
  idle (t_rt a) -> conn_runs (t_rt a) ca -> all_read (ta1 ++ ta2) a -> idle (t_rt b) -> conn_runs (t_rt b) cb -> all_read (tb1 ++ tb2) b ->
  bytes_in cb (tb1 ++ tb2) = bytes_out ca (ta1 ++ ta2) -> bytes_in ca (ta1 ++ ta2) = bytes_out cb (tb1 ++ tb2) ->
  Forall ordinary (accepted ca (tcp_trace (ta1 ++ ta2))) -> between_messages (accepted ca (tcp_trace (ta1 ++ ta2))) (reads cb (tb1 ++ tb2)) ->
  Forall ordinary (accepted cb (tcp_trace (tb1 ++ tb2))) -> between_messages (accepted cb (tcp_trace (tb1 ++ tb2))) (reads ca (ta1 ++ ta2)) ->
  served n id (tcp_trace tb1) -> reads cb tb1 = [] -> stub_exists (t_rt b) n -> stub_listening (t_rt b) n ->
  proxied k id p (tcp_trace ta1) -> reads ca ta1 = [] -> opened ca p (tcp_trace (ta1 ++ ta2)) -> proxy_exists (t_rt a) k -> proxy_connected (t_rt a) k ->
  Forall (fun m => of_id id m = true) (accepted ca (tcp_trace (ta1 ++ ta2))) -> (forall m, of_id id m = true -> of_id id (reply m) = true) ->
  accepted cb (tcp_trace (tb1 ++ tb2)) = map reply (map it_msg (from_conn cb (stub_got n (tcp_trace (tb1 ++ tb2))))) ->
  map it_msg (from_conn ca (proxy_got k (tcp_trace (ta1 ++ ta2)))) = map reply (accepted ca (tcp_trace (ta1 ++ ta2))).
Proof. exact @tcp_exchange. Qed.
Print Assumptions C84_exchange.
(** Two requests, written at once and read at once, and their answers. *)
Definition ex_reply (m : msg) : msg :=
  mkS (s_service m) (s_method m) (s_client m) (s_session m) (s_protocol m) (s_interface m) StResponse (s_rcode m) (s_payload m).
Definition ex_answer (m : msg) : list tnevent :=
  map TRun [ERecvFrom 0; ESendTo 0 9%N (ex_reply m); EStub 0 true; EStub 0 true; EStub 0 true; ESender 0] ++ [TWrite 0 all].
Definition ex_asks : list tnevent :=
  ex_proxy ++ ex_send (note 1 7) ++ ex_send (note 1 9) ++
  [TBytes 0 (s_form (ex_reply (note 1 7)) ++ s_form (ex_reply (note 1 9)))] ++ ex_read (Ready, Some 17) ++ ex_read all ++
  map TRun [EProxyRecv 0; EProxyRecv 0].
Definition ex_answers : list tnevent :=
  ex_serve (1%N, 1%N) ++ [TBytes 0 (s_form (note 1 7) ++ s_form (note 1 9))] ++ ex_read (Ready, Some 34) ++ [TRun (ERoute 0); TRun (ERoute 0)] ++
  ex_answer (note 1 7) ++ ex_answer (note 1 9).
Lemma reply_ordinary w : (w < 256)%N -> ordinary (ex_reply (note 1 w)).
Proof. intros W. unfold ordinary, smessage_ok, ex_reply, note, bytes_ok, len. cbn. repeat split; try lia. constructor; [exact W|constructor]. Qed.
Example C84_exchange_example : exists ta1 ta2 a tb1 tb2 b, thistory b0 c0 (ta1 ++ ta2) a /\ thistory b0 c0 (tb1 ++ tb2) b /\
  (idle (t_rt a) /\ conn_runs (t_rt a) 0 /\ all_read (ta1 ++ ta2) a) /\ (idle (t_rt b) /\ conn_runs (t_rt b) 0 /\ all_read (tb1 ++ tb2) b) /\
  bytes_in 0 (tb1 ++ tb2) = bytes_out 0 (ta1 ++ ta2) /\ bytes_in 0 (ta1 ++ ta2) = bytes_out 0 (tb1 ++ tb2) /\
  Forall ordinary (accepted 0 (tcp_trace (ta1 ++ ta2))) /\ between_messages (accepted 0 (tcp_trace (ta1 ++ ta2))) (reads 0 (tb1 ++ tb2)) /\
  Forall ordinary (accepted 0 (tcp_trace (tb1 ++ tb2))) /\ between_messages (accepted 0 (tcp_trace (tb1 ++ tb2))) (reads 0 (ta1 ++ ta2)) /\
  (served 0 (1%N, 1%N) (tcp_trace tb1) /\ reads 0 tb1 = [] /\ stub_exists (t_rt b) 0 /\ stub_listening (t_rt b) 0) /\
  (proxied 0 (1%N, 1%N) 5%N (tcp_trace ta1) /\ reads 0 ta1 = [] /\ opened 0 5%N (tcp_trace (ta1 ++ ta2)) /\ proxy_exists (t_rt a) 0 /\ proxy_connected (t_rt a) 0) /\
  Forall (fun m => of_id (1%N, 1%N) m = true) (accepted 0 (tcp_trace (ta1 ++ ta2))) /\
  (forall m, of_id (1%N, 1%N) m = true -> of_id (1%N, 1%N) (ex_reply m) = true) /\
  accepted 0 (tcp_trace (tb1 ++ tb2)) = map ex_reply (map it_msg (from_conn 0 (stub_got 0 (tcp_trace (tb1 ++ tb2))))) /\
  map it_msg (from_conn 0 (proxy_got 0 (tcp_trace (ta1 ++ ta2)))) = [ex_reply (note 1 7); ex_reply (note 1 9)].
Proof.
  ex_run ex_asks. rename H into HA. ex_run ex_answers.
  match type of HA with thistory _ _ (?a1 :: ?a2 :: ?a3 :: ?a4 :: ?a5 :: ?t) _ => exists [a1; a2; a3; a4; a5], t end. eexists.
  match type of H with thistory _ _ (?a1 :: ?a2 :: ?a3 :: ?a4 :: ?a5 :: ?t) _ => exists [a1; a2; a3; a4; a5], t end. eexists.
  split; [exact HA|]. split; [exact H|].
  split; [split; [ex_idle|split; [eexists; split; reflexivity|intros [|[|c]] (x & X & _); [reflexivity|discriminate X|discriminate X]]]|].
  split; [split; [ex_idle|split; [eexists; split; reflexivity|intros [|[|c]] (x & X & _); [reflexivity|discriminate X|discriminate X]]]|].
  split; [reflexivity|]. split; [reflexivity|].
  split; [repeat (constructor; [apply note_ordinary; lia|]); constructor|].
  split. { intros i I. cbn in I. destruct i as [|[|i]]; [exists 0|exists 2|lia]; reflexivity. }
  split; [constructor; [exact (reply_ordinary 7%N eq_refl)|constructor; [exact (reply_ordinary 9%N eq_refl)|constructor]]|].
  split. { intros i I. cbn in I. destruct i as [|[|[|i]]]; [exists 0|exists 1|exists 2|lia]; reflexivity. }
  split; [split; [exists (EEp true); cbn; tauto|split; [reflexivity|split; [eexists; split; reflexivity|repeat eexists]]]|].
  split; [split; [exists (EEp true); cbn; tauto|split; [reflexivity|split; [exists (EEp true); cbn; tauto|split; [eexists; split; reflexivity|repeat eexists]]]]|].
  split; [repeat constructor|]. split; [intros m E; exact E|]. split; reflexivity.
Qed.
