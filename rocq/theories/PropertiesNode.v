(** Property theorems C67 to C70: a v1 endpoint over UDP, and several of them on a network.
    [bk] and [cbk] say which entries of the shared maps share a lock: all theorems hold whatever
    they are. *)
From Coq Require Import List NArith Bool PeanoNat Lia.
From Verif Require Import BytesModel WireSpec SomeipModel SomeipSpec MapModel RuntimeModel RuntimeSpec NodeModel NodeSpec
  NodeProofs NodeTheorems NodeNetTheorems NodeLossTheorems NodeProxyTheorems NodeCutSpec NodeCutTheorems.
From Verif Require UdpModel UdpSpec.
Import ListNotations.
Open Scope nat_scope.

(** A message for service 1, version 1, and one for service 2. *)
Definition ex_m (v : N) : msg := mkS 1 2 3 4 1 1 StNotification ScOk [v].
Definition ex_k (v : N) : msg := mkS 2 2 3 4 1 1 StNotification ScOk [v].
Definition b0 (_ : iid) : N := 0.
Definition c0 (_ : N) : N := 0.
(** Serving an id; a proxy whose connection becomes number [c]; a datagram handled by the receiver
    task, from a known and from an unknown peer; reading it and routing its one message; sending
    a message through a proxy. *)
Definition ex_serve (id : iid) : list nevent := map NRun [EServe id; EEp true; EEp true; EEp true; EEp true].
Definition ex_proxy (id : iid) (a : N) (c : nat) : list nevent :=
  map NRun [EProxy id a; EEp true; EEp true; EEp true; EEp true; ESender c].
Definition ex_known (a : N) (d : list N) : list nevent := [NDatagram a d; NTask; NTask].
Definition ex_new (a : N) (d : list N) : list nevent := [NDatagram a d; NTask; NTask; NTask; NTask].
Definition ex_read (c : nat) : list nevent := [NRecv c; NRun (ERoute c); NRun (ERoute c)].
Definition ex_send (n c : nat) (m : msg) : list nevent := [NRun (EProxySend n m); NRun (ESender c); NSend c true].
Lemma ex_history es s tr : node_run b0 c0 node_init es = Some (s, tr) -> nhistory b0 c0 tr s.
Proof. intros R. exact (node_run_history _ _ es [] _ _ _ (n_start _ _) R). Qed.
Lemma ex_net_history es w tr : net_run b0 c0 net_init [] es = Some (w, tr) -> net_history b0 c0 tr w.
Proof. intros R. exact (net_run_history _ _ es [] _ _ _ (w_start _ _) R). Qed.

(** C67.  Over UDP: everything the stubs and proxies are given is a message in a datagram that
    arrived, with the address it arrived from, and no message is given more often than it arrived.
    What comes over one connection is in the order of arrival. *)
Theorem C67_only_what_arrived : forall bk cbk tr s,
  nhistory bk cbk tr s -> among (read_by_users tr) (messages_in (datagrams tr)).
Proof. exact @only_what_arrived. Qed.
Print Assumptions C67_only_what_arrived.
Theorem C67_order_kept : forall bk cbk tr s n c a,
  nhistory bk cbk tr s -> opened c a (runtime_trace tr) ->
  subseq (map it_msg (from_conn c (stub_got n (runtime_trace tr)))) (flat_map packet_messages (from_peer a (datagrams tr))) /\
  subseq (map it_msg (from_conn c (proxy_got n (runtime_trace tr)))) (flat_map packet_messages (from_peer a (datagrams tr))).
Proof. exact @order_kept. Qed.
Print Assumptions C67_order_kept.
(** What the system is given to send is the encoding of messages whose sending was answered [Ok],
    each for the address it is for, none more often than it was accepted and none over 1400 bytes. *)
Theorem C67_only_what_was_accepted : forall bk cbk tr s,
  nhistory bk cbk tr s ->
  among (sent_out tr) (map (fun p => (fst p, encode (snd p))) (accepted_for tr)) /\
  Forall (fun p => length (snd p) <= 1400) (sent_out tr).
Proof. exact @only_what_was_accepted. Qed.
Print Assumptions C67_only_what_was_accepted.
Definition ex_node : list nevent :=
  ex_serve (1%N, 1%N) ++ [NRun (EListener 0)] ++ ex_new 5%N (s_form (ex_m 7)) ++ [NAccept 0; NRun (EAcceptShare 0)] ++
  ex_read 0 ++ ex_known 5%N (s_form (ex_m 8)) ++ ex_read 0 ++
  map NRun [ERecvFrom 0; ERecvFrom 0; ESendTo 0 5%N (ex_k 9); EStub 0 true; EStub 0 true; EStub 0 true; ESender 0] ++ [NSend 0 true].
Example C67_example : exists s tr, node_run b0 c0 node_init ex_node = Some (s, tr) /\ nhistory b0 c0 tr s /\
  opened 0 5%N (runtime_trace tr) /\ datagrams tr = [(5%N, s_form (ex_m 7)); (5%N, s_form (ex_m 8))] /\
  read_by_users tr = [(5%N, ex_m 7); (5%N, ex_m 8)] /\ accepted_for tr = [(5%N, ex_k 9)] /\ sent_out tr = [(5%N, s_form (ex_k 9))].
Proof.
  eexists. eexists. split; [vm_compute; reflexivity|]. split; [apply (ex_history ex_node); vm_compute; reflexivity|].
  split; [exists (EAccept 0 5%N); cbn; tauto|]. repeat split.
Qed.

(** C68.  Between endpoints, over a network that loses, delays, reorders and duplicates datagrams:
    whatever [b] is given as coming from [a] is a message that [a] sent to [b].  If the network did not
    duplicate, none is given more often than it was sent; if it did not reorder either, and [a] made
    one connection to [b], every stub and proxy of [b] gets them in the order in which they were sent
    (over one connection).  [read_back m] is [m], unless its type or code was given by number. *)
Theorem C68_end_to_end : forall bk cbk tr w a b m,
  net_history bk cbk tr w -> Forall (fun p => typed (snd p)) (accepted_for (at_node a tr)) ->
  In (a, m) (read_by_users (at_node b tr)) -> exists m', In (b, m') (accepted_for (at_node a tr)) /\ m = read_back m'.
Proof. exact @end_to_end. Qed.
Print Assumptions C68_end_to_end.
Theorem C68_at_most_once : forall bk cbk tr w a b,
  net_history bk cbk tr w -> Forall (fun p => typed (snd p)) (accepted_for (at_node a tr)) ->
  unduplicated a b tr ->
  among (from_peer a (read_by_users (at_node b tr))) (map read_back (from_peer b (accepted_for (at_node a tr)))).
Proof. exact @end_to_end_once. Qed.
Print Assumptions C68_at_most_once.
Theorem C68_in_order : forall bk cbk tr w a b n c,
  net_history bk cbk tr w -> Forall (fun p => typed (snd p)) (accepted_for (at_node a tr)) ->
  in_sequence a b tr ->
  (forall d d', opened d b (runtime_trace (at_node a tr)) -> opened d' b (runtime_trace (at_node a tr)) -> d = d') ->
  opened c a (runtime_trace (at_node b tr)) ->
  subseq (map it_msg (from_conn c (stub_got n (runtime_trace (at_node b tr))))) (map read_back (from_peer b (accepted_for (at_node a tr)))) /\
  subseq (map it_msg (from_conn c (proxy_got n (runtime_trace (at_node b tr))))) (map read_back (from_peer b (accepted_for (at_node a tr)))).
Proof. exact @end_to_end_order. Qed.
Print Assumptions C68_in_order.
Theorem C68_read_back : forall m,
  ordinary m -> read_back m = m.
Proof. exact @read_back_id. Qed.
Print Assumptions C68_read_back.
Definition at_ (a : N) (es : list nevent) : list (N * nevent) := map (pair a) es.
(** Endpoint 1 serves, endpoint 2 asks twice and gets an answer. *)
Definition ex_net : list (N * nevent) :=
  at_ 1 (ex_serve (1%N, 1%N) ++ [NRun (EListener 0)]) ++ at_ 2 (ex_proxy (1%N, 1%N) 1%N 0 ++ ex_send 0 0 (ex_m 7) ++ ex_send 0 0 (ex_m 8)) ++
  at_ 1 (ex_new 2%N (s_form (ex_m 7)) ++ [NAccept 0; NRun (EAcceptShare 0)] ++ ex_read 0 ++ ex_known 2%N (s_form (ex_m 8)) ++ ex_read 0 ++
         map NRun [ERecvFrom 0; ERecvFrom 0; ESendTo 0 2%N (ex_m 9); EStub 0 true; EStub 0 true; EStub 0 true; ESender 0] ++ [NSend 0 true]) ++
  at_ 2 (ex_known 1%N (s_form (ex_m 9)) ++ ex_read 0 ++ [NRun (EProxyRecv 0)]).
Example C68_example : exists w tr, net_run b0 c0 net_init [] ex_net = Some (w, tr) /\ net_history b0 c0 tr w /\
  read_by_users (at_node 1 tr) = [(2%N, ex_m 7); (2%N, ex_m 8)] /\ accepted_for (at_node 2 tr) = [(1%N, ex_m 7); (1%N, ex_m 8)] /\
  in_sequence 2 1 tr /\ read_by_users (at_node 2 tr) = [(1%N, ex_m 9)] /\ opened 0 2%N (runtime_trace (at_node 1 tr)) /\
  (forall d d', opened d 1%N (runtime_trace (at_node 2 tr)) -> opened d' 1%N (runtime_trace (at_node 2 tr)) -> d = d') /\
  Forall typed [ex_m 7; ex_m 8; ex_m 9].
Proof.
  destruct (net_run b0 c0 net_init [] ex_net) as [[w tr]|] eqn:R; [|vm_compute in R; discriminate].
  assert (H := ex_net_history _ _ _ R). exists w, tr. split; [reflexivity|]. split; [exact H|]. clear H.
  assert (T : option_map snd (net_run b0 c0 net_init [] ex_net) = Some tr) by (rewrite R; reflexivity). clear R.
  vm_compute in T. injection T as <-.
  split; [reflexivity|]. split; [reflexivity|]. split; [unfold in_sequence; cbn; apply sub_take, sub_take, sub_nil|]. split; [reflexivity|].
  split; [exists (EAccept 0 2%N); cbn; tauto|]. split.
  - intros d d' [e I] [e' I']. cbn in I, I'.
    repeat (destruct I as [I|I]; [try discriminate I; injection I as <- <-|]); try contradiction;
    repeat (destruct I' as [I'|I']; [try discriminate I'; injection I' as <- <-|]); try contradiction; try reflexivity.
  - repeat constructor.
Qed.

(** C69.  Over UDP nothing is lost without a report, as long as the stub or proxy, its connection and
    the endpoint go on: what it was given over its connection, what waits for it, and what the
    connection has not read yet is together everything for its service in the datagrams that came from
    the peer since the connection was opened.  The two ways to lose datagrams are reported: by
    [ELagged], when more came than the buffer holds, and by a second connection to the same peer, which
    takes over.  A connection the socket accepted begins with the datagram that opened it. *)
Theorem C69_stub_connected : forall bk cbk tr1 s1 x tr2 s e c a n id,
  nhistory bk cbk tr1 s1 -> UdpSpec.quiet (n_udp s1) a -> served n id (runtime_trace tr1) ->
  nhistory bk cbk (tr1 ++ x :: tr2) s -> e_rt x = Some (e, OSpawned c a) -> (forall l, e <> EAccept l a) ->
  (forall e' d, In (e', OSpawned d a) (runtime_trace tr2) -> exists l, e' = EAccept l a) ->
  (forall o, ~ In (ELagged c, o) (runtime_trace tr2)) ->
  stub_exists (n_rt s) n -> stub_listening (n_rt s) n -> conn_runs (n_rt s) c ->
  exists rest, unread bk cbk 8 s c a rest /\
    map it_msg (from_conn c (stub_got n (runtime_trace (tr1 ++ x :: tr2)) ++ stub_backlog (n_rt s) n)) ++
    map it_msg (for_id id (waiting (n_rt s) c)) ++ filter (of_id id) (flat_map packet_messages rest) =
    filter (of_id id) (flat_map packet_messages (from_peer a (datagrams tr2))).
Proof. exact @stub_connected_complete. Qed.
Print Assumptions C69_stub_connected.
Theorem C69_stub_accepted : forall bk cbk tr1 x tr2 s l c a n id,
  served n id (runtime_trace tr1) ->
  nhistory bk cbk (tr1 ++ x :: tr2) s -> e_rt x = Some (EAccept l a, OSpawned c a) ->
  (forall o, ~ In (ELagged c, o) (runtime_trace (tr1 ++ x :: tr2))) ->
  stub_exists (n_rt s) n -> stub_listening (n_rt s) n -> conn_runs (n_rt s) c ->
  exists tr0 y d tr3, tr1 ++ x :: tr2 = tr0 ++ y :: tr3 /\ e_udp y = Some (UdpModel.EPacket a d, UdpModel.OUnit) /\
  ((forall e' d, In (e', OSpawned d a) (runtime_trace tr3) -> exists l, e' = EAccept l a) ->
   exists rest, unread bk cbk 32 s c a rest /\
    map it_msg (from_conn c (stub_got n (runtime_trace (tr1 ++ x :: tr2)) ++ stub_backlog (n_rt s) n)) ++
    map it_msg (for_id id (waiting (n_rt s) c)) ++ filter (of_id id) (flat_map packet_messages rest) =
    filter (of_id id) (flat_map packet_messages (from_peer a (datagrams (y :: tr3))))).
Proof. exact @stub_accepted_complete. Qed.
Print Assumptions C69_stub_accepted.
Theorem C69_proxy : forall bk cbk tr1 s1 x tr2 tr3 s e c a n id,
  nhistory bk cbk tr1 s1 -> UdpSpec.quiet (n_udp s1) a ->
  nhistory bk cbk (tr1 ++ x :: tr2 ++ tr3) s -> e_rt x = Some (e, OSpawned c a) -> (forall l, e <> EAccept l a) ->
  proxied n id a (runtime_trace (tr1 ++ x :: tr2)) -> (forall bs o, ~ In (EPacket c bs, o) (runtime_trace tr2)) ->
  (forall e' d, In (e', OSpawned d a) (runtime_trace (tr2 ++ tr3)) -> exists l, e' = EAccept l a) ->
  (forall o, ~ In (ELagged c, o) (runtime_trace (tr2 ++ tr3))) ->
  proxy_exists (n_rt s) n -> proxy_connected (n_rt s) n -> conn_runs (n_rt s) c ->
  exists rest, unread bk cbk 8 s c a rest /\
    map it_msg (from_conn c (proxy_got n (runtime_trace (tr1 ++ x :: tr2 ++ tr3)) ++ proxy_backlog (n_rt s) n)) ++
    map it_msg (for_id id (waiting (n_rt s) c)) ++ filter (of_id id) (flat_map packet_messages rest) =
    filter (of_id id) (flat_map packet_messages (from_peer a (datagrams (tr2 ++ tr3)))).
Proof. exact @proxy_complete. Qed.
Print Assumptions C69_proxy.
(** On the way out: of what was accepted for a peer over one connection, at most two messages have not
    been handed to the system, the last ones.  So if the network brings everything in order, what was
    accepted at [a] for [b] has arrived at [b], but for the last two at most. *)
Theorem C69_sent : forall bk cbk tr s b,
  nhistory bk cbk tr s ->
  (forall d d', opened d b (runtime_trace tr) -> opened d' b (runtime_trace tr) -> d = d') ->
  exists unsent, map encode (from_peer b (accepted_for tr)) = from_peer b (sent_out tr) ++ unsent /\ length unsent <= 2.
Proof. exact @sent_complete. Qed.
Print Assumptions C69_sent.
Theorem C69_between : forall bk cbk tr w a b,
  net_history bk cbk tr w ->
  Forall (fun p => typed (snd p) /\ (8 + len (s_payload (snd p)) < 2 ^ 32)%N) (accepted_for (at_node a tr)) ->
  (forall d d', opened d b (runtime_trace (at_node a tr)) -> opened d' b (runtime_trace (at_node a tr)) -> d = d') ->
  from_peer a (datagrams (at_node b tr)) = carried a b tr ->
  exists unsent, map read_back (from_peer b (accepted_for (at_node a tr))) =
                 flat_map packet_messages (from_peer a (datagrams (at_node b tr))) ++ unsent /\ length unsent <= 2.
Proof. exact @nothing_lost_between. Qed.
Print Assumptions C69_between.
(** A stub that sends first: its connection is number 0; two datagrams come back, one has been read. *)
Definition ex_stub_connects : list nevent :=
  ex_serve (1%N, 1%N) ++ [NRun (EListener 0)] ++
  map NRun [ESendTo 0 5%N (ex_m 9); EStub 0 true; EStub 0 true; EStub 0 true; EStub 0 true; EStub 0 true] ++
  ex_known 5%N (s_form (ex_m 7)) ++ ex_known 5%N (s_form (ex_m 8)) ++ ex_read 0 ++ [NRun (ERecvFrom 0)].
Ltac not_in I := cbn in I; intuition discriminate.
Ltac no_connects I := cbn in I; repeat (destruct I as [I|I]; [first [discriminate I | injection I as <- <-; eexists; reflexivity]|]); destruct I.
Example C69_stub_example : exists tr1 s1 x tr2 s e, nhistory b0 c0 tr1 s1 /\ UdpSpec.quiet (n_udp s1) 5%N /\
  served 0 (1%N, 1%N) (runtime_trace tr1) /\ nhistory b0 c0 (tr1 ++ x :: tr2) s /\ e_rt x = Some (e, OSpawned 0 5%N) /\
  (forall l, e <> EAccept l 5%N) /\ (forall e' d, In (e', OSpawned d 5%N) (runtime_trace tr2) -> exists l, e' = EAccept l 5%N) /\
  (forall o, ~ In (ELagged 0, o) (runtime_trace tr2)) /\ stub_exists (n_rt s) 0 /\ stub_listening (n_rt s) 0 /\ conn_runs (n_rt s) 0 /\
  flat_map packet_messages (from_peer 5%N (datagrams tr2)) = [ex_m 7; ex_m 8] /\
  map it_msg (from_conn 0 (stub_got 0 (runtime_trace (tr1 ++ x :: tr2)))) = [ex_m 7].
Proof.
  destruct (node_run b0 c0 node_init (firstn 8 ex_stub_connects)) as [[s1 tr1]|] eqn:R1; [|vm_compute in R1; discriminate].
  destruct (node_run b0 c0 node_init ex_stub_connects) as [[s tr]|] eqn:R; [|vm_compute in R; discriminate].
  assert (H1 := ex_history _ _ _ R1). assert (H := ex_history _ _ _ R). vm_compute in R1, R.
  injection R1 as E1 E2. injection R as E3 E4. rewrite <- E2, <- E1 in H1. rewrite <- E4, <- E3 in H. clear E1 E2 E3 E4 s1 tr1 s tr.
  match type of H with nhistory _ _ (?a1 :: ?a2 :: ?a3 :: ?a4 :: ?a5 :: ?a6 :: ?a7 :: ?a8 :: ?x :: ?t) _ =>
    exists [a1; a2; a3; a4; a5; a6; a7; a8]; eexists; exists x, t; eexists; eexists end.
  split; [exact H1|]. split; [exact I|]. split; [exists (EEp true); cbn; tauto|]. split; [exact H|]. split; [reflexivity|].
  split; [discriminate|]. split; [intros e' d I; no_connects I|]. split; [intros o I; not_in I|].
  split; [eexists; split; reflexivity|]. split; [repeat eexists|]. split; [eexists; split; reflexivity|]. split; reflexivity.
Qed.
(** The connection the socket accepted in [ex_node]: two datagrams, both read. *)
Example C69_accepted_example : exists tr1 x tr2 s l, served 0 (1%N, 1%N) (runtime_trace tr1) /\ nhistory b0 c0 (tr1 ++ x :: tr2) s /\
  e_rt x = Some (EAccept l 5%N, OSpawned 0 5%N) /\ (forall o, ~ In (ELagged 0, o) (runtime_trace (tr1 ++ x :: tr2))) /\
  stub_exists (n_rt s) 0 /\ stub_listening (n_rt s) 0 /\ conn_runs (n_rt s) 0 /\
  (forall e' d, In (e', OSpawned d 5%N) (runtime_trace (tr1 ++ x :: tr2)) -> exists l, e' = EAccept l 5%N) /\
  map it_msg (from_conn 0 (stub_got 0 (runtime_trace (tr1 ++ x :: tr2)))) = [ex_m 7; ex_m 8].
Proof.
  destruct (node_run b0 c0 node_init ex_node) as [[s tr]|] eqn:R; [|vm_compute in R; discriminate].
  assert (H := ex_history _ _ _ R). vm_compute in R. injection R as E3 E4. rewrite <- E4, <- E3 in H. clear E3 E4 s tr.
  match type of H with nhistory _ _ (?a1 :: ?a2 :: ?a3 :: ?a4 :: ?a5 :: ?a6 :: ?a7 :: ?a8 :: ?a9 :: ?a10 :: ?a11 :: ?x :: ?t) _ =>
    exists [a1; a2; a3; a4; a5; a6; a7; a8; a9; a10; a11]; exists x, t; eexists; eexists end.
  split; [exists (EEp true); cbn; tauto|]. split; [exact H|]. split; [reflexivity|]. split; [intros o I; not_in I|].
  split; [eexists; split; reflexivity|]. split; [repeat eexists|]. split; [eexists; split; reflexivity|].
  split; [intros e' d I; no_connects I|]. reflexivity.
Qed.
(** A proxy; of the two datagrams that came one has been read. *)
Definition ex_proxy_gets : list nevent :=
  ex_proxy (1%N, 1%N) 5%N 0 ++ ex_known 5%N (s_form (ex_m 7)) ++ ex_known 5%N (s_form (ex_m 8)) ++ ex_read 0 ++ [NRun (EProxyRecv 0)].
Example C69_proxy_example : exists tr1 s1 x tr2 tr3 s e, nhistory b0 c0 tr1 s1 /\ UdpSpec.quiet (n_udp s1) 5%N /\
  nhistory b0 c0 (tr1 ++ x :: tr2 ++ tr3) s /\ e_rt x = Some (e, OSpawned 0 5%N) /\ (forall l, e <> EAccept l 5%N) /\
  proxied 0 (1%N, 1%N) 5%N (runtime_trace (tr1 ++ x :: tr2)) /\ (forall bs o, ~ In (EPacket 0 bs, o) (runtime_trace tr2)) /\
  (forall e' d, In (e', OSpawned d 5%N) (runtime_trace (tr2 ++ tr3)) -> exists l, e' = EAccept l 5%N) /\
  (forall o, ~ In (ELagged 0, o) (runtime_trace (tr2 ++ tr3))) /\
  proxy_exists (n_rt s) 0 /\ proxy_connected (n_rt s) 0 /\ conn_runs (n_rt s) 0 /\
  flat_map packet_messages (from_peer 5%N (datagrams (tr2 ++ tr3))) = [ex_m 7; ex_m 8] /\
  map it_msg (from_conn 0 (proxy_got 0 (runtime_trace (tr1 ++ x :: tr2 ++ tr3)))) = [ex_m 7].
Proof.
  destruct (node_run b0 c0 node_init (firstn 2 ex_proxy_gets)) as [[s1 tr1]|] eqn:R1; [|vm_compute in R1; discriminate].
  destruct (node_run b0 c0 node_init ex_proxy_gets) as [[s tr]|] eqn:R; [|vm_compute in R; discriminate].
  assert (H1 := ex_history _ _ _ R1). assert (H := ex_history _ _ _ R). vm_compute in R1, R.
  injection R1 as E1 E2. injection R as E3 E4. rewrite <- E2, <- E1 in H1. rewrite <- E4, <- E3 in H. clear E1 E2 E3 E4 s1 tr1 s tr.
  match type of H with nhistory _ _ (?a1 :: ?a2 :: ?x :: ?a3 :: ?a4 :: ?a5 :: ?t) _ =>
    exists [a1; a2]; eexists; exists x, [a3; a4; a5], t; eexists; eexists end.
  split; [exact H1|]. split; [exact I|]. split; [exact H|]. split; [reflexivity|]. split; [discriminate|].
  split; [exists (EEp true); cbn; tauto|]. split; [intros bs o I; not_in I|]. split; [intros e' d I; no_connects I|]. split; [intros o I; not_in I|].
  split; [eexists; split; reflexivity|]. split; [eexists; split; [reflexivity|eexists; split; reflexivity]|]. split; [eexists; split; reflexivity|].
  split; reflexivity.
Qed.
(** In [ex_net] the network brought everything from 2 to 1, and everything that was accepted arrived. *)
Example C69_between_example : exists w tr, net_history b0 c0 tr w /\
  Forall (fun p => typed (snd p) /\ (8 + len (s_payload (snd p)) < 2 ^ 32)%N) (accepted_for (at_node 2 tr)) /\
  from_peer 2%N (datagrams (at_node 1 tr)) = carried 2 1 tr /\ length (carried 2 1 tr) = 2 /\
  flat_map packet_messages (from_peer 2%N (datagrams (at_node 1 tr))) = [ex_m 7; ex_m 8].
Proof.
  destruct (net_run b0 c0 net_init [] ex_net) as [[w tr]|] eqn:R; [|vm_compute in R; discriminate].
  assert (H := ex_net_history _ _ _ R). exists w, tr. split; [exact H|]. clear H.
  assert (T : option_map snd (net_run b0 c0 net_init [] ex_net) = Some tr) by (rewrite R; reflexivity). clear R.
  vm_compute in T. injection T as <-. split; [repeat constructor|]. repeat split; reflexivity.
Qed.

(** C70.  A second connection to the same peer takes over: the first one gets nothing that arrives
    later, and as soon as the receiver task is idle its next read does not wait (it reads what was left,
    and then ends).  Connections made for proxies are not shared: a proxy sends over one connection only,
    and in an endpoint that does not serve no two proxies use the same one.  So a second proxy for the
    same peer cuts off the first.  The same holds of a connection that was accepted, unless the socket
    is just handling a datagram of that peer. *)
Theorem C70_second_connection : forall bk cbk tr1 x1 tr2 x2 tr3 s e1 e2 c1 c2 a,
  nhistory bk cbk (tr1 ++ x1 :: tr2 ++ x2 :: tr3) s -> e_rt x1 = Some (e1, OSpawned c1 a) -> e_rt x2 = Some (e2, OSpawned c2 a) ->
  (forall l, e1 <> EAccept l a) -> (forall l, e2 <> EAccept l a) ->
  (forall n, subseq (map it_msg (from_conn c1 (stub_got n (runtime_trace (tr1 ++ x1 :: tr2 ++ x2 :: tr3)))))
                    (flat_map packet_messages (from_peer a (datagrams (tr1 ++ x1 :: tr2))))) /\
  (forall n, subseq (map it_msg (from_conn c1 (proxy_got n (runtime_trace (tr1 ++ x1 :: tr2 ++ x2 :: tr3)))))
                    (flat_map packet_messages (from_peer a (datagrams (tr1 ++ x1 :: tr2))))) /\
  (UdpModel.u_task (n_udp s) = UdpModel.Idle -> conn_runs (n_rt s) c1 -> waiting (n_rt s) c1 = [] ->
   exists s' y, node_step bk cbk s (NRecv c1) = Some (s', y)).
Proof. exact @second_connection. Qed.
Print Assumptions C70_second_connection.
(** From the first time the receiver task is idle on, at most nine reads (33 of an accepted connection)
    give anything, and none waits: the next one ends the connection. *)
Theorem C70_cut_off_for_good : forall bk cbk tr1 s1 x tr2 s e c1 c2 a,
  nhistory bk cbk tr1 s1 -> opened c1 a (runtime_trace tr1) ->
  (forall l, ~ In (EAccept l a, OSpawned c1 a) (runtime_trace tr1)) \/ UdpSpec.quiet (n_udp s1) a ->
  nhistory bk cbk (tr1 ++ x :: tr2) s -> e_rt x = Some (e, OSpawned c2 a) -> (forall l, e <> EAccept l a) ->
  (forall n, subseq (map it_msg (from_conn c1 (stub_got n (runtime_trace (tr1 ++ x :: tr2)))))
                    (flat_map packet_messages (from_peer a (datagrams tr1)))) /\
  (forall n, subseq (map it_msg (from_conn c1 (proxy_got n (runtime_trace (tr1 ++ x :: tr2)))))
                    (flat_map packet_messages (from_peer a (datagrams tr1)))) /\
  (UdpModel.u_task (n_udp s) = UdpModel.Idle -> forall tr3 s', nhistory bk cbk ((tr1 ++ x :: tr2) ++ tr3) s' ->
   length (filter (gave c1) (runtime_trace tr3)) <= 33 /\
   ((forall l, ~ In (EAccept l a, OSpawned c1 a) (runtime_trace tr1)) -> length (filter (gave c1) (runtime_trace tr3)) <= 9) /\
   (conn_runs (n_rt s') c1 -> waiting (n_rt s') c1 = [] -> exists s'' y, node_step bk cbk s' (NRecv c1) = Some (s'', y))).
Proof. exact @cut_off_for_good. Qed.
Print Assumptions C70_cut_off_for_good.
Theorem C70_one_connection_each : forall bk cbk tr s n m d m' k d' k',
  nhistory bk cbk tr s ->
  In (EProxySend n m, OOk d m') (runtime_trace tr) -> In (EProxySend n k, OOk d' k') (runtime_trace tr) -> d = d'.
Proof. exact @one_connection_each. Qed.
Print Assumptions C70_one_connection_each.
Theorem C70_proxies_apart : forall bk cbk tr s n m d m' k n' k',
  nhistory bk cbk tr s -> never_served (runtime_trace tr) ->
  In (EProxySend n m, OOk d m') (runtime_trace tr) -> In (EProxySend n' k, OOk d k') (runtime_trace tr) -> n = n'.
Proof. exact @proxies_apart. Qed.
Print Assumptions C70_proxies_apart.
Theorem C70_second_proxy : forall bk cbk tr1 y tr2 s e n m id id' a,
  nhistory bk cbk (tr1 ++ y :: tr2) s ->
  never_served (runtime_trace (tr1 ++ y :: tr2)) ->
  proxied n id a (runtime_trace tr1) -> e_rt y = Some (e, OProxy m id' a) ->
  exists c, opened c a (runtime_trace tr1) /\
    (forall k d k', In (EProxySend n k, OOk d k') (runtime_trace (tr1 ++ y :: tr2)) -> d = c) /\
    (forall k, subseq (map it_msg (from_conn c (proxy_got k (runtime_trace (tr1 ++ y :: tr2)))))
                      (flat_map packet_messages (from_peer a (datagrams tr1)))) /\
    (UdpModel.u_task (n_udp s) = UdpModel.Idle -> conn_runs (n_rt s) c -> waiting (n_rt s) c = [] ->
     exists s' x, node_step bk cbk s (NRecv c) = Some (s', x)).
Proof. exact @second_proxy. Qed.
Print Assumptions C70_second_proxy.
(** The first proxy then reads [Closed] and fails to send, although nothing went wrong; the same
    happens if a stub of the endpoint sends to the peer of a proxy, even if that [send_to] is dropped
    before it has sent anything (C79). *)
Theorem C70_cut_off : forall bk cbk,
  exists tr s, nhistory bk cbk tr s /\ Forall harmless tr /\ never_served (runtime_trace tr) /\
  proxied 0 (1%N, 1%N) 5%N (runtime_trace tr) /\ proxy_exists (n_rt s) 0 /\
  from_peer 5%N (datagrams tr) = [s_form (note 1 7); s_form (note 1 8)] /\ map it_msg (proxy_got 0 (runtime_trace tr)) = [note 1 7] /\
  In (EProxyRecv 0, OClosed) (runtime_trace tr) /\ In (EProxySend 0 (note 1 9), OError) (runtime_trace tr).
Proof. exact @cut_off. Qed.
Print Assumptions C70_cut_off.
Theorem C70_cut_off_by_stub : forall bk cbk,
  exists tr s, nhistory bk cbk tr s /\ Forall harmless tr /\
  proxied 0 (1%N, 1%N) 5%N (runtime_trace tr) /\ (forall n id a, proxied n id a (runtime_trace tr) -> n = 0) /\ proxy_exists (n_rt s) 0 /\
  from_peer 5%N (datagrams tr) = [s_form (note 2 7); s_form (note 1 8)] /\ stub_got 0 (runtime_trace tr) <> [] /\ proxy_got 0 (runtime_trace tr) = [] /\
  In (EProxyRecv 0, OClosed) (runtime_trace tr) /\ In (EProxySend 0 (note 1 9), OError) (runtime_trace tr).
Proof. exact @cut_off_by_stub. Qed.
Print Assumptions C70_cut_off_by_stub.
Theorem C79_cut_off_by_dropped : forall bk cbk,
  exists tr s, nhistory bk cbk tr s /\ Forall harmless tr /\
  proxied 0 (1%N, 1%N) 5%N (runtime_trace tr) /\ (forall n id a, proxied n id a (runtime_trace tr) -> n = 0) /\ proxy_exists (n_rt s) 0 /\
  (forall e c m, ~ In (e, OOk c m) (runtime_trace tr)) /\
  from_peer 5%N (datagrams tr) = [s_form (note 1 7); s_form (note 1 8)] /\ map it_msg (proxy_got 0 (runtime_trace tr)) = [note 1 7] /\
  In (EProxyRecv 0, OClosed) (runtime_trace tr) /\ In (EProxySend 0 (note 1 9), OError) (runtime_trace tr).
Proof. exact @cut_off_by_dropped. Qed.
Print Assumptions C79_cut_off_by_dropped.
Example C70_example : exists tr1 y tr2 s, nhistory b0 c0 (tr1 ++ y :: tr2) s /\
  never_served (runtime_trace (tr1 ++ y :: tr2)) /\
  proxied 0 (1%N, 1%N) 5%N (runtime_trace tr1) /\ e_rt y = Some (EEp true, OProxy 1 (2%N, 1%N) 5%N) /\
  from_peer 5%N (datagrams tr1) = [s_form (note 1 7)] /\ from_peer 5%N (datagrams tr2) = [s_form (note 1 8)] /\
  UdpModel.u_task (n_udp s) = UdpModel.Idle /\ conn_runs (n_rt s) 0 /\ waiting (n_rt s) 0 = [].
Proof.
  destruct (node_run b0 c0 node_init (firstn 19 cut_by_proxy ++ ex_known 5%N (s_form (note 1 8)))) as [[s tr]|] eqn:R; [|vm_compute in R; discriminate].
  assert (H := ex_history _ _ _ R). vm_compute in R. injection R as E3 E4. rewrite <- E4, <- E3 in H. clear E3 E4 s tr.
  match type of H with nhistory _ _ (?a1 :: ?a2 :: ?a3 :: ?a4 :: ?a5 :: ?a6 :: ?a7 :: ?a8 :: ?a9 :: ?a10 :: ?a11 :: ?a12 :: ?a13 :: ?a14 :: ?a15 :: ?a16 :: ?a17 :: ?x :: ?t) _ =>
    exists [a1; a2; a3; a4; a5; a6; a7; a8; a9; a10; a11; a12; a13; a14; a15; a16; a17], x, t; eexists end.
  split; [exact H|]. split; [intros i o; split; intros I; not_in I|]. split; [exists (EEp true); cbn; tauto|]. split; [reflexivity|]. split; [reflexivity|]. split; [reflexivity|].
  split; [reflexivity|]. split; [eexists; split; reflexivity|reflexivity].
Qed.
(** Connection 0 is accepted from address 5, and before it is shared a proxy connects to that address. *)
Definition ex_over : list nevent :=
  ex_serve (1%N, 1%N) ++ ex_new 5%N (s_form (note 1 7)) ++ [NAccept 0] ++ map NRun [EProxy (2%N, 1%N) 5%N; EEp true; EEp true].
Example C70_accepted_example : exists tr1 s1 x s, nhistory b0 c0 tr1 s1 /\ opened 0 5%N (runtime_trace tr1) /\
  In (EAccept 0 5%N, OSpawned 0 5%N) (runtime_trace tr1) /\ UdpSpec.quiet (n_udp s1) 5%N /\
  nhistory b0 c0 (tr1 ++ [x]) s /\ e_rt x = Some (EEp true, OSpawned 1 5%N) /\ UdpModel.u_task (n_udp s) = UdpModel.Idle /\
  exists s' tr3, node_run b0 c0 s [NRecv 0; NRun (ERoute 0); NRun (ERoute 0); NRecv 0] = Some (s', tr3) /\
    filter (gave 0) (runtime_trace tr3) = [(EPacket 0 (s_form (note 1 7)), OUnit)] /\ ~ conn_runs (n_rt s') 0.
Proof.
  destruct (node_run b0 c0 node_init (removelast ex_over)) as [[s1 tr1]|] eqn:R1; [|vm_compute in R1; discriminate].
  assert (H1 := ex_history _ _ _ R1). vm_compute in R1. injection R1 as E1 E2. rewrite <- E1, <- E2 in H1. clear E1 E2 s1 tr1.
  destruct (node_run b0 c0 node_init ex_over) as [[s tr]|] eqn:R; [|vm_compute in R; discriminate].
  assert (H := ex_history _ _ _ R). vm_compute in R. injection R as E3 E4. rewrite <- E4, <- E3 in H. clear E3 E4 s tr.
  match type of H1 with nhistory _ _ ?t ?s => exists t, s end.
  match type of H with nhistory _ _ ?t ?s => match t with context [?y :: nil] => exists y, s end end.
  split; [exact H1|]. split; [exists (EAccept 0 5%N); cbn; tauto|]. split; [cbn; tauto|]. split; [exact Logic.I|]. split; [exact H|]. split; [reflexivity|]. split; [reflexivity|].
  eexists. eexists. split; [vm_compute; reflexivity|]. split; [reflexivity|]. intros (y & Y & A). injection Y as <-. discriminate A.
Qed.
