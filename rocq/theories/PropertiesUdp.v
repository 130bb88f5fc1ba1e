(** Property theorems C41-C44, C54 and C55: the UDP socket of the runtime crate.  [history tr s]:
    [tr] is everything that happened since the socket was bound, in any order the program
    allows, and [s] is where that leads. *)
From Coq Require Import List NArith Bool PeanoNat Lia.
From Verif Require Import MapModel UdpModel UdpSpec UdpTheorems UdpAgainTheorems.
Import ListNotations.

(** C41.  Datagrams reach only the receiver connected to their source, in order, at most once.
    And a receiver connected while no datagram of its peer was being handled misses nothing,
    until somebody connects to the same peer again: what it is owed is exactly what arrived from
    its peer since, less at most one datagram the task has in its hands. *)
Theorem C41_only_from_peer : forall tr s c a,
  history tr s -> In (c, a) (opened tr) ->
  Forall (arrived a tr) (data_of (received c tr)) /\ in_order (data_of (received c tr)).
Proof. exact @only_from_peer. Qed.
Print Assumptions C41_only_from_peer.
Theorem C41_at_most_once : forall tr s,
  history tr s -> NoDup (map p_no (delivered tr)).
Proof. exact @at_most_once. Qed.
Print Assumptions C41_at_most_once.
Theorem C41_connections_distinct : forall tr s,
  history tr s -> NoDup (map fst (opened tr)).
Proof. exact @connections_distinct. Qed.
Print Assumptions C41_connections_distinct.
Theorem C41_nothing_lost : forall tr1 s1 a c tr2 s,
  history tr1 s1 -> quiet s1 a ->
  history (tr1 ++ (EConnect a, OConnected c) :: tr2) s ->
  (forall c', ~ In (EConnect a, OConnected c') tr2) -> (forall o, ~ In (EDropReceiver c, o) tr2) ->
  exists done pending rest,
    packets_from a (length (arrivals tr1)) tr2 = done ++ pending /\ length pending <= 1 /\ (quiet s a -> pending = []) /\
    reads done (received c tr2) rest /\
    exists s', step s (ERecv c) = Some (s', due 8 (negb (shared s)) rest).
Proof. exact @nothing_lost. Qed.
Print Assumptions C41_nothing_lost.
(** The same for a connection a listener accepted, from the datagram that made it on. *)
Theorem C41_nothing_lost_accepted : forall tr s l c a,
  history tr s -> In (EAccept l, OAccepted c a) tr -> (forall o, ~ In (EDropReceiver c, o) tr) ->
  exists tr0 d tr1, tr = tr0 ++ (EPacket a d, OUnit) :: tr1 /\
    ((forall c', ~ In (EConnect a, OConnected c') tr1) ->
     exists done pending rest,
       packets_from a (length (arrivals tr0)) ((EPacket a d, OUnit) :: tr1) = done ++ pending /\ length pending <= 1 /\
       (quiet s a -> pending = []) /\ reads done (received c tr) rest /\
       exists s', step s (ERecv c) = Some (s', due 32 (negb (shared s)) rest)).
Proof. exact @accepted_all. Qed.
Print Assumptions C41_nothing_lost_accepted.
Definition ex_events : list event :=
  [EListen 2; EConnect 7%N; EPacket 5%N [1%N]; ETask; ETask; ETask; ETask; EAccept 0; EPacket 7%N [2%N]; ETask; ETask;
   EPacket 5%N [3%N]; ETask; ETask; ERecv 1; ERecv 0; ERecv 1; ERecv 0].
Example C41_example : exists s tr, run udp_init ex_events = Some (s, tr) /\ history tr s /\
  received 0 tr = [OData (mkP 1 [2%N]); OPending] /\ received 1 tr = [OData (mkP 0 [1%N]); OData (mkP 2 [3%N])] /\
  opened tr = [(0, 7%N); (1, 5%N)].
Proof.
  eexists. eexists. split; [vm_compute; reflexivity|]. split; [|repeat split].
  apply (run_history ex_events [] udp_init); [constructor|vm_compute; reflexivity].
Qed.

(** Connection 1 was made by the first datagram and accepted; it is owed everything since. *)
Example C41_example_accepted : exists s tr, run udp_init ex_events = Some (s, tr) /\ history tr s /\
  In (EAccept 0, OAccepted 1 5%N) tr /\ (forall o, ~ In (EDropReceiver 1, o) tr) /\ (forall c', ~ In (EConnect 5%N, OConnected c') tr) /\
  quiet s 5%N.
Proof.
  eexists. eexists. split; [vm_compute; reflexivity|]. split.
  { apply (run_history ex_events [] udp_init); [constructor|vm_compute; reflexivity]. }
  split; [cbn; tauto|]. split; [|split; [|cbn; tauto]]; intros x I; cbn in I; repeat (destruct I as [I|I]; [discriminate I|]); exact I.
Qed.

(** C42.  A datagram from an unknown peer, handled without interruption: with room, one new
    connection is queued that holds this datagram and nothing else changes; without, it is
    dropped.  A datagram from a known peer goes to that peer's channel only.  Under every other
    schedule the first thing an accepted connection yields is still the datagram that made it;
    but it need not be there yet when the connection is accepted. *)
Theorem C42_new_peer : forall tr s a d l x,
  history tr s -> u_task s = Idle -> unknown_peer s a -> u_listener s = Some l ->
  nth_error (u_lsts s) l = Some x -> l_rx x = true -> length (l_queue x) < l_cap x ->
  let c := length (u_chans s) in
  exists n s' tr', run s (EPacket a d :: repeat ETask n) = Some (s', tr') /\ u_task s' = Idle /\
    u_open s' = u_open s /\ u_listener s' = u_listener s /\
    u_chans s' = u_chans s ++ [mkC a 32 [mkP (u_count s) (firstn 1400 d)] 0 true] /\
    u_lsts s' = set_nth l (mkL (l_cap x) (l_queue x ++ [(c, a)]) true) (u_lsts s) /\
    map_get N.eqb a (u_receivers s') = Some c /\
    (forall b, b <> a -> map_get N.eqb b (u_receivers s') = map_get N.eqb b (u_receivers s)).
Proof. exact @new_peer_queued. Qed.
Print Assumptions C42_new_peer.
Theorem C42_nobody_listens : forall tr s a d,
  history tr s -> u_task s = Idle -> unknown_peer s a ->
  (forall l x, u_listener s = Some l -> nth_error (u_lsts s) l = Some x -> l_rx x = false \/ l_cap x <= length (l_queue x)) ->
  exists n s' tr', run s (EPacket a d :: repeat ETask n) = Some (s', tr') /\ u_task s' = Idle /\
    u_open s' = u_open s /\ u_chans s' = u_chans s /\ u_lsts s' = u_lsts s /\
    (u_listener s' = u_listener s \/
     u_listener s' = None /\ exists l x, u_listener s = Some l /\ nth_error (u_lsts s) l = Some x /\ l_rx x = false) /\
    map_get N.eqb a (u_receivers s') = None /\
    (forall b, b <> a -> map_get N.eqb b (u_receivers s') = map_get N.eqb b (u_receivers s)).
Proof. exact @nobody_listens. Qed.
Print Assumptions C42_nobody_listens.
Theorem C42_known_peer : forall tr s a d c ch,
  history tr s -> u_task s = Idle -> map_get N.eqb a (u_receivers s) = Some c ->
  nth_error (u_chans s) c = Some ch -> c_rx ch = true ->
  exists n s' tr', run s (EPacket a d :: repeat ETask n) = Some (s', tr') /\ u_task s' = Idle /\
    u_open s' = u_open s /\ u_receivers s' = u_receivers s /\ u_listener s' = u_listener s /\ u_lsts s' = u_lsts s /\
    nth_error (u_chans s') c = Some (mkC (c_addr ch) (c_cap ch) (c_sent ch ++ [mkP (u_count s) (firstn 1400 d)]) (c_next ch) true) /\
    (forall k, k <> c -> nth_error (u_chans s') k = nth_error (u_chans s) k).
Proof. exact @known_peer. Qed.
Print Assumptions C42_known_peer.
Theorem C42_backlog : forall tr s l x,
  history tr s -> nth_error (u_lsts s) l = Some x -> length (l_queue x) <= l_cap x.
Proof. exact @backlog_bounded. Qed.
Print Assumptions C42_backlog.
Theorem C42_first_datagram : forall tr0 l c a tr1 s,
  history (tr0 ++ (EAccept l, OAccepted c a) :: tr1) s -> (forall o, ~ In (EDropReceiver c, o) tr1) ->
  exists p, arrived a tr0 p /\
    ((exists more rest, Forall (arrived a (tr0 ++ (EAccept l, OAccepted c a) :: tr1)) more /\ in_order (p :: more) /\
        reads (p :: more) (received c tr1) rest) \/
     (u_task s = Queued p a c /\ Forall (eq OPending) (received c tr1))).
Proof. exact @accepted_first. Qed.
Print Assumptions C42_first_datagram.
Theorem C42_not_yet_there_refuted : exists tr s s' s'' l c a p, history (tr ++ [(EAccept l, OAccepted c a)]) s /\
  arrived a tr p /\ received c tr = [] /\ step s (ERecv c) = Some (s', OPending) /\
  run s' [ETask; ERecv c] = Some (s'', [(ETask, OUnit); (ERecv c, OData p)]).
Proof. exact @not_yet_there. Qed.
Print Assumptions C42_not_yet_there_refuted.
Example C42_example :
  let s := mkU true [(7%N, 0)] (Some 0) Idle [mkC 7%N 8 [] 0 true] [mkL 2 [] true] 0 in
  run udp_init [EListen 2; EConnect 7%N] = Some (s, [(EListen 2, OListening 0); (EConnect 7%N, OConnected 0)]) /\
  unknown_peer s 5%N.
Proof. split; [reflexivity|]. intros c H. discriminate H. Qed.

(** C43.  Connecting again to the same peer: the first receiver gets nothing that arrives later,
    and when drained it is told so, for good.  The two races: a connection whose registration is
    overwritten, or removed, by a datagram that was already being handled. *)
Theorem C43_second_connect : forall tr1 c1 a tr2 c2 tr3 s,
  history (tr1 ++ (EConnect a, OConnected c1) :: tr2 ++ (EConnect a, OConnected c2) :: tr3) s ->
  (forall p, In (ERecv c1, OData p) (tr1 ++ (EConnect a, OConnected c1) :: tr2 ++ (EConnect a, OConnected c2) :: tr3) ->
     p_no p < length (arrivals (tr1 ++ tr2))) /\
  (forall s' o, u_task s = Idle -> step s (ERecv c1) = Some (s', o) -> o <> OPending).
Proof. exact @second_connect. Qed.
Print Assumptions C43_second_connect.
Theorem C43_told_within_ten : forall tr1 c1 a tr2 c2 tr3 s,
  history (tr1 ++ (EConnect a, OConnected c1) :: tr2 ++ (EConnect a, OConnected c2) :: tr3) s ->
  (forall o, ~ In (EDropReceiver c1, o) (tr1 ++ (EConnect a, OConnected c1) :: tr2 ++ (EConnect a, OConnected c2) :: tr3)) -> u_task s = Idle ->
  exists os s', length os <= 9 /\ run s (repeat (ERecv c1) (S (length os))) = Some (s', map (pair (ERecv c1)) (os ++ [OClosed])) /\ ~ In OPending os.
Proof. exact @told_within_ten. Qed.
Print Assumptions C43_told_within_ten.
Theorem C43_closed_is_final : forall tr1 c tr2 s,
  history (tr1 ++ (ERecv c, OClosed) :: tr2) s -> Forall (eq OClosed) (received c tr2).
Proof. exact @closed_is_final. Qed.
Print Assumptions C43_closed_is_final.
Theorem C43_race_overwritten : exists tr s s' c a, history tr s /\ u_open s = true /\ u_task s = Idle /\
  In (EConnect a, OConnected c) tr /\ (forall c', In (EConnect a, OConnected c') tr -> c' = c) /\
  (forall o, ~ In (EDropReceiver c, o) tr) /\ received c tr = [] /\ step s (ERecv c) = Some (s', OClosed).
Proof. exact @race_lost. Qed.
Print Assumptions C43_race_overwritten.
Theorem C43_race_removed : exists tr1 tr2 s s' c a, history (tr1 ++ (EConnect a, OConnected c) :: tr2) s /\ u_open s = true /\ u_task s = Idle /\
  u_listener s = None /\ (forall c', ~ In (EConnect a, OConnected c') tr2) /\ (forall o, ~ In (EDropReceiver c, o) tr2) /\
  tr2 = [(ETask, OUnit); (ETask, OUnit)] /\ step s (ERecv c) = Some (s', OClosed).
Proof. exact @race_removed. Qed.
Print Assumptions C43_race_removed.
Example C43_example : exists s,
  run udp_init [EConnect 5%N; EPacket 5%N [1%N]; ETask; ETask; EConnect 5%N; EPacket 5%N [2%N]; ETask; ETask; ERecv 0; ERecv 0; ERecv 1]
  = Some (s, [(EConnect 5%N, OConnected 0); (EPacket 5%N [1%N], OUnit); (ETask, OUnit); (ETask, OUnit); (EConnect 5%N, OConnected 1);
              (EPacket 5%N [2%N], OUnit); (ETask, OUnit); (ETask, OUnit); (ERecv 0, OData (mkP 0 [1%N])); (ERecv 0, OClosed);
              (ERecv 1, OData (mkP 1 [2%N]))]).
Proof. eexists. vm_compute. reflexivity. Qed.

(** C44.  What a receiver is owed, and which answer is due: the oldest datagram if the buffer
    was not overrun, and otherwise a report of exactly as many lost as do not fit. *)
Theorem C44_lossy_queue : forall tr s c a,
  history tr s -> In (c, a) (opened tr) ->
  exists cap sent rest,
    (In (EConnect a, OConnected c) tr -> cap = 8) /\ (forall l, In (EAccept l, OAccepted c a) tr -> cap = 32) /\
    Forall (arrived a tr) sent /\ in_order sent /\ reads sent (received c tr) rest /\
    forall s' o, step s (ERecv c) = Some (s', o) -> o = due cap false rest \/ (rest = [] /\ o = OClosed).
Proof. exact @lossy_queue. Qed.
Print Assumptions C44_lossy_queue.
Example C44_example : exists s tr,
  run udp_init (EConnect 5%N :: concat (repeat [EPacket 5%N [1%N]; ETask; ETask] 10) ++ [ERecv 0; ERecv 0]) = Some (s, tr) /\
  received 0 tr = [OLagged 2; OData (mkP 2 [1%N])] /\ opened tr = [(0, 5%N)].
Proof. eexists. eexists. vm_compute. repeat split. Qed.

(** C54.  Whatever happened, the receiver task is at most six of its own steps away from waiting
    for the next datagram (or it has ended): it waits for nobody. *)
Theorem C54_task_returns : forall tr s,
  history tr s -> exists n s' tr', n <= 6 /\ run s (repeat ETask n) = Some (s', tr') /\
  (u_task s' = Idle \/ u_task s' = Stopped).
Proof. exact @task_returns. Qed.
Print Assumptions C54_task_returns.
Example C54_example : exists s tr, run udp_init [EListen 1; EConnect 5%N; EDropReceiver 0; EPacket 5%N [1%N]; ETask; ETask; ETask] = Some (s, tr) /\
  history tr s /\ u_task s = NewConn (mkP 0 [1%N]) 5%N.
Proof.
  eexists. eexists. split; [vm_compute; reflexivity|]. split; [|reflexivity].
  apply (run_history [EListen 1; EConnect 5%N; EDropReceiver 0; EPacket 5%N [1%N]; ETask; ETask; ETask] [] udp_init); [constructor|vm_compute; reflexivity].
Qed.

(** C55.  Once [recv_from] has failed no datagram is ever handled again; a connection made after
    that waits for ever instead of being closed, as long as the socket exists. *)
Theorem C55_no_more_packets : forall tr1 o tr2 s,
  history (tr1 ++ (EError, o) :: tr2) s ->
  u_task s = Stopped /\ (forall a d o', ~ In (EPacket a d, o') tr2).
Proof. exact @stopped_forever. Qed.
Print Assumptions C55_no_more_packets.
Theorem C55_silent : forall tr1 o tr2 a c tr3 s,
  history (tr1 ++ (EError, o) :: tr2 ++ (EConnect a, OConnected c) :: tr3) s ->
  (forall c', ~ In (EConnect a, OConnected c') tr3) -> (forall o, ~ In (EDropReceiver c, o) tr3) -> u_open s = true ->
  exists s', step s (ERecv c) = Some (s', OPending).
Proof. exact @silent. Qed.
Print Assumptions C55_silent.
Example C55_example : exists s, run udp_init [EError; EConnect 5%N; ERecv 0; ERecv 0]
  = Some (s, [(EError, OUnit); (EConnect 5%N, OConnected 0); (ERecv 0, OPending); (ERecv 0, OPending)]).
Proof. eexists. vm_compute. reflexivity. Qed.
