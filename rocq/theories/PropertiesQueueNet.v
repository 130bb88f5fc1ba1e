(** Any number of endpoints over UDP, their calls and the datagrams between them: C95.
    [bk] and [cbk] say which entries of the shared maps share a lock: all theorems hold whatever
    they are. *)
From Coq Require Import List NArith Bool PeanoNat Lia.
From Verif Require Import BytesModel SomeipModel SomeipSpec MapModel RuntimeModel RuntimeSpec NodeModel NodeSpec ExchangeSpec UdpNetModel UdpNetSpec UdpContact QueueModel QueueSpec
  QueueUdpModel QueueUdpSpec QueueUdpTheorems QueueNetModel QueueNetSpec QueueNetTheorems PropertiesQueueUdp.
From Verif Require UdpModel FairSpec PropertiesExchange.
Import ListNotations.
Open Scope nat_scope.

(** ** C95: in a network of endpoints over UDP every call is answered, wherever it was made *)
(** What happens at each endpoint is what C92 is about, and without the calls the whole is a network of
    C89: so what was proved of these holds here. *)
Theorem C95_endpoints : forall bk cbk tr w a, qw_history bk cbk tr w -> qn_history bk cbk (seen_at a tr) (qw_node w a).
Proof. exact @at_endpoint. Qed.
Print Assumptions C95_endpoints.
Theorem C95_network : forall bk cbk tr w, qw_history bk cbk tr w ->
  exists v, unet_history bk cbk (without_calls tr) v /\ un_flight v = qw_flight w /\ forall a, un_node v a = qn_node (qw_node w a).
Proof. exact @is_unet. Qed.
Print Assumptions C95_network.
Theorem C95_same_events : forall tr a, at_node a (happened (without_calls tr)) = node_in (seen_at a tr).
Proof. exact same_events. Qed.
Print Assumptions C95_same_events.
(** Without new calls it does not go on for ever. *)
Theorem C95_stops : forall bk cbk (f : nat -> qnet) tr, qw_history bk cbk tr (f 0) ->
  ~ (forall n, exists ev x, qw_on x /\ qnet_step bk cbk (f n) ev = Some (f (S n), x)).
Proof. exact @qw_stops. Qed.
Print Assumptions C95_stops.
(** Where it stops all is at rest, or an endpoint is in the deadlock of C60, and at rest it does stop. *)
Theorem C95_stopped : forall bk cbk tr w, qw_history bk cbk tr w -> ~ qw_can bk cbk w -> qw_rest bk cbk w \/ qw_jammed bk tr w.
Proof. exact @qw_stopped. Qed.
Print Assumptions C95_stopped.
Theorem C95_still : forall bk cbk tr w, qw_history bk cbk tr w -> qw_rest bk cbk w -> ~ qw_can bk cbk w.
Proof. exact @qw_still. Qed.
Print Assumptions C95_still.
Theorem C95_comes_to_rest : forall bk cbk tr w, qw_history bk cbk tr w ->
  exists tr' w', qw_steps bk cbk w tr' w' /\ Forall qw_on tr' /\ qw_history bk cbk (tr ++ tr') w' /\ (qw_rest bk cbk w' \/ qw_jammed bk (tr ++ tr') w').
Proof. exact @qw_comes_to_rest. Qed.
Print Assumptions C95_comes_to_rest.
(** At rest every call was answered, at every endpoint. *)
Theorem C95_answered : forall bk cbk tr w, qw_history bk cbk tr w -> qw_rest bk cbk w -> everywhere_answered tr.
Proof. exact @qw_answered. Qed.
Print Assumptions C95_answered.
(** In every run without end that leaves nothing undone that stays possible, whatever is lost, and
    whatever is dropped and fails at finitely many endpoints. *)
Theorem C95_fair : forall bk cbk L f t, qw_fair bk cbk L f t -> qw_history bk cbk (t 0) (f 0) -> forall k, exists n, k <= n /\ qw_history bk cbk (t n) (f n) /\
  ((qw_rest bk cbk (f n) /\ forall m, n <= m -> everywhere_answered (t m)) \/ qw_jammed bk (t n) (f n)).
Proof. exact @qw_fair_rest. Qed.
Print Assumptions C95_fair.
Theorem C95_fair_exists : forall bk cbk L tr w l w', FairSpec.goes_to (qw_goes bk cbk L) w l w' -> qw_history bk cbk (tr ++ l) w' -> qw_rest bk cbk w' ->
  exists f t, qw_fair bk cbk L f t /\ f 0 = w /\ t 0 = tr /\ forall m, length l <= m -> f m = w' /\ t m = tr ++ l.
Proof. exact @qw_fair_exists. Qed.
Print Assumptions C95_fair_exists.
(** And if between [a] and [b] nothing was lost, doubled or overtaken, and both sockets still receive, a
    stub of [b] has been given all that [a] accepted for it, in order, ... *)
Theorem C95_requests : forall bk cbk tr w a b d c t1 x t2 l n id,
  qw_history bk cbk tr w -> qw_rest bk cbk w ->
  between a b (copied (without_calls tr)) = [] -> between a b (lost (without_calls tr)) = [] -> in_sequence a b (events_of tr) ->
  UdpModel.u_task (n_udp (nodes_of w b)) <> UdpModel.Stopped ->
  sendable a (events_of tr) -> one_connection a b d (events_of tr) (nodes_of w) -> one_connection b a c (events_of tr) (nodes_of w) ->
  node_in (seen_at b tr) = t1 ++ x :: t2 -> e_rt x = Some (EAccept l a, OSpawned c a) -> served n id (runtime_trace t1) ->
  welcome a (socket_trace (node_in (seen_at b tr))) -> (forall o, ~ In (ELagged c, o) (runtime_trace (node_in (seen_at b tr)))) ->
  stub_exists (n_rt (nodes_of w b)) n -> stub_listening (n_rt (nodes_of w b)) n ->
  from_addr a (stub_got n (runtime_trace (node_in (seen_at b tr)))) =
  filter (of_id id) (map read_back (from_peer b (accepted_for (node_in (seen_at a tr))))).
Proof. exact @qw_requests. Qed.
Print Assumptions C95_requests.
(** ... and a proxy of [a] the replies to all it has sent. *)
Theorem C95_exchange : forall bk cbk tr w a b d c t1 x t2 u1 u2 l n k id reply,
  qw_history bk cbk tr w -> qw_rest bk cbk w ->
  between a b (copied (without_calls tr)) = [] -> between b a (copied (without_calls tr)) = [] -> between a b (lost (without_calls tr)) = [] -> between b a (lost (without_calls tr)) = [] ->
  in_sequence a b (events_of tr) -> in_sequence b a (events_of tr) ->
  UdpModel.u_task (n_udp (nodes_of w a)) <> UdpModel.Stopped -> UdpModel.u_task (n_udp (nodes_of w b)) <> UdpModel.Stopped ->
  sendable a (events_of tr) -> sendable b (events_of tr) ->
  one_connection a b d (events_of tr) (nodes_of w) -> one_connection b a c (events_of tr) (nodes_of w) ->
  node_in (seen_at b tr) = t1 ++ x :: t2 -> e_rt x = Some (EAccept l a, OSpawned c a) -> served n id (runtime_trace t1) ->
  welcome a (socket_trace (node_in (seen_at b tr))) -> (forall o, ~ In (ELagged c, o) (runtime_trace (node_in (seen_at b tr)))) ->
  stub_exists (n_rt (nodes_of w b)) n -> stub_listening (n_rt (nodes_of w b)) n ->
  node_in (seen_at a tr) = u1 ++ u2 -> proxied k id b (runtime_trace u1) -> from_peer b (datagrams u1) = [] ->
  (forall o, ~ In (ELagged d, o) (runtime_trace (node_in (seen_at a tr)))) -> proxy_exists (n_rt (nodes_of w a)) k ->
  Forall (fun m => ordinary m /\ id_of m = id) (from_peer b (accepted_for (node_in (seen_at a tr)))) ->
  (forall m, id_of m = id -> id_of (reply m) = id /\ (ordinary m -> ordinary (reply m))) ->
  from_peer a (accepted_for (node_in (seen_at b tr))) = map reply (from_addr a (stub_got n (runtime_trace (node_in (seen_at b tr))))) ->
  from_addr b (proxy_got k (runtime_trace (node_in (seen_at a tr)))) = map reply (from_peer b (accepted_for (node_in (seen_at a tr)))).
Proof. exact @qw_exchange. Qed.
Print Assumptions C95_exchange.

(** Endpoint 2 has a proxy for an interface of endpoint 1, has sent a message with it and calls [proxy]
    for an interface of a third; endpoint 1 is only called to serve.  Left to themselves both calls return, the message
    goes its way and the stub gets it. *)
Definition ex_net_before : list qwevent :=
  map (fun x => WAt 2%N (ByCalls x)) [QCall (2%N, 1%N) (Some 1%N); QEnter (FCall 0); QTake; QGo true; QGo true; QGo true; QGo true; QReturn 0; QRun (ESender 0); QRun (EProxySend 0 ex_m);
    QCall (4%N, 1%N) (Some 7%N)] ++
  [WAt 1%N (ByCalls (QCall (2%N, 1%N) None)); WAt 1%N (ByCalls (QEnter (FCall 0)))].
Definition ex_net_after : list qwevent :=
  map (fun x => WAt 1%N (ByCalls x)) [QTake; QGo true; QGo true; QGo true; QGo true; QReturn 0; QRun (EListener 0)] ++
  map (fun x => WAt 2%N (ByCalls x)) [QRun (ESender 0); QEnter (FCall 1); QTake; QGo true] ++ [WAt 2%N (BySocket (NSend 0 true))] ++ [WBring 0] ++
  repeat (WAt 1%N (BySocket NTask)) 4 ++ [WAt 1%N (BySocket (NAccept 0)); WAt 1%N (ByCalls (QRun (EAcceptShare 0))); WAt 1%N (BySocket (NRecv 0));
    WAt 1%N (ByCalls (QRun (ERoute 0))); WAt 1%N (ByCalls (QRun (ERoute 0))); WAt 1%N (ByCalls (QRun (ERecvFrom 0)))] ++
  map (fun x => WAt 2%N (ByCalls x)) [QGo true; QGo true; QGo true; QReturn 1; QRun (ESender 1)].

Example C95_example : exists tr w tr' w', qw_history b0 c0 tr w /\ ~ all_answered (seen_at 1%N tr) /\ ~ all_answered (seen_at 2%N tr) /\ qw_flight w = [] /\
  qw_steps b0 c0 w tr' w' /\ Forall qw_on tr' /\ qw_history b0 c0 (tr ++ tr') w' /\ qw_rest b0 c0 w' /\
  In (MReturned (OStub 0 (2%N, 1%N))) (life 0 (calls_in (seen_at 1%N (tr ++ tr')))) /\
  In (MReturned (OProxy 1 (4%N, 1%N) 7%N)) (life 1 (calls_in (seen_at 2%N (tr ++ tr')))) /\
  from_addr 2%N (stub_got 0 (runtime_trace (node_in (seen_at 1%N (tr ++ tr'))))) = [ex_m].
Proof.
  destruct (qnet_run b0 c0 qnet_init ex_net_before) as [[w tr]|] eqn:R; [|vm_compute in R; discriminate R].
  pose proof (qnet_run_history _ _ _ [] _ _ _ (qw_start _ _) R) as H. cbn [app] in H.
  assert (W : option_map (fun p => qw_flight (fst p)) (qnet_run b0 c0 qnet_init ex_net_before) = Some (qw_flight w)) by (rewrite R; reflexivity).
  assert (T : option_map snd (qnet_run b0 c0 qnet_init ex_net_before) = Some tr) by (rewrite R; reflexivity).
  destruct (qnet_run b0 c0 w ex_net_after) as [[w' tr']|] eqn:R'.
  2:{ exfalso. assert (K : match qnet_run b0 c0 qnet_init ex_net_before with Some (w, _) => match qnet_run b0 c0 w ex_net_after with Some _ => true | None => false end | None => true end = true)
        by (vm_compute; reflexivity). rewrite R, R' in K. discriminate K. }
  assert (B : match qnet_run b0 c0 qnet_init ex_net_before with Some (w, _) =>
      option_map (fun p => (qw_node (fst p) 1%N, qw_node (fst p) 2%N, qw_flight (fst p), snd p)) (qnet_run b0 c0 w ex_net_after) | None => None end =
    Some (qw_node w' 1%N, qw_node w' 2%N, qw_flight w', tr')) by (rewrite R, R'; reflexivity).
  pose proof (qnet_run_history _ _ _ _ _ _ _ H R') as H'. pose proof (qnet_run_steps _ _ _ _ _ _ R') as S. clear R R'.
  exists tr, w, tr', w'. remember (qw_flight w) as fl eqn:FL. remember (qw_node w' 1%N) as s1 eqn:B1. remember (qw_node w' 2%N) as s2 eqn:B2. remember (qw_flight w') as fl' eqn:B3.
  vm_compute in W, T, B. injection W as <-. injection T as <-. injection B as <- <- <- <-.
  split; [exact H|]. split.
  { intros A. destruct (A 0 (2%N, 1%N) None) as (o & K & _); [cbn; tauto|cbn; intuition discriminate|]. cbn in K. intuition discriminate. }
  split.
  { intros A. destruct (A 1 (4%N, 1%N) (Some 7%N)) as (o & K & _); [cbn; tauto|cbn; intuition discriminate|]. cbn in K. intuition discriminate. }
  split; [reflexivity|]. split; [exact S|]. split; [repeat constructor; cbn; try discriminate|]. split; [exact H'|]. split; [|split; [cbn; tauto|split; [cbn; tauto|reflexivity]]].
  split; [rewrite <- B3; intros a b d []|]. intros a. destruct (N.eq_dec a 1%N) as [->|N1]; [rewrite <- B1; ex_rest|].
  destruct (N.eq_dec a 2%N) as [->|N2]; [rewrite <- B2; ex_rest|].
  rewrite (elsewhere _ _ [] _ _ _ H'); [apply init_rest|]. vm_compute. intros [E|[E|[]]]; congruence.
Qed.
(** The same in a run without end. *)
Example C95_fair_example : exists f t, qw_fair b0 c0 [] f t /\ qw_history b0 c0 (t 0) (f 0) /\ ~ everywhere_answered (t 0) /\
  exists n, qw_rest b0 c0 (f n) /\ everywhere_answered (t n).
Proof.
  destruct C95_example as (tr & w & tr' & w' & H & N & _ & _ & S & O & H' & R & _).
  pose proof (QueueNetTheorems.steps_go b0 c0 [] _ _ _ S (Forall_impl _ (on_quiet_net []) O)) as G. destruct (qw_fair_exists _ _ _ _ _ _ _ G H' R) as (f & t & F & F0 & T0 & E).
  exists f, t. split; [exact F|]. rewrite F0, T0. split; [exact H|]. split; [intros A; exact (N (A 1%N))|]. exists (length tr'). destruct (E _ (Nat.le_refl _)) as [-> ->].
  split; [exact R|]. eapply qw_answered; eassumption.
Qed.
(** Endpoint 1 serves; endpoint 2 asks twice and is answered twice, as in C80, with the calls. *)
Definition ex_conv (p : N * nevent) : qwevent :=
  match snd p with NDatagram _ _ => WBring 0 | NRun e => WAt (fst p) (ByCalls (QRun e)) | e => WAt (fst p) (BySocket e) end.
Definition ex_net_exchange : list qwevent :=
  map (fun x => WAt 1%N (ByCalls x)) [QCall (1%N, 1%N) None; QEnter (FCall 0); QTake; QGo true; QGo true; QGo true; QGo true; QReturn 0; QRun (EListener 0)] ++
  map (fun x => WAt 2%N (ByCalls x)) [QCall (1%N, 1%N) (Some 1%N); QEnter (FCall 0); QTake; QGo true; QGo true; QGo true; QGo true; QReturn 0; QRun (ESender 0)] ++
  map ex_conv (skipn 12 PropertiesExchange.ex_exchange).
Example C95_exchange_example : exists tr w t1 x t2 u1 u2, qw_history b0 c0 tr w /\ qw_rest b0 c0 w /\
  copied (without_calls tr) = [] /\ lost (without_calls tr) = [] /\ in_sequence 1%N 2%N (events_of tr) /\ in_sequence 2%N 1%N (events_of tr) /\
  UdpModel.u_task (n_udp (nodes_of w 1%N)) <> UdpModel.Stopped /\ UdpModel.u_task (n_udp (nodes_of w 2%N)) <> UdpModel.Stopped /\
  sendable 2%N (events_of tr) /\ sendable 1%N (events_of tr) /\
  one_connection 2%N 1%N 0 (events_of tr) (nodes_of w) /\ one_connection 1%N 2%N 0 (events_of tr) (nodes_of w) /\
  node_in (seen_at 1%N tr) = t1 ++ x :: t2 /\ e_rt x = Some (EAccept 0 2%N, OSpawned 0 2%N) /\ served 0 (1%N, 1%N) (runtime_trace t1) /\
  welcome 2%N (socket_trace (node_in (seen_at 1%N tr))) /\ (forall o, ~ In (ELagged 0, o) (runtime_trace (node_in (seen_at 1%N tr)))) /\
  stub_exists (n_rt (nodes_of w 1%N)) 0 /\ stub_listening (n_rt (nodes_of w 1%N)) 0 /\
  node_in (seen_at 2%N tr) = u1 ++ u2 /\ proxied 0 (1%N, 1%N) 1%N (runtime_trace u1) /\ from_peer 1%N (datagrams u1) = [] /\
  (forall o, ~ In (ELagged 0, o) (runtime_trace (node_in (seen_at 2%N tr)))) /\ proxy_exists (n_rt (nodes_of w 2%N)) 0 /\
  Forall (fun m => ordinary m /\ id_of m = (1%N, 1%N)) (from_peer 1%N (accepted_for (node_in (seen_at 2%N tr)))) /\
  (forall m, id_of m = (1%N, 1%N) -> id_of (PropertiesExchange.ex_reply m) = (1%N, 1%N) /\ (ordinary m -> ordinary (PropertiesExchange.ex_reply m))) /\
  from_peer 2%N (accepted_for (node_in (seen_at 1%N tr))) = map PropertiesExchange.ex_reply (from_addr 2%N (stub_got 0 (runtime_trace (node_in (seen_at 1%N tr))))) /\
  length (from_addr 1%N (proxy_got 0 (runtime_trace (node_in (seen_at 2%N tr))))) = 2.
Proof.
  destruct (qnet_run b0 c0 qnet_init ex_net_exchange) as [[w tr]|] eqn:R; [|vm_compute in R; discriminate].
  pose proof (qnet_run_history _ _ _ [] _ _ _ (qw_start _ _) R) as H. cbn [app] in H.
  assert (T : option_map snd (qnet_run b0 c0 qnet_init ex_net_exchange) = Some tr) by (rewrite R; reflexivity).
  assert (W : option_map (fun p => (qw_node (fst p) 1%N, qw_node (fst p) 2%N, qw_flight (fst p))) (qnet_run b0 c0 qnet_init ex_net_exchange) = Some (qw_node w 1%N, qw_node w 2%N, qw_flight w))
    by (rewrite R; reflexivity).
  clear R. exists tr, w, (firstn 11 (node_in (seen_at 1%N tr))), (nth 11 (node_in (seen_at 1%N tr)) (NodeModel.mkE None None None)), (skipn 12 (node_in (seen_at 1%N tr))),
    (firstn 6 (node_in (seen_at 2%N tr))), (skipn 6 (node_in (seen_at 2%N tr))).
  unfold one_connection, nodes_of. split; [exact H|].
  remember (qw_node w 1%N) as s1 eqn:B1. remember (qw_node w 2%N) as s2 eqn:B2. remember (qw_flight w) as fl eqn:B3.
  vm_compute in T, W. injection T as <-. injection W as <- <- <-.
  split.
  { split; [rewrite <- B3; intros a b d []|]. intros a. destruct (N.eq_dec a 1%N) as [->|N1]; [rewrite <- B1; ex_rest|].
    destruct (N.eq_dec a 2%N) as [->|N2]; [rewrite <- B2; ex_rest|]. rewrite (elsewhere _ _ [] _ _ _ H); [apply init_rest|]. vm_compute. intros [E|[E|[]]]; congruence. }
  clear H. split; [reflexivity|]. split; [reflexivity|].
  split; [unfold in_sequence; cbn; apply sub_take, sub_take, sub_nil|]. split; [unfold in_sequence; cbn; apply sub_take, sub_take, sub_nil|].
  split; [discriminate|]. split; [discriminate|].
  split; [repeat constructor|]. split; [repeat constructor|].
  split; [PropertiesExchange.one_conn|]. split; [PropertiesExchange.one_conn|]. split; [reflexivity|]. split; [reflexivity|].
  split; [eexists; cbn; tauto|]. split; [apply welcome_run; vm_compute; reflexivity|].
  split; [intros o I; cbn in I; repeat (destruct I as [I|I]; [discriminate I|]); exact I|].
  split; [eexists; split; reflexivity|]. split; [eexists; eexists; split; [reflexivity|split; reflexivity]|].
  split; [reflexivity|]. split; [eexists; cbn; tauto|]. split; [reflexivity|].
  split; [intros o I; cbn in I; repeat (destruct I as [I|I]; [discriminate I|]); exact I|].
  split; [eexists; split; reflexivity|]. split; [repeat constructor|].
  split; [intros m E; split; [exact E|intros (A & B & C & _ & D); repeat split; try apply A; try apply B; try apply C; try apply D]|].
  split; reflexivity.
Qed.
