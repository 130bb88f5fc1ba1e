(** Property theorems C80 and C82: two endpoints over UDP, when both are at rest, and that they come to rest.
    [bk] and [cbk] say which entries of the shared maps share a lock: all theorems hold whatever
    they are. *)
From Coq Require Import List NArith Bool PeanoNat Lia.
From Verif Require Import BytesModel WireSpec SomeipModel SomeipSpec RuntimeModel RuntimeSpec NodeModel NodeSpec ExchangeSpec
  NodeTheorems UdpContact ExchangeTheorems ExchangeRestTheorems PropertiesNode.
Import ListNotations.
Open Scope nat_scope.

(** C80.  Endpoint [a] has sent to endpoint [b], the network has brought everything, in order, and
    both are at rest.  A stub [b] had before the first contact, for [id], has been given from [a]
    exactly the messages for [id] that [a] has accepted for [b], in order: provided there was one
    connection, nothing was turned away and no lag was reported. *)
Theorem C80_requests : forall bk cbk tr w a b d c t1 x t2 l n id,
  net_history bk cbk tr w -> at_peace bk cbk (w a) -> at_peace bk cbk (w b) ->
  sendable a tr -> all_brought a b tr -> one_connection a b d tr w -> one_connection b a c tr w ->
  at_node b tr = t1 ++ x :: t2 -> e_rt x = Some (EAccept l a, OSpawned c a) -> served n id (runtime_trace t1) ->
  welcome a (socket_trace (at_node b tr)) -> (forall o, ~ In (ELagged c, o) (runtime_trace (at_node b tr))) ->
  stub_exists (n_rt (w b)) n -> stub_listening (n_rt (w b)) n ->
  from_addr a (stub_got n (runtime_trace (at_node b tr))) =
  filter (of_id id) (map read_back (from_peer b (accepted_for (at_node a tr)))).
Proof. exact @requests_arrive. Qed.
Print Assumptions C80_requests.
(** The other way: a proxy [a] had before anything came from [b] has been given exactly the messages
    for its service that [b] has accepted for [a], in order. *)
Theorem C80_answers : forall bk cbk tr w a b d c t1 t2 k id,
  net_history bk cbk tr w -> at_peace bk cbk (w a) -> at_peace bk cbk (w b) ->
  sendable b tr -> all_brought b a tr -> one_connection a b d tr w -> one_connection b a c tr w ->
  at_node a tr = t1 ++ t2 -> proxied k id b (runtime_trace t1) -> from_peer b (datagrams t1) = [] ->
  (forall o, ~ In (ELagged d, o) (runtime_trace (at_node a tr))) -> proxy_exists (n_rt (w a)) k ->
  from_addr b (proxy_got k (runtime_trace (at_node a tr))) =
  filter (of_id id) (map read_back (from_peer a (accepted_for (at_node b tr)))).
Proof. exact @answers_arrive. Qed.
Print Assumptions C80_answers.
(** So if the program at [b] answers every message the stub is given with its [reply], in order, and
    sends nothing else to [a], the proxy has been given the replies to what was sent: one for each, in
    order, and nothing else. *)
Theorem C80_exchange : forall bk cbk tr w a b d c t1 x t2 u1 u2 l n k id reply,
  net_history bk cbk tr w -> at_peace bk cbk (w a) -> at_peace bk cbk (w b) ->
  sendable a tr -> sendable b tr -> all_brought a b tr -> all_brought b a tr ->
  one_connection a b d tr w -> one_connection b a c tr w ->
  at_node b tr = t1 ++ x :: t2 -> e_rt x = Some (EAccept l a, OSpawned c a) -> served n id (runtime_trace t1) ->
  welcome a (socket_trace (at_node b tr)) -> (forall o, ~ In (ELagged c, o) (runtime_trace (at_node b tr))) ->
  stub_exists (n_rt (w b)) n -> stub_listening (n_rt (w b)) n ->
  at_node a tr = u1 ++ u2 -> proxied k id b (runtime_trace u1) -> from_peer b (datagrams u1) = [] ->
  (forall o, ~ In (ELagged d, o) (runtime_trace (at_node a tr))) -> proxy_exists (n_rt (w a)) k ->
  Forall (fun m => ordinary m /\ id_of m = id) (from_peer b (accepted_for (at_node a tr))) ->
  (forall m, id_of m = id -> id_of (reply m) = id /\ (ordinary m -> ordinary (reply m))) ->
  from_peer a (accepted_for (at_node b tr)) = map reply (from_addr a (stub_got n (runtime_trace (at_node b tr)))) ->
  from_addr b (proxy_got k (runtime_trace (at_node a tr))) = map reply (from_peer b (accepted_for (at_node a tr))).
Proof. exact @exchange. Qed.
Print Assumptions C80_exchange.

(** Endpoint 1 serves, endpoint 2 asks twice, and endpoint 1 answers both. *)
Definition ex_reply (m : msg) : msg :=
  mkS (s_service m) (s_method m) (s_client m) (s_session m) (s_protocol m) (s_interface m) StResponse (s_rcode m) (s_payload m).
Definition ex_answer (m : msg) : list nevent :=
  map NRun [ERecvFrom 0; ESendTo 0 2%N (ex_reply m); EStub 0 true; EStub 0 true; EStub 0 true; ESender 0] ++ [NSend 0 true].
Definition ex_exchange : list (N * nevent) :=
  at_ 1 (ex_serve (1%N, 1%N) ++ [NRun (EListener 0)]) ++ at_ 2 (ex_proxy (1%N, 1%N) 1%N 0 ++ ex_send 0 0 (ex_m 7) ++ ex_send 0 0 (ex_m 8)) ++
  at_ 1 (ex_new 2%N (s_form (ex_m 7)) ++ [NAccept 0; NRun (EAcceptShare 0)] ++ ex_read 0 ++ ex_known 2%N (s_form (ex_m 8)) ++ ex_read 0 ++
         ex_answer (ex_m 7) ++ ex_answer (ex_m 8)) ++
  at_ 2 (ex_known 1%N (s_form (ex_reply (ex_m 7))) ++ ex_known 1%N (s_form (ex_reply (ex_m 8))) ++ ex_read 0 ++ ex_read 0 ++
         [NRun (EProxyRecv 0); NRun (EProxyRecv 0)]).
Ltac peace := constructor;
  [ constructor;
    [ split; reflexivity
    | intros [|n] (t & X & P); cbn in X; try discriminate X; try (injection X as <-; exact (P eq_refl)); destruct n; discriminate X
    | intros [|c]; [reflexivity|destruct c; reflexivity]
    | intros [|n] (t & X & P); cbn in X; try discriminate X; try reflexivity; destruct n; discriminate X
    | intros [|n] (t & X & P); cbn in X; try discriminate X; try reflexivity; destruct n; discriminate X
    | intros [|c] x X; cbn in X; try discriminate X; [injection X as <-; split; reflexivity|destruct c; discriminate X]
    | intros [|c] x X; cbn in X; try discriminate X; try (injection X as <-; split; reflexivity); destruct c; discriminate X ]
  | intros s' x E; discriminate E
  | intros [|c] s' x E; [discriminate E|destruct c; discriminate E] ].
Ltac one_conn := split;
  [ intros d'; split;
    [ intros [e I]; cbn in I; repeat (destruct I as [I|I]; [try discriminate I; injection I as <- <-; reflexivity|]); destruct I
    | intros ->; eexists; cbn; repeat (try (left; reflexivity); right) ]
  | eexists; split; reflexivity ].
Example C80_example : exists tr w t1 x t2 u1 u2, net_history b0 c0 tr w /\ at_peace b0 c0 (w 2%N) /\ at_peace b0 c0 (w 1%N) /\
  sendable 2%N tr /\ sendable 1%N tr /\ all_brought 2%N 1%N tr /\ all_brought 1%N 2%N tr /\
  one_connection 2%N 1%N 0 tr w /\ one_connection 1%N 2%N 0 tr w /\
  at_node 1%N tr = t1 ++ x :: t2 /\ e_rt x = Some (EAccept 0 2%N, OSpawned 0 2%N) /\ served 0 (1%N, 1%N) (runtime_trace t1) /\
  welcome 2%N (socket_trace (at_node 1%N tr)) /\ (forall o, ~ In (ELagged 0, o) (runtime_trace (at_node 1%N tr))) /\
  stub_exists (n_rt (w 1%N)) 0 /\ stub_listening (n_rt (w 1%N)) 0 /\
  at_node 2%N tr = u1 ++ u2 /\ proxied 0 (1%N, 1%N) 1%N (runtime_trace u1) /\ from_peer 1%N (datagrams u1) = [] /\
  (forall o, ~ In (ELagged 0, o) (runtime_trace (at_node 2%N tr))) /\ proxy_exists (n_rt (w 2%N)) 0 /\
  Forall (fun m => ordinary m /\ id_of m = (1%N, 1%N)) (from_peer 1%N (accepted_for (at_node 2%N tr))) /\
  (forall m, id_of m = (1%N, 1%N) -> id_of (ex_reply m) = (1%N, 1%N) /\ (ordinary m -> ordinary (ex_reply m))) /\
  from_peer 2%N (accepted_for (at_node 1%N tr)) = map ex_reply (from_addr 2%N (stub_got 0 (runtime_trace (at_node 1%N tr)))) /\
  from_addr 1%N (proxy_got 0 (runtime_trace (at_node 2%N tr))) = [ex_reply (ex_m 7); ex_reply (ex_m 8)].
Proof.
  destruct (net_run b0 c0 net_init [] ex_exchange) as [[w tr]|] eqn:R; [|vm_compute in R; discriminate].
  assert (H := ex_net_history _ _ _ R).
  assert (T : option_map snd (net_run b0 c0 net_init [] ex_exchange) = Some tr) by (rewrite R; reflexivity).
  assert (W1 : option_map (fun p => fst p 1%N) (net_run b0 c0 net_init [] ex_exchange) = Some (w 1%N)) by (rewrite R; reflexivity).
  assert (W2 : option_map (fun p => fst p 2%N) (net_run b0 c0 net_init [] ex_exchange) = Some (w 2%N)) by (rewrite R; reflexivity).
  clear R. exists tr, w, (firstn 11 (at_node 1%N tr)), (nth 11 (at_node 1%N tr) (mkE None None None)), (skipn 12 (at_node 1%N tr)),
    (firstn 6 (at_node 2%N tr)), (skipn 6 (at_node 2%N tr)).
  unfold one_connection. split; [exact H|]. clear H. vm_compute in T, W1, W2. injection T as <-. injection W1 as <-. injection W2 as <-.
  split; [peace|]. split; [peace|].
  split; [repeat constructor|]. split; [repeat constructor|]. split; [reflexivity|]. split; [reflexivity|].
  split; [one_conn|]. split; [one_conn|]. split; [reflexivity|]. split; [reflexivity|].
  split; [eexists; cbn; tauto|]. split; [apply welcome_run; vm_compute; reflexivity|].
  split; [intros o I; cbn in I; repeat (destruct I as [I|I]; [discriminate I|]); exact I|].
  split; [eexists; split; reflexivity|]. split; [eexists; eexists; split; [reflexivity|split; reflexivity]|].
  split; [reflexivity|]. split; [eexists; cbn; tauto|]. split; [reflexivity|].
  split; [intros o I; cbn in I; repeat (destruct I as [I|I]; [discriminate I|]); exact I|].
  split; [eexists; split; reflexivity|]. split; [repeat constructor|].
  split; [intros m E; split; [exact E|intros (A & B & C & _ & D); repeat split; try apply A; try apply B; try apply C; try apply D]|].
  split; reflexivity.
Qed.

(** C82.  An endpoint over UDP that is left to itself does not go on for ever: whatever its tasks do
    first, only finitely many steps change anything. *)
Theorem C82_stops : forall bk cbk (f : nat -> node) tr, nhistory bk cbk tr (f 0) ->
  ~ (forall n, f (S n) <> f n /\ exists e x, settles e /\ node_step bk cbk (f n) e = Some (f (S n), x)).
Proof. exact @stops. Qed.
Print Assumptions C82_stops.
(** When nothing changes any more, it is at peace and has read everything that
    arrived, or is in the deadlock of C60. *)
Theorem C82_stopped : forall bk cbk tr s, nhistory bk cbk tr s ->
  (forall e s' x, settles e -> node_step bk cbk s e = Some (s', x) -> s' = s) ->
  (at_peace bk cbk s /\ caught_up s) \/ exists c n, jammed bk (runtime_trace tr) (n_rt s) c n.
Proof. exact @stopped. Qed.
Print Assumptions C82_stopped.
(** So from wherever it is, it gets there. *)
Theorem C82_comes_to_rest : forall bk cbk tr s, nhistory bk cbk tr s ->
  exists tr' s', settling bk cbk s tr' s' /\ nhistory bk cbk (tr ++ tr') s' /\
  ((at_peace bk cbk s' /\ caught_up s') \/ exists c n, jammed bk (runtime_trace (tr ++ tr')) (n_rt s') c n).
Proof. exact @comes_to_peace. Qed.
Print Assumptions C82_comes_to_rest.
(** Messages of a new peer have reached the socket; the endpoint goes on until the stub has them. *)
Definition ex_before : list nevent := ex_serve (1%N, 1%N) ++ [NRun (EListener 0)] ++ ex_new 2%N (s_form (ex_m 7)) ++ [NDatagram 2%N (s_form (ex_m 8))].
Definition ex_after : list nevent := [NAccept 0; NRun (EAcceptShare 0); NTask; NTask] ++ ex_read 0 ++ ex_read 0 ++ [NRun (ERecvFrom 0); NRun (ERecvFrom 0)].
Lemma ex_settling es : forall s s' tr, node_run b0 c0 s es = Some (s', tr) -> Forall settles es -> settling b0 c0 s tr s'.
Proof.
  induction es as [|e es IH]; intros s s' tr R F; cbn in R; [injection R as <- <-; constructor|].
  destruct (node_step b0 c0 s e) as [[s1 x]|] eqn:S; [|discriminate]. destruct (node_run b0 c0 s1 es) as [[s2 t]|] eqn:R'; [|discriminate].
  injection R as <- <-. inversion F; subst. eapply g_more; [eassumption|exact S|]. apply IH; assumption.
Qed.
Example C82_example : exists s tr s' tr', node_run b0 c0 node_init ex_before = Some (s, tr) /\ settling b0 c0 s tr' s' /\ at_peace b0 c0 s' /\ caught_up s' /\ s' <> s /\
  from_addr 2%N (stub_got 0 (runtime_trace tr)) = [] /\
  from_addr 2%N (stub_got 0 (runtime_trace (tr ++ tr'))) = [ex_m 7; ex_m 8].
Proof.
  eexists. eexists. eexists. eexists. split; [vm_compute; reflexivity|].
  split; [eapply (ex_settling ex_after); [vm_compute; reflexivity|repeat constructor]|].
  split; [peace|]. split.
  { constructor; [left; reflexivity|..].
    - intros [|c] x k ch X A K C; [|cbn in K; destruct c; discriminate K]. cbn in K. injection K as <-. cbn in C. injection C as <-. reflexivity.
    - intros [|l] x k q X A K Q; [|cbn in K; destruct l; discriminate K]. cbn in K. injection K as <-. cbn in Q. injection Q as <-. reflexivity.
    - intros [|c] x k X A K; [|cbn in K; destruct c; discriminate K]. cbn in K. injection K as <-. reflexivity.
    - intros [|l] x k X A K; [|cbn in K; destruct l; discriminate K]. cbn in K. injection K as <-. reflexivity.
    - intros [|c] x k ch X A K C; [|cbn in K; destruct c; discriminate K]. cbn in X. injection X as <-. discriminate A.
    - intros [|l] x k q X A K Q; [|cbn in K; destruct l; discriminate K]. cbn in X. injection X as <-. discriminate A.
    - discriminate. }
  split; [discriminate|]. split; vm_compute; reflexivity.
Qed.
(** The endpoint is dropped, and so is its stub: the socket goes too. *)
Example C82_dropped_example : exists s tr s' tr', node_run b0 c0 node_init (ex_serve (1%N, 1%N) ++ [NRun (EListener 0); NRun EClose; NRun (EDropStub 0); NRun (EUnowned_listener 0)]) = Some (s, tr) /\
  UdpModel.u_open (n_udp s) = true /\ settling b0 c0 s tr' s' /\ at_peace b0 c0 s' /\ caught_up s' /\ UdpModel.u_open (n_udp s') = false.
Proof.
  eexists. eexists. eexists. eexists. split; [vm_compute; reflexivity|]. split; [reflexivity|].
  split; [eapply (ex_settling [NDropListener 0; NDropSocket]); [vm_compute; reflexivity|repeat constructor]|].
  split; [|split; [|reflexivity]].
  2: constructor; [left; reflexivity|..].
  2: { intros [|c] x k ch X; discriminate X. }
  2: { intros [|l] x k q X A; [|destruct l; discriminate X]. cbn in X. injection X as <-. discriminate A. }
  2: { intros [|c] x k X; discriminate X. }
  2: { intros [|l] x k X A; [|destruct l; discriminate X]. cbn in X. injection X as <-. discriminate A. }
  2: { intros [|c] x k ch X; discriminate X. }
  2: { intros [|l] x k q X A K Q; [|cbn in K; destruct l; discriminate K]. cbn in K. injection K as <-. cbn in Q. injection Q as <-. reflexivity. }
  2: { reflexivity. }
  constructor; [|intros s' x E; discriminate E|intros [|c] s' x E; discriminate E].
  constructor; [split; reflexivity|intros [|n] (t & X & P)|intros [|c]; reflexivity|intros [|n] (t & X & P)|intros [|n] (t & X & P)|intros [|c] x X|intros [|l] x X]; cbn in X; try discriminate X.
  - injection X as <-. exact (P eq_refl).
  - destruct n; discriminate X.
  - injection X as <-. discriminate P.
  - destruct n; discriminate X.
  - injection X as <-. split; reflexivity.
  - destruct l; discriminate X.
Qed.
