(** Property theorems C89: any number of endpoints over UDP and the datagrams between them.
    [bk] and [cbk] say which entries of the shared maps share a lock: all theorems hold whatever
    they are. *)
From Coq Require Import List NArith Bool PeanoNat Lia Permutation.
From Verif Require Import BytesModel WireSpec SomeipModel SomeipSpec RuntimeModel RuntimeSpec NodeModel NodeSpec ExchangeSpec UdpNetModel FairSpec UdpNetSpec
  UdpContact UdpNetTheorems UdpNetRestTheorems PropertiesNode PropertiesExchange.
From Verif Require UdpModel.
Import ListNotations.
Open Scope nat_scope.

(** C89.  The network that holds the datagrams under way is the one of C68 to C70 and C80: the
    endpoints see the same.  So those theorems hold here too. *)
Theorem C89_invents_nothing : forall bk cbk tr w, unet_history bk cbk tr w -> net_history bk cbk (happened tr) (un_node w).
Proof. exact (fun bk cbk tr w H => proj1 (is_net bk cbk tr w H)). Qed.
Print Assumptions C89_invents_nothing.
Theorem C89_every_network : forall bk cbk tr w, net_history bk cbk tr w ->
  exists tr' v, unet_history bk cbk tr' v /\ happened tr' = tr /\ forall a, un_node v a = w a.
Proof. exact (fun bk cbk tr w H => match every_net bk cbk tr w H with ex_intro _ t (ex_intro _ v (conj A (conj B (conj C _)))) => ex_intro _ t (ex_intro _ v (conj A (conj B C))) end). Qed.
Print Assumptions C89_every_network.
(** Every datagram has arrived, is under way or was lost, once for each time it was sent or doubled. *)
Theorem C89_accounts : forall bk cbk tr w a b, unet_history bk cbk tr w ->
  Permutation (from_peer a (datagrams (at_node b (happened tr))) ++ between a b (un_flight w) ++ between a b (lost tr))
              (carried a b (happened tr) ++ between a b (copied tr)).
Proof. exact @accounts. Qed.
Print Assumptions C89_accounts.
Theorem C89_brought : forall bk cbk tr w a b, unet_history bk cbk tr w ->
  between a b (copied tr) = [] -> between a b (lost tr) = [] -> between a b (un_flight w) = [] -> in_sequence a b (happened tr) ->
  all_brought a b (happened tr).
Proof. exact @brought. Qed.
Print Assumptions C89_brought.

(** Left to itself the network does not go on for ever: whatever happens first, only finitely many
    steps change anything. *)
Theorem C89_stops : forall bk cbk (f : nat -> unet) tr, unet_history bk cbk tr (f 0) ->
  ~ (forall n, moved (f n) (f (S n)) /\ exists ev x, unet_settles ev /\ unet_step bk cbk (f n) ev = Some (f (S n), x)).
Proof. exact @net_stops. Qed.
Print Assumptions C89_stops.
(** When no endpoint and no datagram can go on, all is at rest, or an endpoint is in the deadlock of
    C60. *)
Theorem C89_stopped : forall bk cbk tr w, unet_history bk cbk tr w -> ~ unet_can bk cbk w ->
  unet_at_rest bk cbk w \/ exists a c n, jammed bk (runtime_trace (at_node a (happened tr))) (n_rt (un_node w a)) c n.
Proof. exact @net_stopped. Qed.
Print Assumptions C89_stopped.
(** So from wherever it is, it gets there, without losing a datagram. *)
Theorem C89_comes_to_rest : forall bk cbk tr w, unet_history bk cbk tr w ->
  exists tr' w', unet_settling bk cbk w tr' w' /\ lost tr' = [] /\ unet_history bk cbk (tr ++ tr') w' /\
  (unet_at_rest bk cbk w' \/ exists a c n, jammed bk (runtime_trace (at_node a (happened (tr ++ tr')))) (n_rt (un_node w' a)) c n).
Proof. exact @net_comes_to_rest. Qed.
Print Assumptions C89_comes_to_rest.
(** In every infinite run that leaves no possible work undone for ever, whatever is lost meanwhile. *)
Theorem C89_fair : forall bk cbk f t, unet_fair bk cbk f t -> unet_history bk cbk (t 0) (f 0) ->
  forall k, exists n, k <= n /\ unet_history bk cbk (t n) (f n) /\
  ((forall m, n <= m -> unet_at_rest bk cbk (f m) /\ (forall a, un_node (f m) a = un_node (f n) a)) \/
   exists a c i, jammed bk (runtime_trace (at_node a (happened (t n)))) (n_rt (un_node (f n) a)) c i).
Proof. exact @net_fair_rest. Qed.
Print Assumptions C89_fair.
(** There are such runs. *)
Theorem C89_runs : forall bk cbk w tr l w', goes_to (unet_goes bk cbk) w l w' -> unet_history bk cbk (tr ++ l) w' -> unet_at_rest bk cbk w' ->
  exists f t, unet_fair bk cbk f t /\ f 0 = w /\ t 0 = tr /\ forall m, length l <= m -> f m = w' /\ t m = tr ++ l.
Proof. exact @net_run_exists. Qed.
Print Assumptions C89_runs.

(** At rest, if between [a] and [b] nothing was lost, doubled or overtaken, and both sockets still
    receive, C80 holds: a stub of [b] has been given all that [a] has accepted for it, in order, ... *)
Theorem C89_requests : forall bk cbk tr v a b d c t1 x t2 l n id,
  unet_history bk cbk tr v -> unet_at_rest bk cbk v ->
  between a b (copied tr) = [] -> between a b (lost tr) = [] -> in_sequence a b (happened tr) -> UdpModel.u_task (n_udp (un_node v b)) <> UdpModel.Stopped ->
  sendable a (happened tr) -> one_connection a b d (happened tr) (un_node v) -> one_connection b a c (happened tr) (un_node v) ->
  at_node b (happened tr) = t1 ++ x :: t2 -> e_rt x = Some (EAccept l a, OSpawned c a) -> served n id (runtime_trace t1) ->
  welcome a (socket_trace (at_node b (happened tr))) -> (forall o, ~ In (ELagged c, o) (runtime_trace (at_node b (happened tr)))) ->
  stub_exists (n_rt (un_node v b)) n -> stub_listening (n_rt (un_node v b)) n ->
  from_addr a (stub_got n (runtime_trace (at_node b (happened tr)))) =
  filter (of_id id) (map read_back (from_peer b (accepted_for (at_node a (happened tr))))).
Proof. exact @rest_requests. Qed.
Print Assumptions C89_requests.
(** ... and a proxy of [a] the replies to all it has sent. *)
Theorem C89_exchange : forall bk cbk tr v a b d c t1 x t2 u1 u2 l n k id reply,
  unet_history bk cbk tr v -> unet_at_rest bk cbk v ->
  between a b (copied tr) = [] -> between b a (copied tr) = [] -> between a b (lost tr) = [] -> between b a (lost tr) = [] ->
  in_sequence a b (happened tr) -> in_sequence b a (happened tr) ->
  UdpModel.u_task (n_udp (un_node v a)) <> UdpModel.Stopped -> UdpModel.u_task (n_udp (un_node v b)) <> UdpModel.Stopped ->
  sendable a (happened tr) -> sendable b (happened tr) ->
  one_connection a b d (happened tr) (un_node v) -> one_connection b a c (happened tr) (un_node v) ->
  at_node b (happened tr) = t1 ++ x :: t2 -> e_rt x = Some (EAccept l a, OSpawned c a) -> served n id (runtime_trace t1) ->
  welcome a (socket_trace (at_node b (happened tr))) -> (forall o, ~ In (ELagged c, o) (runtime_trace (at_node b (happened tr)))) ->
  stub_exists (n_rt (un_node v b)) n -> stub_listening (n_rt (un_node v b)) n ->
  at_node a (happened tr) = u1 ++ u2 -> proxied k id b (runtime_trace u1) -> from_peer b (datagrams u1) = [] ->
  (forall o, ~ In (ELagged d, o) (runtime_trace (at_node a (happened tr)))) -> proxy_exists (n_rt (un_node v a)) k ->
  Forall (fun m => ordinary m /\ id_of m = id) (from_peer b (accepted_for (at_node a (happened tr)))) ->
  (forall m, id_of m = id -> id_of (reply m) = id /\ (ordinary m -> ordinary (reply m))) ->
  from_peer a (accepted_for (at_node b (happened tr))) = map reply (from_addr a (stub_got n (runtime_trace (at_node b (happened tr))))) ->
  from_addr b (proxy_got k (runtime_trace (at_node a (happened tr)))) = map reply (from_peer b (accepted_for (at_node a (happened tr)))).
Proof. exact @rest_exchange. Qed.
Print Assumptions C89_exchange.

(** Endpoint 1 serves, endpoint 2 asks twice and endpoint 1 answers both; the answers are under way.
    Left to itself the network brings them. *)
Definition ex_uat (p : N * nevent) : uevent := match snd p with NDatagram _ _ => UBring 0 | e => UAt (fst p) e end.
Definition ex_ubefore : list uevent := map ex_uat
  (at_ 1 (ex_serve (1%N, 1%N) ++ [NRun (EListener 0)]) ++ at_ 2 (ex_proxy (1%N, 1%N) 1%N 0 ++ ex_send 0 0 (ex_m 7) ++ ex_send 0 0 (ex_m 8)) ++
   at_ 1 (ex_new 2%N [] ++ [NAccept 0; NRun (EAcceptShare 0)] ++ ex_read 0 ++ ex_known 2%N [] ++ ex_read 0 ++ ex_answer (ex_m 7) ++ ex_answer (ex_m 8))).
Definition ex_uafter : list uevent := map ex_uat
  (at_ 2 (ex_known 1%N [] ++ ex_known 1%N [] ++ ex_read 0 ++ ex_read 0 ++ [NRun (EProxyRecv 0); NRun (EProxyRecv 0)])).
Ltac caught := constructor;
  [ left; reflexivity
  | intros [|c] x k ch X A K C; [|cbn in K; destruct c; discriminate K]; cbn in K; injection K as <-; cbn in C; injection C as <-; reflexivity
  | intros [|l] x k q X A K Q; [try discriminate K|cbn in K; destruct l; discriminate K]; cbn in K; injection K as <-; cbn in Q; injection Q as <-; reflexivity
  | intros [|c] x k X A K; [|cbn in K; destruct c; discriminate K]; cbn in K; injection K as <-; reflexivity
  | intros [|l] x k X A K; [try discriminate K|cbn in K; destruct l; discriminate K]; cbn in K; injection K as <-; reflexivity
  | intros [|c] x k ch X A K C; [|cbn in K; destruct c; discriminate K]; cbn in X; injection X as <-; discriminate A
  | intros [|l] x k q X A K Q; [try discriminate K|cbn in K; destruct l; discriminate K]; cbn in X; injection X as <-; discriminate A
  | discriminate ].
Example C89_example : exists tr w tr' w', unet_history b0 c0 tr w /\ un_flight w = [(1%N, 2%N, s_form (ex_reply (ex_m 7))); (1%N, 2%N, s_form (ex_reply (ex_m 8)))] /\
  unet_settling b0 c0 w tr' w' /\ goes_to (unet_goes b0 c0) w tr' w' /\ unet_history b0 c0 (tr ++ tr') w' /\ unet_at_rest b0 c0 w' /\ un_flight w' = [] /\
  lost (tr ++ tr') = [] /\ copied (tr ++ tr') = [] /\ in_sequence 1%N 2%N (happened (tr ++ tr')) /\ in_sequence 2%N 1%N (happened (tr ++ tr')) /\
  from_addr 1%N (proxy_got 0 (runtime_trace (at_node 2%N (happened (tr ++ tr'))))) = [ex_reply (ex_m 7); ex_reply (ex_m 8)].
Proof.
  destruct (unet_run b0 c0 unet_init ex_ubefore) as [[w tr]|] eqn:R; [|vm_compute in R; discriminate].
  assert (H := unet_run_history _ _ _ [] _ _ _ (u_start _ _) R). cbn [app] in H.
  assert (W : option_map (fun p => un_flight (fst p)) (unet_run b0 c0 unet_init ex_ubefore) = Some (un_flight w)) by (rewrite R; reflexivity).
  assert (T : option_map snd (unet_run b0 c0 unet_init ex_ubefore) = Some tr) by (rewrite R; reflexivity).
  destruct (unet_run b0 c0 w ex_uafter) as [[w' tr']|] eqn:R'.
  2:{ exfalso. assert (K : match unet_run b0 c0 unet_init ex_ubefore with Some (w, _) => match unet_run b0 c0 w ex_uafter with Some _ => true | None => false end | None => true end = true)
        by (vm_compute; reflexivity). rewrite R, R' in K. discriminate K. }
  assert (B : match unet_run b0 c0 unet_init ex_ubefore with Some (w, _) =>
      option_map (fun p => (un_node (fst p) 1%N, un_node (fst p) 2%N, un_flight (fst p), snd p)) (unet_run b0 c0 w ex_uafter) | None => None end =
    Some (un_node w' 1%N, un_node w' 2%N, un_flight w', tr')) by (rewrite R, R'; reflexivity).
  assert (H' := unet_run_history _ _ _ _ _ _ _ H R').
  destruct (unet_run_settling _ _ ex_uafter _ _ _ ltac:(repeat constructor) R') as [S G]. clear R R'.
  exists tr, w, tr', w'. remember (un_flight w) as fl eqn:FL. remember (un_node w' 1%N) as s1 eqn:B1. remember (un_node w' 2%N) as s2 eqn:B2. remember (un_flight w') as fl' eqn:B3.
  vm_compute in W, T, B. injection W as <-. injection T as <-. injection B as <- <- <- <-.
  split; [exact H|]. split; [reflexivity|]. split; [exact S|]. split; [exact G|]. split; [exact H'|]. split; [|split; [reflexivity|repeat split]].
  - split; [rewrite <- B3; intros a b d []|]. intros a. destruct (N.eq_dec a 1%N) as [->|N1]; [rewrite <- B1; split; [peace|caught]|].
    destruct (N.eq_dec a 2%N) as [->|N2]; [rewrite <- B2; split; [peace|caught]|].
    rewrite (elsewhere _ _ _ _ _ H'); [apply init_peace|]. vm_compute. intros [E|[E|[]]]; congruence.
  - unfold in_sequence. cbn. apply sub_take, sub_take, sub_nil.
  - unfold in_sequence. cbn. apply sub_take, sub_take, sub_nil.
Qed.
(** A request is doubled, one copy is lost and one arrives. *)
Example C89_accounts_example : exists tr w, unet_history b0 c0 tr w /\ carried 2%N 1%N (happened tr) = [s_form (ex_m 7); s_form (ex_m 8)] /\
  between 2%N 1%N (copied tr) = [s_form (ex_m 7)] /\ between 2%N 1%N (lost tr) = [s_form (ex_m 7)] /\
  from_peer 2%N (datagrams (at_node 1%N (happened tr))) = [s_form (ex_m 8)] /\ between 2%N 1%N (un_flight w) = [s_form (ex_m 7)].
Proof.
  set (evs := map ex_uat (at_ 2 (ex_proxy (1%N, 1%N) 1%N 0 ++ ex_send 0 0 (ex_m 7) ++ ex_send 0 0 (ex_m 8))) ++ [UCopy 0; UBring 1; ULose 0]).
  destruct (unet_run b0 c0 unet_init evs) as [[w tr]|] eqn:R; [|vm_compute in R; discriminate].
  exists tr, w. split; [exact (unet_run_history _ _ _ [] _ _ _ (u_start _ _) R)|].
  assert (W : option_map (fun p => un_flight (fst p)) (unet_run b0 c0 unet_init evs) = Some (un_flight w)) by (rewrite R; reflexivity).
  assert (T : option_map snd (unet_run b0 c0 unet_init evs) = Some tr) by (rewrite R; reflexivity). clear R.
  remember (un_flight w) as fl eqn:FL. vm_compute in W, T. injection W as <-. injection T as <-. repeat split.
Qed.
