(** What the claims about an exchange of requests and answers between two endpoints over UDP mean. *)
From Coq Require Import List NArith Bool PeanoNat.
From Verif Require Import BytesModel WireSpec SomeipModel SomeipSpec RuntimeModel RuntimeSpec NodeModel NodeSpec.
From Verif Require UdpModel UdpSpec.
Import ListNotations.
Open Scope nat_scope.

(** In the step [e] of the socket something from [a] is discarded before anybody could read it: a
    datagram that nobody listens for, or one too many new peers wait before; or a new connection that
    waits in a listening socket that is dropped. *)
Definition turned_away (u : UdpModel.udp) (e : UdpModel.event) (a : N) : Prop :=
  match e with
  | UdpModel.ETask =>
      (exists p, UdpModel.u_task u = UdpModel.NewConn p a) /\
      forall l x, UdpModel.u_listener u = Some l -> nth_error (UdpModel.u_lsts u) l = Some x ->
        UdpModel.l_rx x = false \/ UdpModel.l_cap x <= length (UdpModel.l_queue x)
  | UdpModel.EDropListener l => exists x c, nth_error (UdpModel.u_lsts u) l = Some x /\ In (c, a) (UdpModel.l_queue x)
  | _ => False
  end.
(** That has not happened. *)
Definition welcome (a : N) (tr : list (UdpModel.event * UdpModel.obs)) : Prop :=
  forall t1 e o t2 u, tr = t1 ++ (e, o) :: t2 -> UdpModel.history t1 u -> ~ turned_away u e a.

(** What somebody was given from address [a]. *)
Definition from_addr (a : N) (its : list item) : list msg := map it_msg (filter (fun it => N.eqb (it_addr it) a) its).

(** An endpoint with nothing left to do but wait: for calls and for datagrams. *)
Record at_peace (bk : iid -> N) (cbk : N -> N) (s : node) : Prop := {
  nothing_to_do : idle (n_rt s);
  nothing_arriving : forall s' x, node_step bk cbk s NTask <> Some (s', x);
  nothing_to_read : forall c s' x, node_step bk cbk s (NRecv c) = Some (s', x) -> e_rt x = Some (EEnd c, OUnit) }.

(** The socket has nothing left of what arrived: its task is not busy with a datagram, every
    connection that runs has read all that was put in its channel, and every listener that runs has
    taken all new connections.  None of them runs on a channel that was closed, and what belonged to
    connections, listeners and an endpoint that ended is dropped. *)
Record caught_up (s : node) : Prop := {
  task_waits : UdpModel.u_task (n_udp s) = UdpModel.Idle \/ UdpModel.u_task (n_udp s) = UdpModel.Stopped;
  all_taken : forall c x k ch, nth_error (r_conns (n_rt s)) c = Some x -> c_alive x = true -> nth_error (n_chan s) c = Some k ->
    nth_error (UdpModel.u_chans (n_udp s)) k = Some ch -> UdpModel.c_next ch = length (UdpModel.c_sent ch);
  all_let_in : forall l x k q, nth_error (r_lsnrs (n_rt s)) l = Some x -> l_alive x = true -> nth_error (n_lst s) l = Some k ->
    nth_error (UdpModel.u_lsts (n_udp s)) k = Some q -> UdpModel.l_queue q = [];
  conns_open : forall c x k, nth_error (r_conns (n_rt s)) c = Some x -> c_alive x = true -> nth_error (n_chan s) c = Some k ->
    UdpModel.has_sender (n_udp s) k = true;
  lsnrs_open : forall l x k, nth_error (r_lsnrs (n_rt s)) l = Some x -> l_alive x = true -> nth_error (n_lst s) l = Some k ->
    UdpModel.has_listener (n_udp s) k = true;
  no_receiver_left : forall c x k ch, nth_error (r_conns (n_rt s)) c = Some x -> c_alive x = false -> nth_error (n_chan s) c = Some k ->
    nth_error (UdpModel.u_chans (n_udp s)) k = Some ch -> UdpModel.c_rx ch = false;
  no_listener_left : forall l x k q, nth_error (r_lsnrs (n_rt s)) l = Some x -> l_alive x = false -> nth_error (n_lst s) l = Some k ->
    nth_error (UdpModel.u_lsts (n_udp s)) k = Some q -> UdpModel.l_rx q = false;
  no_socket_left : ep_strong (n_rt s) = false -> UdpModel.u_open (n_udp s) = false }.

(** Everything [a] has handed to the network for [b] has reached [b], in order. *)
Definition all_brought (a b : N) (tr : list (N * entry)) : Prop := from_peer a (datagrams (at_node b tr)) = carried a b tr.
(** The messages [a] has accepted for [b] are of the program's types and fit in a length field. *)
Definition sendable (a : N) (tr : list (N * entry)) : Prop :=
  Forall (fun p => typed (snd p) /\ (8 + len (s_payload (snd p)) < 2 ^ 32)%N) (accepted_for (at_node a tr)).
(** Endpoint [a] has exactly one connection with [b], number [d], and it runs. *)
Definition one_connection (a b : N) (d : nat) (tr : list (N * entry)) (w : net) : Prop :=
  (forall d', opened d' b (runtime_trace (at_node a tr)) <-> d' = d) /\ conn_runs (n_rt (w a)) d.

(** What an endpoint does by itself: its tasks and calls go on, its stubs and proxies read what is
    there for them, and the system takes what is sent; what has ended drops its socket.  Nobody calls
    anything new, and nothing arrives. *)
Definition settles (e : nevent) : Prop :=
  match e with
  | NRun e => cooperative e
  | NTask | NRecv _ | NSend _ true | NAccept _ | NDropReceiver _ | NDropListener _ | NDropSocket => True
  | _ => False
  end.
Inductive settling (bk : iid -> N) (cbk : N -> N) : node -> list entry -> node -> Prop :=
| g_none s : settling bk cbk s [] s
| g_more s e s1 x tr s2 : settles e -> node_step bk cbk s e = Some (s1, x) -> settling bk cbk s1 tr s2 ->
                          settling bk cbk s (x :: tr) s2.
