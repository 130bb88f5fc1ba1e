(** Runs without end of any number of endpoints over TCP and the streams between them, under load:
    calls, connections, failures and dropped handles may come for ever, at every endpoint. *)
From Coq Require Import List NArith Bool PeanoNat.
From Verif Require Import BytesModel RuntimeModel RuntimeSpec TcpModel TcpNodeModel TcpNodeSpec TcpNetModel TcpNetSpec QueueModel QueueSpec QueueTcpModel QueueTcpSpec
  QueueTcpNetModel QueueTcpNetSpec LoadSpec LoadTcpSpec.
Import ListNotations.
Open Scope nat_scope.

Section Locks.
Context (bk : iid -> N) (cbk : N -> N).

(** Bytes can arrive at connection [d] of the endpoint at [b]. *)
Definition can_arrive (w : qtnet) (b : N) (d : nat) : Prop :=
  exists ev w' bs p, qtnet_step bk cbk w ev = Some (w', (b, (AtStream (TBytes d bs), p))) /\ bs <> [].

(** [f n] is the state at time [n], [t n] what happened before.  At each time anything happens that is
    possible, or nothing.  Whoever can go on again and again does, at every endpoint (LoadTcpSpec.v),
    and bytes that can arrive again and again do: the network is not code of the repository. *)
Record net_load (f : nat -> qtnet) (t : nat -> list qxentry) : Prop := {
  nl_goes : forall n, (f (S n) = f n /\ t (S n) = t n) \/
    exists ev x, qtnet_step bk cbk (f n) ev = Some (f (S n), x) /\ t (S n) = t n ++ [x];
  nl_fair : forall a k n, exists m, n <= m /\
    ((exists ev p, acts_over k (endpoint (f m) a) ev (endpoint (f (S m)) a) /\ t (S m) = t m ++ [(a, (ev, p))]) \/
     forall m', m <= m' -> ~ can_over bk cbk k (endpoint (f m') a));
  nl_arrives : forall b d n, exists m, n <= m /\
    ((exists bs p, bs <> [] /\ t (S m) = t m ++ [(b, (AtStream (TBytes d bs), p))]) \/
     forall m', m <= m' -> ~ can_arrive (f m') b d) }.
End Locks.

(** While connection [d] of the endpoint at [b] runs, a connection there waits for ever for room in the
    full queue of a stub or proxy from which nobody receives (LoadSpec.v). *)
Definition unread_at (f : nat -> qtnet) (t : nat -> list qxentry) (b : N) (d : nat) : Prop :=
  tcp_unread_while (fun n => endpoint (f n) b) (fun n => at_place b (t n)) d.

(** From time [N] on, what waits at stub [n] of the endpoint at [b] is received: again and again nothing
    waits there or more was received from it. *)
Definition stub_emptied (f : nat -> qtnet) (t : nat -> list qxentry) (b : N) (n N : nat) : Prop :=
  forall m, N <= m -> exists m', m <= m' /\
    (stub_backlog (t_rt (tn_node (qx_net (f m')) b)) n = [] \/
     length (stub_got n (rt_tcp b (streams_of (t m)))) < length (stub_got n (rt_tcp b (streams_of (t m'))))).
(** The same for what connection [d] brought to proxy [n]. *)
Definition proxy_emptied (f : nat -> qtnet) (t : nat -> list qxentry) (b : N) (d n N : nat) : Prop :=
  forall m, N <= m -> exists m', m <= m' /\
    (from_conn d (proxy_backlog (t_rt (tn_node (qx_net (f m')) b)) n) = [] \/
     length (from_conn d (proxy_got n (rt_tcp b (streams_of (t m))))) < length (from_conn d (proxy_got n (rt_tcp b (streams_of (t m')))))).
