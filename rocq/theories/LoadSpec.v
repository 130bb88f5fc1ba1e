(** Runs without end of an endpoint under load: calls, packets, connections, failures and dropped
    handles may come for ever. *)
From Coq Require Import List NArith Bool PeanoNat.
From Verif Require Import BytesModel RuntimeModel RuntimeSpec QueueModel QueueSpec.
Import ListNotations.
Open Scope nat_scope.

(** Who goes on by itself: the endpoint task, the receiver of a connection, its sender with the socket it
    writes to, a listener, a [send_to], and a call.  A [send_to] that asked the endpoint task for a connection goes on
    when that task does. *)
Inductive actor := TheEndpoint | Receiver (c : nat) | Sender (c : nat) | Listening (l : nat) | Sending (n : nat) | Caller (u : nat).
Definition acts_as (k : actor) (x : qevent) : Prop :=
  match k, x with
  | TheEndpoint, QTake | TheEndpoint, QGo _ => True
  | Receiver c, QRun (ERoute d) | Sender c, QRun (ESender d) | Sender c, QRun (ESocket d _) => d = c
  | Listening l, QRun (EListener d) => d = l
  | Sending n, QRun (EStub d _) | Sending n, QEnter (FSend d) => d = n
  | Caller u, QEnter (FCall d) | Caller u, QReturn d => d = u
  | _, _ => False
  end.

Section Locks.
Context (bk : iid -> N) (cbk : N -> N).

Definition can_act (k : actor) (q : qst) : Prop := exists x r, acts_as k x /\ qstep bk cbk q x = Some r.

(** [f n] is the state at time [n], [t n] what happened before.  At each time anything happens that is
    possible, or nothing.  Whoever can go on again and again does: at any time, each of the above goes
    on at some later time, or from some later time on it never can. *)
Record load_run (f : nat -> qst) (t : nat -> list qlog) : Prop := {
  lr_goes : forall n, (f (S n) = f n /\ t (S n) = t n) \/
    exists x o l, qstep bk cbk (f n) x = Some (f (S n), o, l) /\ t (S n) = t n ++ [(x, o, l)];
  lr_fair : forall k n, exists m, n <= m /\
    ((exists x o l, acts_as k x /\ t (S m) = t m ++ [(x, o, l)]) \/ forall m', m <= m' -> ~ can_act k (f m')) }.
End Locks.

(** From time [N] on connection [c] waits for room in the full queue of stub (proxy) [n], and nobody
    reads from it. *)
Definition unread_stub (f : nat -> qst) (t : nat -> list qlog) (N c n : nat) : Prop :=
  forall m, N <= m -> stalled_stub (q_rt (f m)) c n /\ exists more, t m = t N ++ more /\ forall o, ~ In (ERecvFrom n, o) (rt_trace more).
Definition unread_proxy (f : nat -> qst) (t : nat -> list qlog) (N c n : nat) : Prop :=
  forall m, N <= m -> stalled_proxy (q_rt (f m)) c n /\ exists more, t m = t N ++ more /\ forall o, ~ In (EProxyRecv n, o) (rt_trace more).
Definition left_unread (f : nat -> qst) (t : nat -> list qlog) : Prop := exists N c n, unread_stub f t N c n \/ unread_proxy f t N c n.

(** The same, as long as connection [b] runs. *)
Definition unread_stub_while (f : nat -> qst) (t : nat -> list qlog) (b N c n : nat) : Prop :=
  forall m, N <= m -> conn_runs (q_rt (f m)) b -> stalled_stub (q_rt (f m)) c n /\ exists more, t m = t N ++ more /\ forall o, ~ In (ERecvFrom n, o) (rt_trace more).
Definition unread_proxy_while (f : nat -> qst) (t : nat -> list qlog) (b N c n : nat) : Prop :=
  forall m, N <= m -> conn_runs (q_rt (f m)) b -> stalled_proxy (q_rt (f m)) c n /\ exists more, t m = t N ++ more /\ forall o, ~ In (EProxyRecv n, o) (rt_trace more).
Definition left_unread_while (f : nat -> qst) (t : nat -> list qlog) (b : nat) : Prop :=
  exists N c n, unread_stub_while f t b N c n \/ unread_proxy_while f t b N c n.
