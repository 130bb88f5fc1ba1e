(** Runs without end of an endpoint over UDP under load: calls, datagrams, failures and dropped handles
    may come for ever. *)
From Coq Require Import List NArith Bool PeanoNat.
From Verif Require Import BytesModel RuntimeModel RuntimeSpec NodeModel NodeSpec QueueModel QueueSpec QueueUdpModel QueueUdpSpec LoadSpec.
From Verif Require UdpModel.
Import ListNotations.
Open Scope nat_scope.

Section Locks.
Context (bk : iid -> N) (cbk : N -> N).

(** [f n] is the state at time [n], [t n] what happened before.  At each time anything happens that is
    possible, or nothing.  Whoever again and again can go on does.  Somebody who connects or listens may
    find that the task of the socket holds the lock of the connections or of the listener (udp.rs
    140-161): that is a wait inside a step, which nobody can give up, so it counts as being able to go on.
    At any time, each of the actors of LoadSpec.v goes on at some later time, or from some later time on
    it never can. *)
Record udp_load (f : nat -> qnode) (t : nat -> list (qnevent * qnlog)) : Prop := {
  ul_goes : forall n, (f (S n) = f n /\ t (S n) = t n) \/
    exists ev p, qnode_step bk cbk (f n) ev = Some (f (S n), p) /\ t (S n) = t n ++ [(ev, p)];
  ul_fair : forall k n, exists m, n <= m /\
    ((exists ev p x o l, acts_as k x /\ ql_call p = Some (x, o, l) /\ t (S m) = t m ++ [(ev, p)]) \/
     forall m', m <= m' -> ~ can_act bk cbk k (qn_calls (f m'))) }.

(** Connections that again and again can take something from the socket do. *)
Definition reads_go (f : nat -> qnode) (t : nat -> list (qnevent * qnlog)) : Prop :=
  forall c n, exists m, n <= m /\
    ((exists p, t (S m) = t m ++ [(BySocket (NRecv c), p)]) \/
     forall m', m <= m' -> ~ exists r, qnode_step bk cbk (f m') (BySocket (NRecv c)) = Some r).
End Locks.

(** The socket has put at least [k] datagrams into the channel of connection [c]; the connection has
    taken, or was told that it lost, the first [k] of them. *)
Definition put (s : node) (c k : nat) : Prop :=
  exists h ch, nth_error (n_chan s) c = Some h /\ nth_error (UdpModel.u_chans (n_udp s)) h = Some ch /\ k <= length (UdpModel.c_sent ch).
Definition consumed (s : node) (c k : nat) : Prop :=
  exists h ch, nth_error (n_chan s) c = Some h /\ nth_error (UdpModel.u_chans (n_udp s)) h = Some ch /\ k <= UdpModel.c_next ch.

(** Somebody does not read from a stub or proxy (LoadSpec.v). *)
Definition udp_unread (f : nat -> qnode) (t : nat -> list (qnevent * qnlog)) : Prop :=
  left_unread (fun n => qn_calls (f n)) (fun n => calls_in (t n)).
Definition udp_unread_while (f : nat -> qnode) (t : nat -> list (qnevent * qnlog)) (b : nat) : Prop :=
  left_unread_while (fun n => qn_calls (f n)) (fun n => calls_in (t n)) b.
