(** Runs without end of an endpoint over TCP under load: calls, bytes, connections, failures and
    dropped handles may come for ever. *)
From Coq Require Import List NArith Bool PeanoNat.
From Verif Require Import BytesModel RuntimeModel RuntimeSpec TcpModel TcpNodeModel TcpNodeSpec QueueModel QueueSpec QueueTcpModel QueueTcpSpec LoadSpec.
Import ListNotations.
Open Scope nat_scope.

(** Who goes on by itself: the actors of LoadSpec.v, and [recv] of a connection.  The sender of a
    connection goes on when its stream takes at least a byte, or fails; [recv] goes on when bytes are
    there and it returns some, or fails. *)
Inductive tcp_actor := Own (k : actor) | Reading (c : nat).
(** Bytes have arrived on connection [c] and were not read. *)
Definition bytes_ready (s : tnode) (c : nat) : Prop := exists k, nth_error (t_links s) c = Some k /\ t_avail (k_in k) <> [].
Definition acts_over (k : tcp_actor) (j : qtnode) (ev : qtevent) (j' : qtnode) : Prop :=
  match ev with
  | AtCalls x => match k with Own k => acts_as k x | Reading _ => False end
  | AtStream (TWrite c _) => k = Own (Sender c) /\ j' <> j
  | AtStream (TRead c _) => k = Reading c /\ bytes_ready (qt_node j) c /\ j' <> j
  | _ => False
  end.

Section Locks.
Context (bk : iid -> N) (cbk : N -> N).

Definition can_over (k : tcp_actor) (j : qtnode) : Prop := exists ev j' p, qtnode_step bk cbk j ev = Some (j', p) /\ acts_over k j ev j'.

(** [f n] is the state at time [n], [t n] what happened before.  At each time anything happens that is
    possible, or nothing.  Whoever can go on again and again does: at any time, each of the above goes
    on at some later time, or from some later time on it never can. *)
Record tcp_load (f : nat -> qtnode) (t : nat -> list (qtevent * qtlog)) : Prop := {
  tl_goes : forall n, (f (S n) = f n /\ t (S n) = t n) \/
    exists ev p, qtnode_step bk cbk (f n) ev = Some (f (S n), p) /\ t (S n) = t n ++ [(ev, p)];
  tl_fair : forall k n, exists m, n <= m /\
    ((exists ev p, acts_over k (f m) ev (f (S m)) /\ t (S m) = t m ++ [(ev, p)]) \/ forall m', m <= m' -> ~ can_over k (f m')) }.
End Locks.

(** Somebody does not read from a stub or proxy (LoadSpec.v). *)
Definition tcp_unread (f : nat -> qtnode) (t : nat -> list (qtevent * qtlog)) : Prop :=
  left_unread (fun n => qt_calls (f n)) (fun n => calls_at (t n)).
Definition tcp_unread_while (f : nat -> qtnode) (t : nat -> list (qtevent * qtlog)) (b : nat) : Prop :=
  left_unread_while (fun n => qt_calls (f n)) (fun n => calls_at (t n)) b.
