(** What it means that a system goes on for ever without stopping while there is something to do. *)
From Coq Require Import List NArith Bool PeanoNat.
From Verif Require Import BytesModel RuntimeModel RuntimeSpec NodeModel NodeSpec ExchangeSpec TcpNodeModel TcpNodeSpec TcpRestSpec TcpNetModel TcpNetSpec.
Import ListNotations.
Open Scope nat_scope.

(** [f n] is the state at time [n], [t n] what happened before.  At each time one step is taken or
    none.  There is no time from which on something can always be done and nothing ever is.  Nothing is
    said about who is first or how often. *)
Record fair_run {A X} (go : A -> X -> A -> Prop) (can : A -> Prop) (does : A -> X -> A -> Prop) (f : nat -> A) (t : nat -> list X) : Prop := {
  goes_on : forall n, (f (S n) = f n /\ t (S n) = t n) \/ exists x, go (f n) x (f (S n)) /\ t (S n) = t n ++ [x];
  never_stops : forall n, exists m, n <= m /\ (~ can (f m) \/ exists x, t (S m) = t m ++ [x] /\ go (f m) x (f (S m)) /\ does (f m) x (f (S m))) }.

(** One step after the other. *)
Inductive goes_to {A X} (go : A -> X -> A -> Prop) : A -> list X -> A -> Prop :=
| gt_none s : goes_to go s [] s
| gt_more s x s1 l s2 : go s x s1 -> goes_to go s1 l s2 -> goes_to go s (x :: l) s2.

(** An endpoint, over whatever transport, after the last call and the last packet: handles may be
    dropped and connections may fail.  What can be done is what its tasks do, that stubs and proxies
    read what is there for them, and that sockets take packets. *)
Definition rt_goes bk cbk (s : rt) (p : event * obs) (s' : rt) : Prop :=
  brings (fst p) = None /\ step bk cbk s (fst p) = Some (s', snd p).
Definition rt_can bk cbk (s : rt) : Prop :=
  exists e s' o, cooperative e /\ step bk cbk s e = Some (s', o) /\ o <> OPending /\ o <> OClosed.
Definition rt_fair bk cbk := fair_run (rt_goes bk cbk) (rt_can bk cbk) (fun _ p _ => works p = true).

(** An endpoint over UDP, and one over TCP, left to itself. *)
Definition udp_goes bk cbk (s : node) (x : entry) (s' : node) : Prop := exists e, settles e /\ node_step bk cbk s e = Some (s', x).
Definition udp_fair bk cbk := fair_run (udp_goes bk cbk) (fun s => exists x s', udp_goes bk cbk s x s' /\ s' <> s) (fun s _ s' => s' <> s).
Definition tcp_goes bk cbk (s : tnode) (p : tnevent * tentry) (s' : tnode) : Prop :=
  tcp_settles s (fst p) /\ tnode_step bk cbk s (fst p) = Some (s', snd p).
Definition tcp_fair bk cbk := fair_run (tcp_goes bk cbk) (fun s => exists x s', tcp_goes bk cbk s x s' /\ s' <> s) (fun s _ s' => s' <> s).

(** Any number of endpoints over TCP and the streams between them. *)
Definition net_goes bk cbk (w : tnet) (x : N * (tnevent * tentry)) (w' : tnet) : Prop :=
  exists e, net_settles w e /\ tnet_step bk cbk w e = Some (w', x).
Definition net_fair bk cbk := fair_run (net_goes bk cbk) (fun w => exists x w', net_goes bk cbk w x w' /\ changed w w') (fun w _ w' => changed w w').
