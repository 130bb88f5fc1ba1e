(** What the claims about endpoints over UDP, their calls and the datagrams between them mean. *)
From Coq Require Import List NArith Bool PeanoNat.
From Verif Require Import BytesModel RuntimeModel RuntimeSpec NodeModel NodeSpec ExchangeSpec UdpNetModel UdpNetSpec QueueModel QueueSpec QueueUdpModel QueueUdpSpec QueueNetModel.
From Verif Require UdpModel FairSpec.
Import ListNotations.
Open Scope nat_scope.

(** A history: everything that happened. *)
Inductive qw_history (bk : iid -> N) (cbk : N -> N) : list qwentry -> qnet -> Prop :=
| qw_start : qw_history bk cbk [] qnet_init
| qw_more tr w ev w' x : qw_history bk cbk tr w -> qnet_step bk cbk w ev = Some (w', x) -> qw_history bk cbk (tr ++ [x]) w'.
Inductive qw_steps (bk : iid -> N) (cbk : N -> N) : qnet -> list qwentry -> qnet -> Prop :=
| qws_none w : qw_steps bk cbk w [] w
| qws_more w ev w1 x tr w2 : qnet_step bk cbk w ev = Some (w1, x) -> qw_steps bk cbk w1 tr w2 -> qw_steps bk cbk w (x :: tr) w2.

(** What happened at [a]. *)
Definition seen_at (a : N) (tr : list qwentry) : list (qnevent * qnlog) :=
  flat_map (fun x => match x with WDid b p => if N.eqb b a then [p] else [] | _ => [] end) tr.
(** The same without the calls: what happened to the endpoints, the sockets and the datagrams (C89). *)
Definition without_calls (tr : list qwentry) : list uentry :=
  flat_map (fun x => match x with WDid a p => map (Did a) (ql_node (snd p)) | WLost d => [Lost d] | WCopied d => [Copied d] end) tr.

Definition events_of (tr : list qwentry) : list (N * entry) := happened (without_calls tr).
Definition nodes_of (w : qnet) : net := fun a => qn_node (qw_node w a).

(** What goes on by itself: what an endpoint, its tasks, its callers and its socket do (QueueUdpSpec.v),
    and that datagrams arrive. *)
Definition qw_on (x : qwentry) : Prop :=
  match x with
  | WDid _ (BySocket (NDatagram _ _), _) => True
  | WDid _ p => qn_on p
  | _ => False
  end.
(** What may happen besides: datagrams are lost, and at the endpoints of [L] futures and handles are
    dropped, the system does not take what is sent, and sockets fail.  Nobody calls anything. *)
Definition qw_quiet (L : list N) (x : qwentry) : Prop :=
  match x with
  | WDid a p => qw_on x \/ (In a L /\ qn_quiet p)
  | WLost _ => True
  | WCopied _ => False
  end.

(** Datagrams are under way only to sockets that receive no more, and everywhere nothing is left to do. *)
Definition qw_rest bk cbk (w : qnet) : Prop :=
  (forall a b d, In (a, b, d) (qw_flight w) -> UdpModel.u_task (n_udp (qn_node (qw_node w b))) = UdpModel.Stopped) /\
  forall a, qn_rest bk cbk (qw_node w a).
(** Somewhere an endpoint and its stubs wait for each other (C47). *)
Definition qw_jammed bk (tr : list qwentry) (w : qnet) : Prop := exists a, qn_jammed bk (seen_at a tr) (qw_node w a).
(** Wherever a call was made whose future was not dropped, it has returned what it can be answered. *)
Definition everywhere_answered (tr : list qwentry) : Prop := forall a, all_answered (seen_at a tr).

(** Runs without end, after the last call, in which what stays possible is not left undone for ever. *)
Definition qw_goes bk cbk L (w : qnet) (x : qwentry) (w' : qnet) : Prop :=
  qw_quiet L x /\ exists ev, qnet_step bk cbk w ev = Some (w', x).
Definition qw_can bk cbk (w : qnet) : Prop := exists ev w' x, qnet_step bk cbk w ev = Some (w', x) /\ qw_on x.
Definition qw_fair bk cbk L := FairSpec.fair_run (qw_goes bk cbk L) (qw_can bk cbk) (fun _ x _ => qw_on x).
