(** What the claims about endpoints over TCP, their calls and the streams between them mean. *)
From Coq Require Import List NArith Bool PeanoNat.
From Verif Require Import BytesModel RuntimeModel RuntimeSpec TcpModel TcpSpec TcpNodeModel TcpNodeSpec TcpRestSpec TcpNetModel TcpNetSpec
  QueueModel QueueSpec QueueTcpModel QueueTcpSpec QueueTcpNetModel.
From Verif Require FairSpec.
Import ListNotations.
Open Scope nat_scope.

(** A history: everything that happened. *)
Inductive qx_history (bk : iid -> N) (cbk : N -> N) : list qxentry -> qtnet -> Prop :=
| qx_start : qx_history bk cbk [] qtnet_init
| qx_more tr w ev w' x : qx_history bk cbk tr w -> qtnet_step bk cbk w ev = Some (w', x) -> qx_history bk cbk (tr ++ [x]) w'.

(** What happened at [a], and the endpoint there with its calls (C93). *)
Definition at_place (a : N) (tr : list qxentry) : list (qtevent * qtlog) := flat_map (fun x => if N.eqb (fst x) a then [snd x] else []) tr.
Definition endpoint (w : qtnet) (a : N) : qtnode := mkQT (qx_calls w a) (tn_node (qx_net w) a).
(** The same without the calls: what happened to the endpoints and the streams (C85, C86). *)
Definition streams_of (tr : list qxentry) : list (N * (tnevent * tentry)) := flat_map (fun x => map (pair (fst x)) (qtl_node (snd (snd x)))) tr.

(** What goes on by itself: what the endpoints, their tasks, their callers and their streams do
    (QueueTcpSpec.v), that connections are accepted, and that bytes and the ends of streams arrive.
    Reading where nothing is does not count, nor does a stream that takes or brings nothing. *)
Definition qx_on (w : qtnet) (x : qxentry) (w' : qtnet) : Prop :=
  match fst (snd x) with
  | AtCalls (QRun (EAccept _ _)) => True
  | AtCalls _ => match qtl_call (snd (snd x)) with Some l => goes_on l | None => False end
  | AtStream e => (from_network e = true \/ tcp_settles (tn_node (qx_net w) (fst x)) e) /\ changed (qx_net w) (qx_net w')
  end.
(** What may happen besides, at the endpoints of [L]: futures and handles are dropped, and streams fail
    or take nothing.  Nobody calls anything. *)
Definition qx_quiet (L : list N) (w : qtnet) (x : qxentry) (w' : qtnet) : Prop := qx_on w x w' \/ (In (fst x) L /\ qt_quiet (snd x)).

Inductive qx_steps (bk : iid -> N) (cbk : N -> N) : qtnet -> list qxentry -> qtnet -> Prop :=
| qxs_none w : qx_steps bk cbk w [] w
| qxs_more w ev w1 x tr w2 : qtnet_step bk cbk w ev = Some (w1, x) -> qx_on w x w1 -> qx_steps bk cbk w1 tr w2 -> qx_steps bk cbk w (x :: tr) w2.

(** Nothing is under way, no connection waits to be accepted where there is a listening socket, the
    ends of streams have arrived, and everywhere nothing is left to do. *)
Definition qx_rest (tr : list qxentry) (w : qtnet) : Prop :=
  nothing_under_way (qx_net w) /\ all_accepted (qx_net w) /\ all_told (streams_of tr) (qx_net w) /\
  forall a, qt_rest (at_place a tr) (endpoint w a).
(** Somewhere an endpoint and its stubs wait for each other (C47). *)
Definition qx_jammed bk (tr : list qxentry) (w : qtnet) : Prop := exists a, qt_jammed bk (at_place a tr) (endpoint w a).
(** Wherever a call was made whose future was not dropped, it has returned what it can be answered. *)
Definition all_places_answered (tr : list qxentry) : Prop := forall a, answered_all (at_place a tr).

(** Runs without end, after the last call, in which what stays possible is not left undone for ever. *)
Definition qx_goes bk cbk L (w : qtnet) (x : qxentry) (w' : qtnet) : Prop :=
  qx_quiet L w x w' /\ exists ev, qtnet_step bk cbk w ev = Some (w', x).
Definition qx_can bk cbk (w : qtnet) : Prop := exists ev w' x, qtnet_step bk cbk w ev = Some (w', x) /\ qx_on w x w'.
Definition qx_fair bk cbk L := FairSpec.fair_run (qx_goes bk cbk L) (qx_can bk cbk) qx_on.
