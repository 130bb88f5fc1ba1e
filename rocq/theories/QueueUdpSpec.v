(** What the claims about the calls of an endpoint over UDP mean. *)
From Coq Require Import List NArith Bool PeanoNat.
From Verif Require Import BytesModel RuntimeModel RuntimeSpec NodeModel NodeSpec ExchangeSpec QueueModel QueueSpec QueueUdpModel.
From Verif Require FairSpec.
Import ListNotations.
Open Scope nat_scope.

(** A history: everything that happened since the socket was bound and the endpoint created. *)
Inductive qn_history (bk : iid -> N) (cbk : N -> N) : list (qnevent * qnlog) -> qnode -> Prop :=
| qn_start : qn_history bk cbk [] qnode_init
| qn_more tr j ev j' p : qn_history bk cbk tr j -> qnode_step bk cbk j ev = Some (j', p) ->
                         qn_history bk cbk (tr ++ [(ev, p)]) j'.
Inductive qn_steps (bk : iid -> N) (cbk : N -> N) : qnode -> list (qnevent * qnlog) -> qnode -> Prop :=
| qns_none j : qn_steps bk cbk j [] j
| qns_more j ev p j1 tr j2 : qnode_step bk cbk j ev = Some (j1, p) -> qn_steps bk cbk j1 tr j2 ->
                             qn_steps bk cbk j ((ev, p) :: tr) j2.

(** What happened to the calls, and what happened to the endpoint and its socket. *)
Definition calls_in (tr : list (qnevent * qnlog)) : list qlog :=
  flat_map (fun p => match ql_call (snd p) with Some l => [l] | None => [] end) tr.
Definition node_in (tr : list (qnevent * qnlog)) : list entry := flat_map (fun p => ql_node (snd p)) tr.

(** What the endpoint, its tasks, its callers and its socket do by themselves.  Nobody calls anything
    new, and nothing arrives.  Reading from a queue where nothing is does not count. *)
Definition qn_on (p : qnevent * qnlog) : Prop :=
  match fst p with
  | ByCalls QStop => True
  | ByCalls _ => match ql_call (snd p) with Some l => goes_on l | None => False end
  | BySocket e => settles e
  end.
(** Everything but calls and datagrams: the above, and that futures and handles are dropped, that the
    system does not take what is sent, and that the socket fails. *)
Definition qn_quiet (p : qnevent * qnlog) : Prop :=
  match fst p with
  | ByCalls _ => match ql_call (snd p) with Some l => quiet l | None => False end
  | BySocket (NDatagram _ _) => False
  | BySocket _ => True
  end.

(** Nothing is left to do but wait for datagrams and calls. *)
Record qn_rest (bk : iid -> N) (cbk : N -> N) (j : qnode) : Prop := {
  rest_calls : at_ease (qn_calls j);
  rest_node : at_peace bk cbk (qn_node j);
  rest_socket : caught_up (qn_node j) }.
(** The endpoint and its stubs wait for each other (C47). *)
Definition qn_jammed (bk : iid -> N) (tr : list (qnevent * qnlog)) (j : qnode) : Prop :=
  exists c n, jammed bk (runtime_trace (node_in tr)) (n_rt (qn_node j)) c n.
(** Every call whose future was not dropped has returned what it can be answered. *)
Definition all_answered (tr : list (qnevent * qnlog)) : Prop :=
  forall t id to, In (MMade id to) (life t (calls_in tr)) -> ~ In MDropped (life t (calls_in tr)) ->
    exists o, In (MReturned o) (life t (calls_in tr)) /\ fits id to o.

(** Runs without end, after the last call and the last datagram. *)
Definition qn_goes bk cbk (j : qnode) (p : qnevent * qnlog) (j' : qnode) : Prop :=
  qn_quiet p /\ qnode_step bk cbk j (fst p) = Some (j', snd p).
Definition qn_can bk cbk (j : qnode) : Prop := exists ev j' p, qnode_step bk cbk j ev = Some (j', p) /\ qn_on (ev, p).
Definition qn_fair bk cbk := FairSpec.fair_run (qn_goes bk cbk) (qn_can bk cbk) (fun _ p _ => qn_on p).
