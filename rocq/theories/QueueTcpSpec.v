(** What the claims about the calls of an endpoint over TCP mean. *)
From Coq Require Import List NArith Bool PeanoNat.
From Verif Require Import BytesModel RuntimeModel RuntimeSpec TcpModel TcpSpec TcpNodeModel TcpNodeSpec TcpRestSpec QueueModel QueueSpec QueueTcpModel.
From Verif Require FairSpec.
Import ListNotations.
Open Scope nat_scope.

(** A history: everything that happened since the endpoint was created. *)
Inductive qt_history (bk : iid -> N) (cbk : N -> N) : list (qtevent * qtlog) -> qtnode -> Prop :=
| qt_start : qt_history bk cbk [] qtnode_init
| qt_more tr j ev j' p : qt_history bk cbk tr j -> qtnode_step bk cbk j ev = Some (j', p) ->
                         qt_history bk cbk (tr ++ [(ev, p)]) j'.

(** What happened to the calls, and what happened to the endpoint and its streams. *)
Definition calls_at (tr : list (qtevent * qtlog)) : list qlog :=
  flat_map (fun p => match qtl_call (snd p) with Some l => [l] | None => [] end) tr.
Definition node_at (tr : list (qtevent * qtlog)) : list (tnevent * tentry) := flat_map (fun p => qtl_node (snd p)) tr.

(** What the endpoint, its tasks, its callers and its streams do by themselves.  Nobody calls anything
    new, nothing arrives, and the streams give and take as they should.  Reading where nothing is does
    not count, nor does a stream that takes nothing. *)
Definition qt_on (j : qtnode) (p : qtevent * qtlog) (j' : qtnode) : Prop :=
  match fst p with
  | AtCalls _ => match qtl_call (snd p) with Some l => goes_on l | None => False end
  | AtStream e => tcp_settles (qt_node j) e /\ qt_node j' <> qt_node j
  end.
(** Everything but calls, bytes and connections that arrive: the above, and that futures and handles
    are dropped, that streams fail, take nothing or are closed by the peer. *)
Definition qt_quiet (p : qtevent * qtlog) : Prop :=
  match fst p with
  | AtCalls _ => match qtl_call (snd p) with Some l => quiet l | None => False end
  | AtStream (TBytes _ _) => False
  | AtStream _ => True
  end.

(** Nothing is left to do but wait for bytes, connections and calls. *)
Record qt_rest (tr : list (qtevent * qtlog)) (j : qtnode) : Prop := {
  rest_calls : at_ease (qt_calls j);
  rest_read : all_read (node_at tr) (qt_node j) }.
(** The endpoint and its stubs wait for each other (C47). *)
Definition qt_jammed (bk : iid -> N) (tr : list (qtevent * qtlog)) (j : qtnode) : Prop :=
  exists c n, jammed bk (tcp_trace (node_at tr)) (t_rt (qt_node j)) c n.
(** Every call whose future was not dropped has returned what it can be answered. *)
Definition answered_all (tr : list (qtevent * qtlog)) : Prop :=
  forall t id to, In (MMade id to) (life t (calls_at tr)) -> ~ In MDropped (life t (calls_at tr)) ->
    exists o, In (MReturned o) (life t (calls_at tr)) /\ fits id to o.

(** One step after the other of what they do by themselves. *)
Inductive qt_steps (bk : iid -> N) (cbk : N -> N) : qtnode -> list (qtevent * qtlog) -> qtnode -> Prop :=
| qts_none j : qt_steps bk cbk j [] j
| qts_more j ev p j1 tr j2 : qtnode_step bk cbk j ev = Some (j1, p) -> qt_on j (ev, p) j1 -> qt_steps bk cbk j1 tr j2 ->
                             qt_steps bk cbk j ((ev, p) :: tr) j2.

(** Runs without end, after the last call, the last byte and the last connection. *)
Definition qt_goes bk cbk (j : qtnode) (p : qtevent * qtlog) (j' : qtnode) : Prop :=
  qt_quiet p /\ qtnode_step bk cbk j (fst p) = Some (j', snd p).
Definition qt_can bk cbk (j : qtnode) : Prop := exists ev j' p, qtnode_step bk cbk j ev = Some (j', p) /\ qt_on j (ev, p) j'.
Definition qt_fair bk cbk := FairSpec.fair_run (qt_goes bk cbk) (qt_can bk cbk) qt_on.
