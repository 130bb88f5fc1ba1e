(** What the claims about the calls of an endpoint mean, in terms of schedules and what was observed
    in them. *)
From Coq Require Import List NArith Bool PeanoNat.
From Verif Require Import BytesModel SomeipModel MapModel RuntimeModel RuntimeSpec QueueModel.
Import ListNotations.
Open Scope nat_scope.

(** A history: everything that happened since the endpoint was created, in any order that is
    possible; what happens from a state on. *)
Inductive qhistory (bk : iid -> N) (cbk : N -> N) (datagram : bool) : list qlog -> qst -> Prop :=
| q_start : qhistory bk cbk datagram [] (q_init datagram)
| q_more tr q x q' o l : qhistory bk cbk datagram tr q -> qstep bk cbk q x = Some (q', o, l) ->
                         qhistory bk cbk datagram (tr ++ [(x, o, l)]) q'.
Inductive qsteps (bk : iid -> N) (cbk : N -> N) : qst -> list qlog -> qst -> Prop :=
| qs_none q : qsteps bk cbk q [] q
| qs_more q x o l q1 tr q2 : qstep bk cbk q x = Some (q1, o, l) -> qsteps bk cbk q1 tr q2 ->
                             qsteps bk cbk q ((x, o, l) :: tr) q2.

(** What the runtime of [RuntimeModel] did. *)
Definition rt_trace (tr : list qlog) : list (event * obs) := flat_map snd tr.
(** What was observed. *)
Definition seen (p : qlog) : qobs := snd (fst p).

(** The commands that got a place in the channel, that the endpoint task took, and that it finished,
    in order, with whose they are. *)
Definition entered (tr : list qlog) : list (qfrom * ecmd) :=
  flat_map (fun p => match seen p with QEntered f c => [(f, c)] | _ => [] end) tr.
Definition taken (tr : list qlog) : list (qfrom * ecmd) :=
  flat_map (fun p => match seen p with QTaken f c => [(f, c)] | _ => [] end) tr.
Definition finished (tr : list qlog) : list (qfrom * ecmd) :=
  flat_map (fun p => match seen p with QDone f c _ => [(f, c)] | _ => [] end) tr.

(** The life of call [t] of [serve] (no address) or [proxy]. *)
Inductive mark := MMade (id : iid) (to : option N) | MEntered | MTaken | MDone (o : obs) | MReturned (o : obs) | MDropped.
Definition mark_of (t : nat) (p : qlog) : list mark :=
  let only u m := if u =? t then [m] else [] in
  match p with
  | (QCall id to, QMade u, _) => only u (MMade id to)
  | (_, QEntered (FCall u) _, _) => only u MEntered
  | (_, QTaken (FCall u) _, _) => only u MTaken
  | (_, QDone (FCall u) _ o, _) => only u (MDone o)
  | (_, QReturned u o, _) => only u (MReturned o)
  | (QDrop (FCall u), _, _) => only u MDropped
  | _ => []
  end.
Definition life (t : nat) (tr : list qlog) : list mark := flat_map (mark_of t) tr.

(** The lives a call can have: it returns what its execution gave, or its future is dropped: before
    its command is in the channel, before the endpoint task takes it, before it is finished, or
    before the answer is fetched. *)
Definition whole_life (id : iid) (to : option N) (o : obs) (l : list mark) : Prop :=
  l = [MMade id to; MEntered; MTaken; MDone o; MReturned o] \/
  l = [MMade id to; MDropped] \/
  l = [MMade id to; MEntered; MDropped; MTaken; MDone o] \/
  l = [MMade id to; MEntered; MTaken; MDropped; MDone o] \/
  l = [MMade id to; MEntered; MTaken; MDone o; MDropped].
(** What a call for [id] can be answered. *)
Definition fits (id : iid) (to : option N) (o : obs) : Prop :=
  match to with
  | None => exists n, o = OStub n id
  | Some a => exists n, o = OProxy n id a
  end \/ o = OExists \/ o = OError.

(** Call [t] gave its caller [o], or will when the caller looks. *)
Definition has_answer (t : nat) (o : obs) (tr : list qlog) : Prop :=
  In (MDone o) (life t tr) /\ ~ In MDropped (life t tr).

(** What the tasks and the callers do by themselves: reading and going on, with sockets that succeed.
    Reading from a queue where nothing is does not count. *)
Definition acts (p : qlog) : bool :=
  match p with (QRun _, _, [(_, OPending)]) | (QRun _, _, [(_, OClosed)]) => false | _ => true end.
Definition goes_on (p : qlog) : Prop :=
  match p with
  | (QEnter _, _, _) | (QTake, _, _) | (QGo true, _, _) | (QReturn _, _, _) => True
  | (QRun e, _, _) => cooperative e /\ acts p = true
  | _ => False
  end.
(** Everything but calls and what arrives from the network: the above, and that futures and handles are
    dropped and sockets fail. *)
Definition quiet (p : qlog) : Prop :=
  match p with (QCall _ _, _, _) => False | (QRun e, _, _) => brings e = None | _ => True end.
(** Nothing is left to do but wait for packets, connections and calls. *)
Record at_ease (q : qst) : Prop := {
  ease_rt : idle (q_rt q);
  ease_chan : q_chan q = [] /\ q_now q = None;
  ease_calls : forall k, In k (q_calls q) -> k_stat k = COver }.
