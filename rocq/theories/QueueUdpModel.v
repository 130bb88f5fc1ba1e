(** Model of a v1 endpoint over UDP together with its calls: the calls and the channel of
    QueueModel.v (rsomeip/src/endpoint/v1.rs 111-141, 158-180, 233-246, 367-382, 531-559) on top of the
    runtime and the socket of NodeModel.v (rsomeip/src/socket/udp.rs).  Definitions only.

    QueueModel.v leaves what the sockets do to its events; NodeModel.v leaves who calls what to its
    events.  Here each step is a step of both, and they keep the same runtime. *)
From Coq Require Import List NArith Bool PeanoNat.
From Verif Require Import BytesModel SomeipModel MapModel RuntimeModel QueueModel.
From Verif Require NodeModel.
Import ListNotations.
Open Scope nat_scope.

(** The calls and the channel, and the endpoint with its socket. *)
Record qnode := mkQN { qn_calls : qst; qn_node : NodeModel.node }.
(** 111-125: the protocol type of UDP is [Datagram] (udp.rs 138). *)
Definition qnode_init : qnode := mkQN (q_init true) NodeModel.node_init.

(** [ByCalls x]: something that happens to the calls, or inside the runtime.  [BySocket e]: something
    the socket does or answers. *)
Inductive qnevent := ByCalls (x : qevent) | BySocket (e : NodeModel.nevent).
(** What a step was for the calls, and for the endpoint over UDP. *)
Record qnlog := mkQL { ql_call : option qlog; ql_node : list NodeModel.entry }.

Section Locks.
Context (bk : iid -> N) (cbk : N -> N).

(** What the runtime does, one event after the other, with the socket below it. *)
Fixpoint node_does (s : NodeModel.node) (es : list event) : option (NodeModel.node * list NodeModel.entry) :=
  match es with
  | [] => Some (s, [])
  | e :: es' =>
      match NodeModel.node_step bk cbk s (NodeModel.NRun e) with
      | Some (s', x) => option_map (fun r => (fst r, x :: snd r)) (node_does s' es')
      | None => None
      end
  end.

(** The socket belongs to the endpoint task (113) and is dropped when that returns (381). *)
Definition may_drop (e : NodeModel.nevent) (q : qst) : bool :=
  match e with NodeModel.NDropSocket => q_over q | _ => true end.

Definition qnode_step (j : qnode) (ev : qnevent) : option (qnode * qnlog) :=
  match ev with
  | ByCalls x =>
      match qstep bk cbk (qn_calls j) x with
      | Some (q, o, l) =>
          match node_does (qn_node j) (map fst l) with
          | Some (s, xs) => Some (mkQN q s, mkQL (Some (x, o, l)) xs)
          | None => None
          end
      | None => None
      end
  | BySocket (NodeModel.NRun _) => None
  | BySocket e =>
      if may_drop e (qn_calls j) then
        match NodeModel.node_step bk cbk (qn_node j) e with
        | Some (s, x) =>
            match NodeModel.e_rt x with
            | None => Some (mkQN (qn_calls j) s, mkQL None [x])
            | Some (e', _) =>
                match qstep bk cbk (qn_calls j) (QRun e') with
                | Some (q, o, l) => Some (mkQN q s, mkQL (Some (QRun e', o, l)) [x])
                | None => None
                end
            end
        | None => None
        end
      else None
  end.

(** A schedule run from a state: for examples. *)
Fixpoint qnode_run (j : qnode) (evs : list qnevent) : option (qnode * list (qnevent * qnlog)) :=
  match evs with
  | [] => Some (j, [])
  | ev :: evs' =>
      match qnode_step j ev with
      | Some (j', p) => option_map (fun r => (fst r, (ev, p) :: snd r)) (qnode_run j' evs')
      | None => None
      end
  end.
End Locks.
