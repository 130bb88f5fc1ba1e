(** Model of a v1 endpoint over TCP together with its calls: the calls and the channel of
    QueueModel.v (rsomeip/src/endpoint/v1.rs 111-141, 158-180, 233-246, 367-382, 531-559) on top of the
    runtime and the streams of TcpNodeModel.v (rsomeip/src/socket/tcp.rs).  Definitions only.

    QueueModel.v leaves what the streams do to its events; TcpNodeModel.v leaves who calls what to its
    events.  Here each step is a step of both, and they keep the same runtime. *)
From Coq Require Import List NArith Bool PeanoNat.
From Verif Require Import BytesModel SomeipModel MapModel RuntimeModel QueueModel.
From Verif Require TcpNodeModel.
Import ListNotations.
Open Scope nat_scope.

(** The calls and the channel, and the endpoint with its streams. *)
Record qtnode := mkQT { qt_calls : qst; qt_node : TcpNodeModel.tnode }.
(** 111-125: the protocol type of TCP is [Stream] (tcp.rs 97). *)
Definition qtnode_init : qtnode := mkQT (q_init false) TcpNodeModel.tnode_init.

(** [AtCalls x]: something that happens to the calls, or inside the runtime, or that the operating
    system answers to connecting, listening and accepting.  [AtStream e]: something a stream does. *)
Inductive qtevent := AtCalls (x : qevent) | AtStream (e : TcpNodeModel.tnevent).
(** What a step was for the calls, and for the endpoint over TCP. *)
Record qtlog := mkQTL { qtl_call : option qlog; qtl_node : list (TcpNodeModel.tnevent * TcpNodeModel.tentry) }.

Section Locks.
Context (bk : iid -> N) (cbk : N -> N).

(** What the runtime does, one event after the other, with the streams below it. *)
Fixpoint tnode_does (s : TcpNodeModel.tnode) (es : list event) : option (TcpNodeModel.tnode * list (TcpNodeModel.tnevent * TcpNodeModel.tentry)) :=
  match es with
  | [] => Some (s, [])
  | e :: es' =>
      match TcpNodeModel.tnode_step bk cbk s (TcpNodeModel.TRun e) with
      | Some (s', x) => option_map (fun r => (fst r, (TcpNodeModel.TRun e, x) :: snd r)) (tnode_does s' es')
      | None => None
      end
  end.

Definition qtnode_step (j : qtnode) (ev : qtevent) : option (qtnode * qtlog) :=
  match ev with
  | AtCalls x =>
      match qstep bk cbk (qt_calls j) x with
      | Some (q, o, l) =>
          match tnode_does (qt_node j) (map fst l) with
          | Some (s, xs) => Some (mkQT q s, mkQTL (Some (x, o, l)) xs)
          | None => None
          end
      | None => None
      end
  | AtStream (TcpNodeModel.TRun _) => None
  | AtStream e =>
      match TcpNodeModel.tnode_step bk cbk (qt_node j) e with
      | Some (s, x) =>
          match TcpNodeModel.te_rt x with
          | None => Some (mkQT (qt_calls j) s, mkQTL None [(e, x)])
          | Some (e', _) =>
              match qstep bk cbk (qt_calls j) (QRun e') with
              | Some (q, o, l) => Some (mkQT q s, mkQTL (Some (QRun e', o, l)) [(e, x)])
              | None => None
              end
          end
      | None => None
      end
  end.

(** A schedule run from a state: for examples. *)
Fixpoint qtnode_run (j : qtnode) (evs : list qtevent) : option (qtnode * list (qtevent * qtlog)) :=
  match evs with
  | [] => Some (j, [])
  | ev :: evs' =>
      match qtnode_step j ev with
      | Some (j', p) => option_map (fun r => (fst r, (ev, p) :: snd r)) (qtnode_run j' evs')
      | None => None
      end
  end.
End Locks.
