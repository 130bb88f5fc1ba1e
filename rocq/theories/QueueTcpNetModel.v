(** Model of any number of v1 endpoints over TCP, of their calls, and of the streams between them: the
    calls of each endpoint are those of QueueModel.v (rsomeip/src/endpoint/v1.rs 111-141, 158-180,
    233-246, 367-382, 531-559), and the endpoints and the streams, of which the network is not code of
    the repository, are those of TcpNetModel.v.  Definitions only. *)
From Coq Require Import List NArith Bool PeanoNat.
From Verif Require Import BytesModel RuntimeModel QueueModel TcpNodeModel TcpNetModel QueueTcpModel.
Import ListNotations.
Open Scope nat_scope.

(** The calls and the channel at each address, and the endpoints with the streams between them. *)
Record qtnet := mkQX { qx_calls : N -> qst; qx_net : tnet }.
(** v1.rs 111-125: the protocol type of TCP is [Stream] (tcp.rs 97). *)
Definition qtnet_init : qtnet := mkQX (fun _ => q_init false) tnet_init.
Definition set_calls (a : N) (q : qst) (f : N -> qst) : N -> qst := fun b => if N.eqb b a then q else f b.

(** [XCalls a x]: something that happens at [a] to the calls or inside the runtime, or that the
    operating system answers to connecting and listening.  [XStreams e]: a stream is read or written
    ([WRun]), a connection is accepted, bytes arrive, or the end of a stream does. *)
Inductive qxevent := XCalls (a : N) (x : qevent) | XStreams (e : tnet_event).
(** What happened, and where; as for one endpoint (QueueTcpModel.v). *)
Definition qxentry : Type := N * (qtevent * qtlog).

Section Locks.
Context (bk : iid -> N) (cbk : N -> N).

(** What the runtime at [a] does, one event after the other, with the streams below it. *)
Fixpoint tnet_does (a : N) (w : tnet) (es : list event) : option (tnet * list (tnevent * tentry)) :=
  match es with
  | [] => Some (w, [])
  | e :: es' =>
      match tnet_step bk cbk w (WRun a (TRun e)) with
      | Some (w', (_, x)) => option_map (fun r => (fst r, x :: snd r)) (tnet_does a w' es')
      | None => None
      end
  end.

Definition qtnet_step (w : qtnet) (ev : qxevent) : option (qtnet * qxentry) :=
  match ev with
  | XCalls a x =>
      match qstep bk cbk (qx_calls w a) x with
      | Some (q, o, l) =>
          match tnet_does a (qx_net w) (map fst l) with
          | Some (v, xs) => Some (mkQX (set_calls a q (qx_calls w)) v, (a, (AtCalls x, mkQTL (Some (x, o, l)) xs)))
          | None => None
          end
      | None => None
      end
  | XStreams (WRun _ (TRun _)) => None
  | XStreams e =>
      match tnet_step bk cbk (qx_net w) e with
      | Some (v, (a, (e, x))) =>
          let ev := match e with TRun f => AtCalls (QRun f) | _ => AtStream e end in
          match te_rt x with
          | None => Some (mkQX (qx_calls w) v, (a, (ev, mkQTL None [(e, x)])))
          | Some (f, _) =>
              match qstep bk cbk (qx_calls w a) (QRun f) with
              | Some (q, o, l) => Some (mkQX (set_calls a q (qx_calls w)) v, (a, (ev, mkQTL (Some (QRun f, o, l)) [(e, x)])))
              | None => None
              end
          end
      | None => None
      end
  end.

(** A schedule run from a state: for examples. *)
Fixpoint qtnet_run (w : qtnet) (evs : list qxevent) : option (qtnet * list qxentry) :=
  match evs with
  | [] => Some (w, [])
  | ev :: evs' =>
      match qtnet_step w ev with
      | Some (w', x) => option_map (fun r => (fst r, x :: snd r)) (qtnet_run w' evs')
      | None => None
      end
  end.
End Locks.
