(** Model of any number of v1 endpoints over UDP, of their calls, and of the datagrams between them:
    the endpoints with their calls are those of QueueUdpModel.v, one for each address, and the network,
    which is not code of the repository, is the one of UdpNetModel.v.  Definitions only. *)
From Coq Require Import List NArith Bool PeanoNat.
From Verif Require Import BytesModel RuntimeModel QueueModel UdpNetModel QueueUdpModel.
From Verif Require NodeModel.
Import ListNotations.
Open Scope nat_scope.

(** Who is where, and the datagrams that are under way. *)
Record qnet := mkQW { qw_node : N -> qnode; qw_flight : list flying }.
Definition qnet_init : qnet := mkQW (fun _ => qnode_init) [].

Inductive qwevent :=
| WAt (a : N) (ev : qnevent)    (* something happens at the endpoint at [a]: to its calls, its tasks or its socket *)
| WBring (i : nat)              (* the datagram at place [i] arrives (udp.rs 385) *)
| WLose (i : nat)               (* it is lost *)
| WCopy (i : nat).              (* it is doubled *)
(** What happened: something at an endpoint, or something the endpoints do not see. *)
Inductive qwentry := WDid (a : N) (p : qnevent * qnlog) | WLost (d : flying) | WCopied (d : flying).

Definition set_qnode (a : N) (j : qnode) (f : N -> qnode) : N -> qnode := fun b => if N.eqb b a then j else f b.
(** The datagrams the socket at [a] sent in a step (udp.rs 177-187). *)
Definition sent_in (a : N) (p : qnlog) : list flying :=
  flat_map (fun x => match NodeModel.e_out x with Some (b, d) => [(a, b, d)] | None => [] end) (ql_node p).

Section Locks.
Context (bk : iid -> N) (cbk : N -> N).

Definition qnet_step (w : qnet) (ev : qwevent) : option (qnet * qwentry) :=
  match ev with
  | WAt a (BySocket (NodeModel.NDatagram _ _)) => None
  | WAt a e =>
      match qnode_step bk cbk (qw_node w a) e with
      | Some (j, p) => Some (mkQW (set_qnode a j (qw_node w)) (qw_flight w ++ sent_in a p), WDid a (e, p))
      | None => None
      end
  | WBring i =>
      match nth_error (qw_flight w) i with
      | Some (a, b, d) =>
          let e := BySocket (NodeModel.NDatagram a d) in
          match qnode_step bk cbk (qw_node w b) e with
          | Some (j, p) => Some (mkQW (set_qnode b j (qw_node w)) (cut i (qw_flight w)), WDid b (e, p))
          | None => None
          end
      | None => None
      end
  | WLose i =>
      match nth_error (qw_flight w) i with
      | Some d => Some (mkQW (qw_node w) (cut i (qw_flight w)), WLost d)
      | None => None
      end
  | WCopy i =>
      match nth_error (qw_flight w) i with
      | Some d => Some (mkQW (qw_node w) (qw_flight w ++ [d]), WCopied d)
      | None => None
      end
  end.

(** A schedule run from a state: for examples. *)
Fixpoint qnet_run (w : qnet) (evs : list qwevent) : option (qnet * list qwentry) :=
  match evs with
  | [] => Some (w, [])
  | ev :: evs' =>
      match qnet_step w ev with
      | Some (w', x) => option_map (fun r => (fst r, x :: snd r)) (qnet_run w' evs')
      | None => None
      end
  end.
End Locks.
