(** What is expected of a UDP socket, in terms of what happened to it: a trace is the list of
    events and answers since it was bound, oldest first. *)
From Coq Require Import List NArith Bool PeanoNat Sorted.
From Verif Require Import UdpModel.
Import ListNotations.

(** The datagrams that arrived, with their sources, cut to the buffer of the socket. *)
Fixpoint arrivals (tr : list (event * obs)) : list (N * list N) :=
  match tr with
  | [] => []
  | (EPacket a data, _) :: tr' => (a, firstn 1400 data) :: arrivals tr'
  | _ :: tr' => arrivals tr'
  end.

(** [p] is the datagram number [p_no p] of the trace, and it came from [a]. *)
Definition arrived (a : N) (tr : list (event * obs)) (p : packet) : Prop :=
  nth_error (arrivals tr) (p_no p) = Some (a, p_data p).

(** The datagrams from [a], in order, when the first arrival of the trace has number [n]. *)
Fixpoint packets_from (a : N) (n : nat) (tr : list (event * obs)) : list packet :=
  match tr with
  | [] => []
  | (EPacket b data, _) :: tr' =>
      if N.eqb a b then mkP n (firstn 1400 data) :: packets_from a (S n) tr' else packets_from a (S n) tr'
  | _ :: tr' => packets_from a n tr'
  end.

Definition in_order (ps : list packet) : Prop := StronglySorted (fun p q => p_no p < p_no q) ps.

(** What the calls of [recv] on receiver [c] returned. *)
Fixpoint received (c : nat) (tr : list (event * obs)) : list obs :=
  match tr with
  | [] => []
  | (ERecv c', o) :: tr' => if c' =? c then o :: received c tr' else received c tr'
  | _ :: tr' => received c tr'
  end.

(** The datagrams among some answers. *)
Fixpoint data_of (os : list obs) : list packet :=
  match os with
  | [] => []
  | OData p :: os' => p :: data_of os'
  | _ :: os' => data_of os'
  end.

(** Every datagram handed to any receiver, in the order they were handed out. *)
Fixpoint delivered (tr : list (event * obs)) : list packet :=
  match tr with
  | [] => []
  | (_, OData p) :: tr' => p :: delivered tr'
  | _ :: tr' => delivered tr'
  end.

(** The connections handed out, by [connect] and by [accept], with their peers. *)
Fixpoint opened (tr : list (event * obs)) : list (nat * N) :=
  match tr with
  | [] => []
  | (EConnect a, OConnected c) :: tr' => (c, a) :: opened tr'
  | (_, OAccepted c a) :: tr' => (c, a) :: opened tr'
  | _ :: tr' => opened tr'
  end.

(** [reads q os rest]: a receiver that is owed [q] and got the answers [os] is still owed [rest].
    Data is the oldest datagram owed; a lag report skips exactly as many as it says. *)
Inductive reads : list packet -> list obs -> list packet -> Prop :=
| reads_nil q : reads q [] q
| reads_data p q os r : reads q os r -> reads (p :: q) (OData p :: os) r
| reads_lagged skipped q os r : reads q os r -> reads (skipped ++ q) (OLagged (length skipped) :: os) r
| reads_pending q os r : reads q os r -> reads q (OPending :: os) r
| reads_closed q os r : reads q os r -> reads q (OClosed :: os) r.

(** The answer due to a receiver that is owed [q] and can buffer [cap]; [closed]: nothing more
    can come. *)
Definition due (cap : nat) (closed : bool) (q : list packet) : obs :=
  if cap <? length q then OLagged (length q - cap)
  else match q with
       | p :: _ => OData p
       | [] => if closed then OClosed else OPending
       end.

(** The task is not in the middle of a datagram from [a]. *)
Definition quiet (s : udp) (a : N) : Prop :=
  match u_task s with
  | Idle | Stopped => True
  | Arrived _ b | Got _ b _ | Failed _ b | NewConn _ b | Queued _ b _ | Sent b _ => b <> a
  end.

(** Nobody is registered for [a], or nobody who still listens. *)
Definition unknown_peer (s : udp) (a : N) : Prop :=
  forall c, MapModel.map_get N.eqb a (u_receivers s) = Some c ->
  forall ch, nth_error (u_chans s) c = Some ch -> c_rx ch = false.
