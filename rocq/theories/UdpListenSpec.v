(** What is expected of the listeners of a UDP socket, in terms of what happened to it. *)
From Coq Require Import List NArith Bool PeanoNat.
From Verif Require Import UdpModel UdpSpec.
Import ListNotations.

(** The connections listener [l] has handed out, with their peers, oldest first. *)
Fixpoint accepted (l : nat) (tr : list (event * obs)) : list (nat * N) :=
  match tr with
  | [] => []
  | (EAccept k, OAccepted c a) :: tr' => if k =? l then (c, a) :: accepted l tr' else accepted l tr'
  | _ :: tr' => accepted l tr'
  end.

(** The connections that wait to be accepted by listener [l]. *)
Definition in_line (s : udp) (l : nat) : list (nat * N) :=
  match nth_error (u_lsts s) l with Some x => l_queue x | None => [] end.

(** The listener the last call of [listen] returned. *)
Definition last_listener (tr : list (event * obs)) : option nat :=
  fold_left (fun r x => match snd x with OListening l => Some l | _ => r end) tr None.

(** The socket was dropped and its receiver task has ended. *)
Definition all_gone (tr : list (event * obs)) : Prop := In (EDropSocket, OUnit) tr /\ In (EError, OUnit) tr.

(** Connection [fst e] with peer [snd e] began with datagram [p]: it came from there, and nothing older
    was read from the connection. *)
Definition began (tr : list (event * obs)) (e : nat * N) (p : packet) : Prop :=
  arrived (snd e) tr p /\ forall q, In (ERecv (fst e), OData q) tr -> p_no p <= p_no q.
