(** Model of any number of endpoints over UDP and of the datagrams between them.  The endpoints are
    those of NodeModel.v, one for each address; the network is not code of the repository.
    Definitions only.

    NodeModel.v says of the network only that it invents nothing.  Here it holds the datagrams that
    are under way, so that there is a time at which none is.  It brings them in any order, loses them
    and copies them. *)
From Coq Require Import List NArith Bool PeanoNat.
From Verif Require Import BytesModel RuntimeModel NodeModel.
Import ListNotations.
Open Scope nat_scope.

(** A datagram: source, destination, contents. *)
Definition flying := (N * N * list N)%type.
Record unet := mkUN { un_node : N -> node; un_flight : list flying }.
Definition unet_init : unet := mkUN (fun _ => node_init) [].

Inductive uevent :=
| UAt (a : N) (e : nevent)      (* the endpoint at [a] takes a step of its own *)
| UBring (i : nat)              (* the datagram at place [i] arrives (udp.rs 385) *)
| ULose (i : nat)               (* it is lost *)
| UCopy (i : nat).              (* it is doubled *)
(** What happened: a step of an endpoint, or something the endpoints do not see. *)
Inductive uentry := Did (a : N) (x : entry) | Lost (d : flying) | Copied (d : flying).

Fixpoint cut {A} (i : nat) (l : list A) : list A :=
  match l, i with
  | [], _ => []
  | _ :: l, 0 => l
  | x :: l, S i => x :: cut i l
  end.

Section Locks.
Context (bk : iid -> N) (cbk : N -> N).

Definition unet_step (w : unet) (ev : uevent) : option (unet * uentry) :=
  match ev with
  | UAt a (NDatagram _ _) => None
  | UAt a e =>
      match node_step bk cbk (un_node w a) e with
      | Some (s, x) =>
          Some (mkUN (net_set a s (un_node w))
                     (un_flight w ++ match e_out x with Some (b, d) => [(a, b, d)] | None => [] end), Did a x)
      | None => None
      end
  | UBring i =>
      match nth_error (un_flight w) i with
      | Some (a, b, d) =>
          match node_step bk cbk (un_node w b) (NDatagram a d) with
          | Some (s, x) => Some (mkUN (net_set b s (un_node w)) (cut i (un_flight w)), Did b x)
          | None => None
          end
      | None => None
      end
  | ULose i =>
      match nth_error (un_flight w) i with
      | Some p => Some (mkUN (un_node w) (cut i (un_flight w)), Lost p)
      | None => None
      end
  | UCopy i =>
      match nth_error (un_flight w) i with
      | Some p => Some (mkUN (un_node w) (un_flight w ++ [p]), Copied p)
      | None => None
      end
  end.

(** A schedule run from a state: for examples. *)
Fixpoint unet_run (w : unet) (evs : list uevent) : option (unet * list uentry) :=
  match evs with
  | [] => Some (w, [])
  | ev :: evs' =>
      match unet_step w ev with
      | Some (w', x) => option_map (fun r => (fst r, x :: snd r)) (unet_run w' evs')
      | None => None
      end
  end.

End Locks.
