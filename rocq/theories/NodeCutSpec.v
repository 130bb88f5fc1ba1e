(** What it means that a read of a connection gave something: a packet, or that packets were lost. *)
From Coq Require Import Bool PeanoNat.
From Verif Require Import RuntimeModel.

Definition gave (c : nat) (p : event * obs) : bool :=
  match fst p with EPacket d _ | ELagged d => d =? c | _ => false end.
