(** Runs without end of an endpoint with its calls, after the last call and the last packet: futures and
    handles may be dropped and sockets may fail. *)
From Coq Require Import List NArith.
From Verif Require Import RuntimeModel QueueModel QueueSpec.
From Verif Require FairSpec.

Definition q_goes bk cbk (q : qst) (p : qlog) (q' : qst) : Prop :=
  quiet p /\ qstep bk cbk q (fst (fst p)) = Some (q', snd (fst p), snd p).
Definition q_can bk cbk (q : qst) : Prop := exists x q' o l, qstep bk cbk q x = Some (q', o, l) /\ goes_on (x, o, l).
Definition q_fair bk cbk := FairSpec.fair_run (q_goes bk cbk) (q_can bk cbk) (fun _ p _ => goes_on p).
