(** What the claims about endpoints over UDP and the datagrams between them mean. *)
From Coq Require Import List NArith Bool PeanoNat.
From Verif Require Import BytesModel RuntimeModel RuntimeSpec NodeModel NodeSpec ExchangeSpec UdpNetModel FairSpec.
From Verif Require UdpModel.
Import ListNotations.
Open Scope nat_scope.

(** A history: everything that happened. *)
Inductive unet_history (bk : iid -> N) (cbk : N -> N) : list uentry -> unet -> Prop :=
| u_start : unet_history bk cbk [] unet_init
| u_more tr w ev w' x : unet_history bk cbk tr w -> unet_step bk cbk w ev = Some (w', x) -> unet_history bk cbk (tr ++ [x]) w'.
(** What happened at the endpoints. *)
Definition happened (tr : list uentry) : list (N * entry) :=
  flat_map (fun x => match x with Did a y => [(a, y)] | _ => [] end) tr.

(** The datagrams from [a] to [b] among some. *)
Definition between (a b : N) (ds : list flying) : list (list N) :=
  flat_map (fun p => if N.eqb (fst (fst p)) a && N.eqb (snd (fst p)) b then [snd p] else []) ds.
(** What was lost and what was doubled. *)
Definition lost (tr : list uentry) : list flying := flat_map (fun x => match x with Lost p => [p] | _ => [] end) tr.
Definition copied (tr : list uentry) : list flying := flat_map (fun x => match x with Copied p => [p] | _ => [] end) tr.

(** What such a network does by itself: the endpoints go on as in ExchangeSpec.v, and the datagrams
    under way arrive or are lost. *)
Definition unet_settles (ev : uevent) : Prop :=
  match ev with UAt _ e => settles e | UBring _ | ULose _ => True | UCopy _ => False end.
Inductive unet_settling (bk : iid -> N) (cbk : N -> N) : unet -> list uentry -> unet -> Prop :=
| us_none w : unet_settling bk cbk w [] w
| us_more w ev w1 x tr w2 : unet_settles ev -> unet_step bk cbk w ev = Some (w1, x) -> unet_settling bk cbk w1 tr w2 ->
                            unet_settling bk cbk w (x :: tr) w2.
Definition moved (w w' : unet) : Prop := un_flight w' <> un_flight w \/ exists a, un_node w' a <> un_node w a.
(** Datagrams are under way only to sockets that receive no more, and everywhere nothing is left to do
    and everything that arrived was read. *)
Definition unet_at_rest bk cbk (w : unet) : Prop :=
  (forall a b d, In (a, b, d) (un_flight w) -> UdpModel.u_task (n_udp (un_node w b)) = UdpModel.Stopped) /\
  forall a, at_peace bk cbk (un_node w a) /\ caught_up (un_node w a).

(** Infinite runs in which no work that stays possible is left undone for ever.  Losing a datagram is
    not work: the network may do it but need not. *)
Definition unet_goes bk cbk (w : unet) (x : uentry) (w' : unet) : Prop :=
  exists ev, unet_settles ev /\ unet_step bk cbk w ev = Some (w', x).
Definition unet_can bk cbk (w : unet) : Prop :=
  exists a x w', unet_goes bk cbk w (Did a x) w' /\ moved w w'.
Definition unet_fair bk cbk := fair_run (unet_goes bk cbk) (unet_can bk cbk) (fun w _ w' => moved w w').
