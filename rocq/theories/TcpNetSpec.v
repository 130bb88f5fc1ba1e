(** What the claims about endpoints over TCP and the streams between them mean. *)
From Coq Require Import List NArith Bool PeanoNat.
From Verif Require Import BytesModel WireSpec SomeipModel SomeipSpec RuntimeModel RuntimeSpec NodeSpec TcpModel TcpSpec TcpNodeModel TcpNodeSpec TcpRestSpec TcpNetModel.
Import ListNotations.
Open Scope nat_scope.

(** A history: everything that happened, and where. *)
Inductive tnet_history (bk : iid -> N) (cbk : N -> N) : list (N * (tnevent * tentry)) -> tnet -> Prop :=
| tw_start : tnet_history bk cbk [] tnet_init
| tw_more tr w e w' x : tnet_history bk cbk tr w -> tnet_step bk cbk w e = Some (w', x) -> tnet_history bk cbk (tr ++ [x]) w'.
(** What happened at [a], and in its runtime. *)
Definition at_tcp (a : N) (tr : list (N * (tnevent * tentry))) : list (tnevent * tentry) :=
  flat_map (fun p => if N.eqb (fst p) a then [snd p] else []) tr.
Definition rt_tcp (a : N) (tr : list (N * (tnevent * tentry))) : list (event * obs) := tcp_trace (at_tcp a tr).

(** Connection [c] of [a] and connection [d] of [b] are the two ends of a stream. *)
Definition joined (w : tnet) (a : N) (c : nat) (b : N) (d : nat) : Prop :=
  exists x, In x (tn_wires w) /\
  ((w_from x = a /\ w_fc x = c /\ w_to x = b /\ w_tc x = Some d) \/ (w_from x = b /\ w_fc x = d /\ w_to x = a /\ w_tc x = Some c)).

(** All that endpoint [a] was asked to send is of the program's types and fits in a length field, and
    every read of a connection at [b] stopped where a message stops. *)
Definition ordinary_at (a : N) (tr : list (N * (tnevent * tentry))) : Prop := forall c, Forall ordinary (accepted c (rt_tcp a tr)).
Definition never_cut (w : tnet) (tr : list (N * (tnevent * tentry))) : Prop :=
  forall a c b d, joined w a c b d -> between_messages (accepted c (rt_tcp a tr)) (reads d (at_tcp b tr)).
(** Nothing is under way between ends that are joined. *)
Definition nothing_under_way (w : tnet) : Prop :=
  forall x, In x (tn_wires w) -> w_tc x <> None -> w_there x = [] /\ w_back x = [].

(** What such a network does by itself: the endpoints go on as in TcpRestSpec.v, connections are
    accepted, and what is under way arrives. *)
Definition net_settles (w : tnet) (e : tnet_event) : Prop :=
  match e with WRun a e => tcp_settles (tn_node w a) e | _ => True end.
Inductive net_settling (bk : iid -> N) (cbk : N -> N) : tnet -> list (N * (tnevent * tentry)) -> tnet -> Prop :=
| ns_none w : net_settling bk cbk w [] w
| ns_more w e w1 x tr w2 : net_settles w e -> tnet_step bk cbk w e = Some (w1, x) -> net_settling bk cbk w1 tr w2 ->
                           net_settling bk cbk w (x :: tr) w2.
Definition changed (w w' : tnet) : Prop := tn_wires w' <> tn_wires w \/ exists a, tn_node w' a <> tn_node w a.
(** A connection that was made and not accepted was made to where nothing listens. *)
Definition all_accepted (w : tnet) : Prop :=
  forall x, In x (tn_wires w) -> w_tc x = None -> forall l y, nth_error (r_lsnrs (t_rt (tn_node w (w_to x)))) l = Some y -> l_alive y = false.
(** If one end of a stream no longer runs, the end of the stream has arrived at the other. *)
Definition all_told (tr : list (N * (tnevent * tentry))) (w : tnet) : Prop :=
  forall a c b d, joined w a c b d -> ~ conn_runs (t_rt (tn_node w a)) c -> peer_closed d (at_tcp b tr).
(** Nothing is under way and, everywhere, nothing is left to do and everything that arrived was read. *)
Definition net_at_rest (tr : list (N * (tnevent * tentry))) (w : tnet) : Prop :=
  nothing_under_way w /\ all_accepted w /\ all_told tr w /\ forall a, idle (t_rt (tn_node w a)) /\ all_read (at_tcp a tr) (tn_node w a).
