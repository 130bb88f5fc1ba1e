(** Model of any number of v1 endpoints over TCP (TcpNodeModel.v) and the streams between them.
    Definitions only.

    [TcpSocket] binds the address it was made with before it connects and before it listens
    (rsomeip/src/socket/tcp.rs 99-119), so the peer of a connection sees that address ([accept],
    202-209).  A connection that was made waits in the backlog of the listening socket until it is
    accepted; what is written to it meanwhile is kept.  A stream keeps all bytes and their order; bytes
    arrive when the network likes, if at all; the end of the stream comes after them.
    Simplified: any address can be connected to (the model has all behaviours of the networks in
    which some cannot, and more), and the backlog has no bound or order. *)
From Coq Require Import List NArith Bool PeanoNat.
From Verif Require Import BytesModel RuntimeModel TcpModel TcpNodeModel.
Import ListNotations.
Open Scope nat_scope.

(** One stream in both directions: connection [w_fc] of endpoint [w_from] was made to the address
    [w_to]; once accepted there, it is connection [w_tc] of that endpoint.  [w_there], [w_back]: the
    bytes under way. *)
Record wire := mkWire { w_from : N; w_fc : nat; w_to : N; w_tc : option nat; w_there : list N; w_back : list N }.
Definition w_with_tc c x := mkWire (w_from x) (w_fc x) (w_to x) (Some c) (w_there x) (w_back x).
Definition w_with_there d x := mkWire (w_from x) (w_fc x) (w_to x) (w_tc x) d (w_back x).
Definition w_with_back d x := mkWire (w_from x) (w_fc x) (w_to x) (w_tc x) (w_there x) d.

Record tnet := mkNet { tn_node : N -> tnode; tn_wires : list wire }.
Definition tnet_init : tnet := mkNet (fun _ => tnode_init) [].
Definition set_tnode (a : N) (s : tnode) (f : N -> tnode) : N -> tnode := fun b => if N.eqb b a then s else f b.

Inductive tnet_event :=
| WRun (a : N) (e : tnevent)        (* endpoint [a] does [e], in which nothing comes from the network *)
| WAccept (a : N) (l i : nat)       (* listening socket [l] of [a] returns the connection that is wire [i] *)
| WThere (i n : nat)                (* [n] bytes of wire [i] arrive at the endpoint that accepted it *)
| WBack (i n : nat)                 (* ... at the endpoint that made it *)
| WEndThere (i : nat)               (* the end of the stream arrives at the endpoint that accepted it *)
| WEndBack (i : nat).               (* ... at the endpoint that made it *)

(** Events that depend on the network. *)
Definition from_network (e : tnevent) : bool :=
  match e with TBytes _ _ | TEnd _ | TRun (EAccept _ _) => true | _ => false end.

(** What is written to connection [c] of [a] goes under way. *)
Definition carry (a : N) (c : nat) (out : list N) (x : wire) : wire :=
  if N.eqb (w_from x) a && (w_fc x =? c) then w_with_there (w_there x ++ out) x
  else match w_tc x with
       | Some d => if N.eqb (w_to x) a && (d =? c) then w_with_back (w_back x ++ out) x else x
       | None => x
       end.
(** The task of connection [c] of the endpoint has ended: both halves of its stream are dropped. *)
Definition dropped_conn (s : tnode) (c : nat) : bool :=
  match nth_error (r_conns (t_rt s)) c with Some x => negb (c_alive x) | None => false end.

Section Locks.
Context (bk : iid -> N) (cbk : N -> N).

Definition tnet_step (w : tnet) (e : tnet_event) : option (tnet * (N * (tnevent * tentry))) :=
  let at_ a e ws :=
    match tnode_step bk cbk (tn_node w a) e with
    | Some (s, x) => Some (mkNet (set_tnode a s (tn_node w)) (ws x), (a, (e, x)))
    | None => None
    end in
  match e with
  | WRun a e =>
      if from_network e then None
      else at_ a e (fun x =>
        (match e with TWrite c _ => map (carry a c (te_out x)) (tn_wires w) | _ => tn_wires w end) ++
        (match te_rt x with Some (_, OSpawned c b) => [mkWire a c b None [] []] | _ => [] end))
  | WAccept a l i =>
      match nth_error (tn_wires w) i with
      | Some y =>
          match w_tc y with
          | None => if N.eqb (w_to y) a then
                      at_ a (TRun (EAccept l (w_from y))) (fun x =>
                        match te_rt x with Some (_, OSpawned c _) => upd i (w_with_tc c) (tn_wires w) | _ => tn_wires w end)
                    else None
          | Some _ => None
          end
      | None => None
      end
  | WThere i n =>
      match nth_error (tn_wires w) i with
      | Some y => match w_tc y with
                  | Some c => at_ (w_to y) (TBytes c (firstn n (w_there y))) (fun _ => upd i (w_with_there (skipn n (w_there y))) (tn_wires w))
                  | None => None
                  end
      | None => None
      end
  | WBack i n =>
      match nth_error (tn_wires w) i with
      | Some y => at_ (w_from y) (TBytes (w_fc y) (firstn n (w_back y))) (fun _ => upd i (w_with_back (skipn n (w_back y))) (tn_wires w))
      | None => None
      end
  | WEndThere i =>
      match nth_error (tn_wires w) i with
      | Some y => match w_tc y, w_there y with
                  | Some c, [] => if dropped_conn (tn_node w (w_from y)) (w_fc y) then at_ (w_to y) (TEnd c) (fun _ => tn_wires w) else None
                  | _, _ => None
                  end
      | None => None
      end
  | WEndBack i =>
      match nth_error (tn_wires w) i with
      | Some y => match w_tc y, w_back y with
                  | Some c, [] => if dropped_conn (tn_node w (w_to y)) c then at_ (w_from y) (TEnd (w_fc y)) (fun _ => tn_wires w) else None
                  | _, _ => None
                  end
      | None => None
      end
  end.

(** A schedule run from a state: for examples. *)
Fixpoint tnet_run (w : tnet) (es : list tnet_event) : option (tnet * list (N * (tnevent * tentry))) :=
  match es with
  | [] => Some (w, [])
  | e :: es' =>
      match tnet_step w e with
      | Some (w', x) => option_map (fun r => (fst r, x :: snd r)) (tnet_run w' es')
      | None => None
      end
  end.

End Locks.
