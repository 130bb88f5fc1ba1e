(** Model of a v1 endpoint whose connector is a [TcpSocket] (rsomeip/src/endpoint/v1.rs 111-125 with
    [C := tcp::TcpSocket], rsomeip/src/socket/tcp.rs): the runtime of RuntimeModel.v on top of the
    streams of TcpModel.v.  Definitions only.

    What RuntimeModel.v leaves to the environment is done here by the streams: the answers of its
    [Sender] and [Receiver].  Making a connection (tcp.rs 99-119, 202-209) is a call of the operating
    system: it succeeds or fails as the events say.  One event is at most one round of the loops of
    [TcpSender::send] (131-149) and [TcpReceiver::recv] (172-187), so that a connection can end while
    part of a buffer is written. *)
From Coq Require Import List NArith Bool PeanoNat.
From Verif Require Import BytesModel MapModel RuntimeModel TcpModel.
Import ListNotations.
Open Scope nat_scope.

(** What belongs to one connection task (connection.rs 49-80): the receiving end of its stream, and
    how much of the buffer in its sender was written ([sent], tcp.rs 132). *)
Record link := mkLk { k_in : stream; k_sent : nat }.
Definition new_link : link := mkLk (mkT [] false) 0.
Definition k_with_in t (k : link) := mkLk t (k_sent k).
Definition k_with_sent n (k : link) := mkLk (k_in k) n.

(** An endpoint and its streams, one for each connection.  The protocol type of TCP is [Stream]
    (tcp.rs 97). *)
Record tnode := mkTN { t_rt : rt; t_links : list link }.
Definition tnode_init : tnode := mkTN (rt_init false) [].

Inductive tnevent :=
| TRun (e : event)                      (* an event of the runtime in which no stream answers *)
| TBytes (c : nat) (d : list N)         (* bytes arrive on the stream of connection [c] *)
| TEnd (c : nat)                        (* the peer has closed its side *)
| TRead (c : nat) (r : round)           (* one round of [recv] of connection [c] *)
| TWrite (c : nat) (r : round).         (* one round of [send] of connection [c] *)

(** What one step did: in the runtime, and the bytes handed to a stream. *)
Record tentry := mkTE { te_rt : option (event * obs); te_out : list N }.

(** Events of the runtime that are not answers of a stream.  Connecting, listening and accepting are
    up to the operating system. *)
Definition tcp_internal (e : event) : bool :=
  match e with EPacket _ _ | ELagged _ | EEnd _ | ESocket _ _ => false | _ => true end.

Section Locks.
Context (bk : iid -> N) (cbk : N -> N).

(** The runtime takes the step [e]; the connections that are new get their streams. *)
Definition tcp_answer (s : tnode) (e : event) (links : list link) (out : list N) : option (tnode * tentry) :=
  match step bk cbk (t_rt s) e with
  | Some (r, o) => Some (mkTN r (links ++ repeat new_link (length (r_conns r) - length links)), mkTE (Some (e, o)) out)
  | None => None
  end.

Definition tnode_step (s : tnode) (e : tnevent) : option (tnode * tentry) :=
  match e with
  | TRun e => if tcp_internal e then tcp_answer s e (t_links s) [] else None
  | TBytes c d =>
      match nth_error (t_links s) c with
      | Some k =>
          if t_fin (k_in k) then None
          else Some (mkTN (t_rt s) (upd c (k_with_in (mkT (t_avail (k_in k) ++ d) false)) (t_links s)), mkTE None [])
      | None => None
      end
  | TEnd c =>
      match nth_error (t_links s) c with
      | Some k => Some (mkTN (t_rt s) (upd c (k_with_in (mkT (t_avail (k_in k)) true)) (t_links s)), mkTE None [])
      | None => None
      end
  | TRead c r =>
      (* connection.rs 334; tcp.rs 172-187 *)
      match nth_error (t_links s) c with
      | Some k =>
          match tcp_recv [r] (k_in k) with
          | (ROk d, t) => tcp_answer s (EPacket c d) (upd c (k_with_in t) (t_links s)) []
          | (RClosed, t) => tcp_answer s (EEnd c) (upd c (k_with_in t) (t_links s)) []
          | (RPending, _) => None
          end
      | None => None
      end
  | TWrite c r =>
      (* connection.rs 419; tcp.rs 131-149 *)
      match nth_error (r_conns (t_rt s)) c, nth_error (t_links s) c with
      | Some x, Some k =>
          match c_out x with
          | Some bs =>
              match tcp_send [r] bs (k_sent k) with
              | (SOk, w, _) => tcp_answer s (ESocket c true) (upd c (k_with_sent 0) (t_links s)) w
              | (SErr, w, _) => tcp_answer s (ESocket c false) (upd c (k_with_sent 0) (t_links s)) w
              | (SPending, w, _) =>
                  Some (mkTN (t_rt s) (upd c (k_with_sent (k_sent k + length w)) (t_links s)), mkTE None w)
              end
          | None => None
          end
      | _, _ => None
      end
  end.

(** A schedule run from a state: for examples. *)
Fixpoint tnode_run (s : tnode) (es : list tnevent) : option (tnode * list (tnevent * tentry)) :=
  match es with
  | [] => Some (s, [])
  | e :: es' =>
      match tnode_step s e with
      | Some (s', x) => option_map (fun r => (fst r, (e, x) :: snd r)) (tnode_run s' es')
      | None => None
      end
  end.

End Locks.
