(** What the claims about an endpoint over TCP mean. *)
From Coq Require Import List NArith Bool PeanoNat.
From Verif Require Import BytesModel WireSpec SomeipModel SomeipSpec RuntimeModel RuntimeSpec TcpModel TcpSpec TcpNodeModel.
Import ListNotations.
Open Scope nat_scope.

(** A history: everything that happened since the endpoint was created. *)
Inductive thistory (bk : iid -> N) (cbk : N -> N) : list (tnevent * tentry) -> tnode -> Prop :=
| t_start : thistory bk cbk [] tnode_init
| t_more tr s e s' x : thistory bk cbk tr s -> tnode_step bk cbk s e = Some (s', x) -> thistory bk cbk (tr ++ [(e, x)]) s'.

(** What happened in the runtime. *)
Definition tcp_trace (tr : list (tnevent * tentry)) : list (event * obs) :=
  flat_map (fun p => match te_rt (snd p) with Some q => [q] | None => [] end) tr.

(** The stream of connection [c]: the bytes that arrived, what the calls of [recv] returned, and the
    bytes that were written. *)
Definition bytes_in (c : nat) (tr : list (tnevent * tentry)) : list N :=
  flat_map (fun p => match fst p with TBytes d b => if d =? c then b else [] | _ => [] end) tr.
Definition reads (c : nat) (tr : list (tnevent * tentry)) : list (list N) :=
  flat_map (fun p => match fst p with EPacket d b => if d =? c then [b] else [] | _ => [] end) (tcp_trace tr).
Definition bytes_out (c : nat) (tr : list (tnevent * tentry)) : list N :=
  flat_map (fun p => match fst p with TWrite d _ => if d =? c then te_out (snd p) else [] | _ => [] end) tr.

(** The stream of [c] reported an error, while waiting, reading or writing. *)
Definition stream_failed (c : nat) (tr : list (tnevent * tentry)) : Prop :=
  exists r x, ~ faultless r /\ (In (TRead c r, x) tr \/ In (TWrite c r, x) tr).
(** The peer has closed its side of [c]. *)
Definition peer_closed (c : nat) (tr : list (tnevent * tentry)) : Prop := exists x, In (TEnd c, x) tr.

(** Counting the bytes, every read stopped where a message of [ms] stops. *)
Definition between_messages (ms : list msg) (rs : list (list N)) : Prop :=
  forall i, i <= length rs -> exists k, length (concat (firstn i rs)) = length (concat (map s_form (firstn k ms))).

(** [m] with its payload cut to [k] bytes. *)
Definition cut (k : nat) (m : msg) : msg :=
  {| s_service := s_service m; s_method := s_method m; s_client := s_client m; s_session := s_session m;
     s_protocol := s_protocol m; s_interface := s_interface m; s_mtype := s_mtype m; s_rcode := s_rcode m;
     s_payload := firstn k (s_payload m) |}.
