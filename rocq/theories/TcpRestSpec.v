(** What the claims about an endpoint over TCP that is left to itself mean. *)
From Coq Require Import List NArith Bool PeanoNat.
From Verif Require Import BytesModel RuntimeModel RuntimeSpec TcpModel TcpSpec TcpNodeModel TcpNodeSpec.
Import ListNotations.
Open Scope nat_scope.

(** There is something to read on connection [c]: bytes, or that the peer has closed its side. *)
Definition readable (s : tnode) (c : nat) : Prop :=
  exists k, nth_error (t_links s) c = Some k /\ (t_avail (k_in k) <> [] \/ t_fin (k_in k) = true).

(** What an endpoint does by itself: its tasks and calls go on, its stubs and proxies read what is
    there for them, and the streams work: they give what they have when they say they have something,
    and take some or all of what is offered.  Nobody calls anything new, and nothing arrives. *)
Definition tcp_settles (s : tnode) (e : tnevent) : Prop :=
  match e with
  | TRun e => cooperative e
  | TRead c r => faultless r /\ (fst r = Ready -> readable s c)
  | TWrite _ r => faultless r
  | _ => False
  end.
Inductive tcp_settling (bk : iid -> N) (cbk : N -> N) : tnode -> list (tnevent * tentry) -> tnode -> Prop :=
| ts_none s : tcp_settling bk cbk s [] s
| ts_more s e s1 x tr s2 : tcp_settles s e -> tnode_step bk cbk s e = Some (s1, x) -> tcp_settling bk cbk s1 tr s2 ->
                           tcp_settling bk cbk s ((e, x) :: tr) s2.

(** Every connection that runs has read all that has arrived. *)
Definition all_read (tr : list (tnevent * tentry)) (s : tnode) : Prop :=
  forall c, conn_runs (t_rt s) c -> concat (reads c tr) = bytes_in c tr.
