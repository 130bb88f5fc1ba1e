(** Model of rsomeip/src/socket/tcp.rs (line numbers are of that file).  Definitions only.

    The operating system is a script: what each wait for readiness says, and what each write or
    read then does.  Not modelled: how connections are made (99-119, 202-209: calls of the
    operating system without logic of their own). *)
From Coq Require Import List NArith PeanoNat Bool.
Import ListNotations.

(** What [writable] or [readable] answers: [Ok], an error of kind [WouldBlock], another error. *)
Inductive ready := Ready | NotReady | Broken.

(** One round: the answer to the wait, and what the write or read would do: [Some n], [n] bytes;
    [None], any error ([WouldBlock] included: 138, 176). *)
Definition round : Type := ready * option nat.

Inductive sres := SOk | SErr | SPending.

(** 131-149: sends what is left of [buffer] after [sent] bytes.  The result, the bytes handed to
    the stream, and the rounds not used.  [SPending]: the script is over and the call still runs.
    A write takes no more than it is offered. *)
Fixpoint tcp_send (os : list round) (buffer : list N) (sent : nat) : sres * list N * list round :=
  match os with
  | [] => (SPending, [], [])
  | (NotReady, _) :: os' => tcp_send os' buffer sent
  | (Broken, _) :: os' => (SErr, [], os')
  | (Ready, None) :: os' => (SErr, [], os')
  | (Ready, Some n) :: os' =>
      let written := firstn n (skipn sent buffer) in
      let sent' := sent + length written in
      if sent' <? length buffer then
        let '(r, wire, os'') := tcp_send os' buffer sent' in (r, written ++ wire, os'')
      else (SOk, written, os')
  end.

(** Buffers sent one after the other on one connection, until one fails. *)
Fixpoint send_all (os : list round) (buffers : list (list N)) : sres * list N * list round :=
  match buffers with
  | [] => (SOk, [], os)
  | b :: bs =>
      match tcp_send os b 0 with
      | (SOk, w, os') => let '(r, w', os'') := send_all os' bs in (r, w ++ w', os'')
      | other => other
      end
  end.

(** The receiving end: the bytes that have arrived and were not read, and whether the peer has
    closed its side. *)
Record stream := mkT { t_avail : list N; t_fin : bool }.

Inductive rres := ROk (data : list N) | RClosed | RPending.

(** 172-187.  [try_read] gives at least one byte if there is one, never more than the 1400 of the
    buffer (166), and zero exactly at the end of the stream; with nothing to read and no end it
    is an error ([WouldBlock]). *)
Fixpoint tcp_recv (os : list round) (t : stream) : rres * stream :=
  match os with
  | [] => (RPending, t)
  | (NotReady, _) :: os' => tcp_recv os' t
  | (Broken, _) :: _ => (RClosed, t)
  | (Ready, None) :: _ => (RClosed, t)
  | (Ready, Some n) :: _ =>
      match t_avail t with
      | [] => (if t_fin t then ROk [] else RClosed, t)
      | _ :: _ =>
          let size := Nat.min (Nat.max 1 n) 1400 in
          (ROk (firstn size (t_avail t)), mkT (skipn size (t_avail t)) (t_fin t))
      end
  end.

(** What happens to a receiver. *)
Inductive tev := TArrive (data : list N) | TFin | TRecv (os : list round).

Fixpoint tcp_run (t : stream) (es : list tev) : stream * list rres :=
  match es with
  | [] => (t, [])
  | TArrive data :: es' => tcp_run (if t_fin t then t else mkT (t_avail t ++ data) false) es'
  | TFin :: es' => tcp_run (mkT (t_avail t) true) es'
  | TRecv os :: es' => let (r, t') := tcp_recv os t in let (t'', rs) := tcp_run t' es' in (t'', r :: rs)
  end.
