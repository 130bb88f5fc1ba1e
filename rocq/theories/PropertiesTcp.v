(** Property theorems C45 and C56: TCP connections of the runtime crate. *)
From Coq Require Import List NArith Bool PeanoNat Lia.
From Verif Require Import TcpModel TcpSpec TcpTheorems.
Import ListNotations.

(** C45.  [send] returns Ok only after the whole buffer went out, once and in order; otherwise a
    strict prefix went out.  With enough useful rounds it succeeds.  Writes of nothing keep it
    spinning, and one spurious wake-up makes it fail with part of the buffer sent.  [recv] hands
    out the bytes of the stream in order, and at its end empty data for ever. *)
Theorem C45_send_complete : forall os buffer wire os',
  tcp_send os buffer 0 = (SOk, wire, os') -> wire = buffer.
Proof. exact @send_complete. Qed.
Print Assumptions C45_send_complete.
Theorem C45_send_incomplete : forall os buffer r wire os',
  tcp_send os buffer 0 = (r, wire, os') -> r <> SOk -> buffer <> [] -> strict_prefix wire buffer.
Proof. exact @send_incomplete. Qed.
Print Assumptions C45_send_incomplete.
Theorem C45_sends_in_order : forall os buffers r wire os',
  send_all os buffers = (r, wire, os') ->
  (r = SOk -> wire = concat buffers) /\ prefix wire (concat buffers).
Proof. exact @sends_in_order. Qed.
Print Assumptions C45_sends_in_order.
Theorem C45_send_succeeds : forall os buffer,
  Forall useful os -> length buffer <= length os -> 0 < length os ->
  exists os', tcp_send os buffer 0 = (SOk, buffer, os').
Proof. exact @send_succeeds. Qed.
Print Assumptions C45_send_succeeds.
Theorem C45_zero_writes_spin : forall k buffer,
  buffer <> [] -> tcp_send (repeat (Ready, Some 0) k) buffer 0 = (SPending, [], []).
Proof. exact @zero_writes_spin. Qed.
Print Assumptions C45_zero_writes_spin.
Theorem C45_spurious_wakeup : forall n buffer os,
  n < length buffer ->
  tcp_send ((Ready, Some n) :: (Ready, None) :: os) buffer 0 = (SErr, firstn n buffer, os).
Proof. exact @spurious_wakeup. Qed.
Print Assumptions C45_spurious_wakeup.
Theorem C45_recv_in_order : forall es t' rs,
  tcp_run (mkT [] false) es = (t', rs) -> arrived es = got rs ++ t_avail t'.
Proof. exact @recv_in_order. Qed.
Print Assumptions C45_recv_in_order.
Theorem C45_recv_piece : forall os t r t',
  tcp_recv os t = (r, t') ->
  t_fin t' = t_fin t /\ t_avail t = got [r] ++ t_avail t' /\
  (forall d, r = ROk d -> length d <= 1400 /\ (d = [] -> t_avail t = [] /\ t_fin t = true)).
Proof. exact @recv_stream. Qed.
Print Assumptions C45_recv_piece.
Theorem C45_recv_what_there_is : forall n t os x l,
  t_avail t = x :: l ->
  exists d t', tcp_recv ((Ready, Some n) :: os) t = (ROk d, t') /\ d <> [].
Proof. exact @recv_what_there_is. Qed.
Print Assumptions C45_recv_what_there_is.
Theorem C45_end_of_stream : forall os t,
  t_avail t = [] -> t_fin t = true -> Forall faultless os ->
  (exists k, In (Ready, k) os) -> tcp_recv os t = (ROk [], t).
Proof. exact @end_of_stream. Qed.
Print Assumptions C45_end_of_stream.
Theorem C45_never_closed : forall os t,
  Forall faultless os -> t_fin t = true -> fst (tcp_recv os t) <> RClosed.
Proof. exact @never_closed. Qed.
Print Assumptions C45_never_closed.
Theorem C45_closed_is_final_refuted : exists es rs t, tcp_run (mkT [] false) es = (t, rs) /\ rs = [RClosed; ROk [1%N; 2%N]].
Proof. exact @closed_too_early. Qed.
Print Assumptions C45_closed_is_final_refuted.
Theorem C45_both_ends : forall os buffers r wire os' es t' rs,
  send_all os buffers = (r, wire, os') -> prefix (arrived es) wire -> tcp_run (mkT [] false) es = (t', rs) ->
  prefix (got rs) (concat buffers) /\
  (r = SOk -> arrived es = wire -> t_avail t' = [] -> got rs = concat buffers).
Proof. exact @both_ends. Qed.
Print Assumptions C45_both_ends.
Example C45_example_send :
  tcp_send [(NotReady, None); (Ready, Some 2); (Ready, Some 0); (Ready, Some 9); (Broken, None)] [1%N; 2%N; 3%N] 0
  = (SOk, [1%N; 2%N; 3%N], [(Broken, None)]) /\
  tcp_send [(Ready, Some 2); (Broken, None)] [1%N; 2%N; 3%N] 0 = (SErr, [1%N; 2%N], []).
Proof. split; vm_compute; reflexivity. Qed.
Example C45_example_recv :
  tcp_run (mkT [] false) [TArrive [1%N; 2%N]; TRecv [(NotReady, None); (Ready, Some 1)]; TArrive [3%N]; TFin; TRecv [(Ready, Some 5)];
    TRecv [(Ready, Some 5)]; TRecv [(Ready, Some 5)]]
  = (mkT [] true, [ROk [1%N]; ROk [2%N; 3%N]; ROk []; ROk []]).
Proof. vm_compute. reflexivity. Qed.

(** C56.  A stream keeps bytes, not buffers: whatever was sent, any cut of it into pieces of 1 to
    1400 bytes can be what the calls of [recv] return. *)
Theorem C56_any_boundaries : forall pieces,
  Forall (fun d => 0 < length d <= 1400) pieces ->
  exists es t, tcp_run (mkT [] false) es = (t, map ROk pieces) /\ arrived es = concat pieces.
Proof. exact @any_boundaries. Qed.
Print Assumptions C56_any_boundaries.
Example C56_example : Forall (fun d : list N => 0 < length d <= 1400) [[1%N]; [2%N; 3%N]].
Proof. repeat constructor; cbn; lia. Qed.
