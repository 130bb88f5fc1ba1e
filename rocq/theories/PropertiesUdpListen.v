(** What a UDP listener is owed.  The statements here; the words in UdpSpec.v and UdpListenSpec.v;
    the proofs in UdpListenTheorems.v. *)
From Coq Require Import List NArith Bool PeanoNat Sorted Lia.
From Verif Require Import MapModel UdpModel UdpSpec UdpTheorems UdpListenSpec UdpListenTheorems.
Import ListNotations.

(** C94.  What [accept] answers, in any state, to a listener that has not been dropped: the oldest
    connection in its line, if there is one; else it waits, as long as no newer listener replaced
    it and the socket or its task is left; else it says that no more connections will come.  No
    connection is handed out twice, the line is never longer than the backlog, and each connection
    was made by a datagram of its own from its peer, in the order of the datagrams. *)
Theorem C94_accept : forall tr s n l,
  history tr s -> In (EListen n, OListening l) tr -> (forall o, ~ In (EDropListener l, o) tr) ->
  length (in_line s l) <= n /\ NoDup (map fst (accepted l tr ++ in_line s l)) /\
  (exists first, Forall2 (began tr) (accepted l tr ++ in_line s l) first /\ in_order first) /\
  exists s' o, step s (EAccept l) = Some (s', o) /\
    match in_line s l with
    | (c, a) :: _ => o = OAccepted c a
    | [] => (o = OPending /\ last_listener tr = Some l /\ ~ all_gone tr) \/
            (o = OAcceptEnd /\ (last_listener tr <> Some l \/ all_gone tr))
    end.
Proof. exact @accept_due. Qed.
Print Assumptions C94_accept.
(** Nothing leaves the line but by [accept], from the front; new connections join at the end, and
    none joins once another call of [listen] has returned. *)
Theorem C94_line : forall tr1 s1 tr2 s l,
  history tr1 s1 -> history (tr1 ++ tr2) s -> (forall o, ~ In (EDropListener l, o) tr2) ->
  exists more, accepted l (tr1 ++ tr2) ++ in_line s l = accepted l tr1 ++ in_line s1 l ++ more /\
    ((exists n, In (EListen n, OListening l) tr1) -> last_listener tr1 <> Some l -> more = []).
Proof. exact @line_grows. Qed.
Print Assumptions C94_line.
(** A listener that was told that no more connections will come gets no other answer. *)
Theorem C94_end_is_final : forall tr1 l tr2 s,
  history (tr1 ++ (EAccept l, OAcceptEnd) :: tr2) s ->
  (forall o, In (EAccept l, o) tr2 -> o = OAcceptEnd) /\ (forall s' o, step s (EAccept l) = Some (s', o) -> o = OAcceptEnd).
Proof. exact @end_is_final. Qed.
Print Assumptions C94_end_is_final.
(** Dropping a listener closes the connections in its line, for good: nobody can read from them,
    and their peers are strangers again.  Other connections and lines stay as they were. *)
Theorem C94_dropped_line : forall tr1 s1 l o tr2 s c a,
  history tr1 s1 -> In (c, a) (in_line s1 l) -> history (tr1 ++ (EDropListener l, o) :: tr2) s ->
  (forall s' o', step s (ERecv c) <> Some (s', o')) /\ (map_get N.eqb a (u_receivers s) = Some c -> unknown_peer s a).
Proof. exact @dropped_line. Qed.
Print Assumptions C94_dropped_line.
Theorem C94_drop_keeps_the_rest : forall tr s l s' o,
  history tr s -> step s (EDropListener l) = Some (s', o) ->
  in_line s' l = [] /\ (forall k, k <> l -> in_line s' k = in_line s k) /\
  (forall c, ~ In c (map fst (in_line s l)) -> nth_error (u_chans s') c = nth_error (u_chans s) c) /\
  u_receivers s' = u_receivers s /\ u_task s' = u_task s.
Proof. exact @drop_keeps. Qed.
Print Assumptions C94_drop_keeps_the_rest.
(** Two peers call, one is accepted; a second listener replaces the first, which still hands out
    the other peer and then ends, while the second waits. *)
Definition two_callers : list event :=
  [EListen 2; EPacket 5%N [1%N]; ETask; ETask; ETask; ETask; EPacket 6%N [2%N]; ETask; ETask; ETask; ETask; EAccept 0; EListen 1].
Example C94_example : exists s tr,
  run udp_init two_callers = Some (s, tr) /\ history tr s /\ In (EListen 2, OListening 0) tr /\
  accepted 0 tr = [(0, 5%N)] /\ in_line s 0 = [(1, 6%N)] /\ last_listener tr = Some 1 /\
  exists s', run s [EAccept 0; EAccept 0; EAccept 1; ERecv 0; ERecv 1] =
    Some (s', [(EAccept 0, OAccepted 1 6%N); (EAccept 0, OAcceptEnd); (EAccept 1, OPending);
               (ERecv 0, OData (mkP 0 [1%N])); (ERecv 1, OData (mkP 1 [2%N]))]).
Proof.
  eexists. eexists. split; [vm_compute; reflexivity|]. split; [|split; [left; reflexivity|repeat (split; [reflexivity|])]].
  - apply (run_history two_callers [] udp_init); [constructor|vm_compute; reflexivity].
  - eexists. vm_compute. reflexivity.
Qed.
(** The same, but the first listener is dropped with the second peer in its line: that peer's next
    datagram makes a new connection for the second listener. *)
Example C94_drop_example : exists s tr,
  run udp_init (two_callers ++ [EDropListener 0]) = Some (s, tr) /\ map_get N.eqb 6%N (u_receivers s) = Some 1 /\ unknown_peer s 6%N /\
  exists s' tr', run s ([EPacket 6%N [3%N]] ++ repeat ETask 6 ++ [EAccept 1; ERecv 2]) = Some (s', tr') /\
    In (EAccept 1, OAccepted 2 6%N) tr' /\ In (ERecv 2, OData (mkP 2 [3%N])) tr'.
Proof.
  eexists. eexists. split; [vm_compute; reflexivity|]. split; [reflexivity|]. split.
  - intros c H ch Hc. vm_compute in H. injection H as <-. vm_compute in Hc. injection Hc as <-. reflexivity.
  - eexists. eexists. split; [vm_compute; reflexivity|]. split; repeat (try (left; reflexivity); right).
Qed.
(** And the end of everything. *)
Example C94_end_example : exists s tr,
  run udp_init [EListen 1; EDropSocket; EAccept 0; EError; EAccept 0] = Some (s, tr) /\ all_gone tr /\ In (EAccept 0, OPending) tr /\ In (EAccept 0, OAcceptEnd) tr.
Proof. eexists. eexists. split; [vm_compute; reflexivity|]. unfold all_gone. cbn. tauto. Qed.
