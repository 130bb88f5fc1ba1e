(** Property theorems C75 to C78: a v1 endpoint over TCP.
    [bk] and [cbk] say which entries of the shared maps share a lock: all theorems hold whatever
    they are. *)
From Coq Require Import List NArith Bool PeanoNat Lia.
From Verif Require Import BytesModel WireSpec SomeipModel SomeipSpec MapModel RuntimeModel RuntimeSpec NodeSpec
  TcpModel TcpSpec TcpNodeModel TcpNodeSpec TcpNodeTheorems.
Import ListNotations.
Open Scope nat_scope.

Definition b0 (_ : iid) : N := 0.
Definition c0 (_ : N) : N := 0.
Definition all : round := (Ready, Some 2000).
(** Serving an id and accepting a connection from peer 9; reading what arrived and routing its one
    message; a proxy for service 1 at peer 5 and a message it sends, written in one piece. *)
Definition ex_serve (id : iid) : list tnevent :=
  map TRun [EServe id; EEp true; EEp true; EEp true; EEp true; EListener 0; EAccept 0 9%N; EAcceptShare 0].
Definition ex_read (r : round) : list tnevent := [TRead 0 r; TRun (ERoute 0); TRun (ERoute 0)].
Definition ex_proxy : list tnevent := map TRun [EProxy (1%N, 1%N) 5%N; EEp true; EEp true; EEp true; EEp true; ESender 0].
Definition ex_send (m : msg) : list tnevent := [TRun (EProxySend 0 m); TRun (ESender 0); TWrite 0 all].
Lemma ex_history es s tr : tnode_run b0 c0 tnode_init es = Some (s, tr) -> thistory b0 c0 tr s.
Proof. intros R. exact (tnode_run_history _ _ es [] _ _ _ (t_start _ _) R). Qed.
(** Runs a schedule and puts the result in place of the first two existentials. *)
Ltac ex_run es := let R := fresh "R" in let H := fresh "H" in
  destruct (tnode_run b0 c0 tnode_init es) as [[s tr]|] eqn:R; [|vm_compute in R; discriminate R];
  assert (H := ex_history _ _ _ R); vm_compute in R; injection R as E1 E2; subst s tr.
Ltac ex_idle := constructor;
  [split; reflexivity
  |intros n (t & T & P); destruct n as [|[|n]]; cbn in T; try discriminate T; injection T as <-; apply P; reflexivity
  |intros [|[|c]]; reflexivity
  |intros [|[|n]] _; reflexivity
  |intros [|[|n]] _; reflexivity
  |intros [|[|c]] x X; cbn in X; try discriminate X; injection X as <-; split; reflexivity
  |intros [|[|l]] x X; cbn in X; try discriminate X; injection X as <-; split; reflexivity].
Lemma note_ordinary v w : (v < 256)%N -> (w < 256)%N -> ordinary (note v w).
Proof. intros V W. unfold ordinary, smessage_ok, note, bytes_ok, len. cbn. repeat split; try lia. constructor; [exact W|constructor]. Qed.

(** C75.  Over TCP: what a connection has read are pieces of at most 1400 bytes of the stream of its
    peer, all of it so far and in order.  Everything the stubs and proxies are given is in one of the
    pieces of its connection, in order and, as long as they and the connection go on, nothing for
    them is missing. *)
Theorem C75_reads : forall bk cbk tr s c,
  thistory bk cbk tr s ->
  (exists rest, bytes_in c tr = concat (reads c tr) ++ rest) /\ Forall (fun d => length d <= 1400) (reads c tr).
Proof. exact @tcp_reads. Qed.
Print Assumptions C75_reads.
Theorem C75_given : forall bk cbk tr s it,
  thistory bk cbk tr s -> In it (all_got (tcp_trace tr)) ->
  In (it_msg it) (flat_map packet_messages (reads (it_conn it) tr)) /\ opened (it_conn it) (it_addr it) (tcp_trace tr).
Proof. exact @tcp_given. Qed.
Print Assumptions C75_given.
Theorem C75_given_order : forall bk cbk tr s n c,
  thistory bk cbk tr s ->
  subseq (map it_msg (from_conn c (stub_got n (tcp_trace tr)))) (flat_map packet_messages (reads c tr)) /\
  subseq (map it_msg (from_conn c (proxy_got n (tcp_trace tr)))) (flat_map packet_messages (reads c tr)).
Proof. exact @tcp_given_order. Qed.
Print Assumptions C75_given_order.
Theorem C75_stub_gets : forall bk cbk tr1 tr2 s n id c,
  thistory bk cbk (tr1 ++ tr2) s -> served n id (tcp_trace tr1) -> reads c tr1 = [] ->
  stub_exists (t_rt s) n -> stub_listening (t_rt s) n -> conn_runs (t_rt s) c ->
  map it_msg (from_conn c (stub_got n (tcp_trace (tr1 ++ tr2)) ++ stub_backlog (t_rt s) n)) ++ map it_msg (for_id id (waiting (t_rt s) c)) =
  filter (of_id id) (flat_map packet_messages (reads c (tr1 ++ tr2))).
Proof. exact @tcp_stub_gets. Qed.
Print Assumptions C75_stub_gets.
Theorem C75_proxy_gets : forall bk cbk tr1 tr2 s n id a c,
  thistory bk cbk (tr1 ++ tr2) s -> proxied n id a (tcp_trace tr1) -> reads c tr1 = [] ->
  opened c a (tcp_trace (tr1 ++ tr2)) -> proxy_exists (t_rt s) n -> proxy_connected (t_rt s) n -> conn_runs (t_rt s) c ->
  map it_msg (from_conn c (proxy_got n (tcp_trace (tr1 ++ tr2)) ++ proxy_backlog (t_rt s) n)) ++ map it_msg (for_id id (waiting (t_rt s) c)) =
  filter (of_id id) (flat_map packet_messages (reads c (tr1 ++ tr2))).
Proof. exact @tcp_proxy_gets. Qed.
Print Assumptions C75_proxy_gets.
(** What it writes is the messages accepted for the connection, whole and in order, and perhaps part
    of one more.  At most two are missing, the last ones; none when there is nothing left to do. *)
Theorem C75_written : forall bk cbk tr s c,
  thistory bk cbk tr s -> Forall ordinary (accepted c (tcp_trace tr)) ->
  exists k part, bytes_out c tr = concat (map s_form (firstn k (accepted c (tcp_trace tr)))) ++ part /\
    prefix part (concat (map s_form (firstn 1 (skipn k (accepted c (tcp_trace tr)))))) /\
    k <= length (accepted c (tcp_trace tr)) <= k + 2.
Proof. exact @tcp_written. Qed.
Print Assumptions C75_written.
Theorem C75_written_all : forall bk cbk tr s c,
  thistory bk cbk tr s -> Forall ordinary (accepted c (tcp_trace tr)) -> idle (t_rt s) -> conn_runs (t_rt s) c ->
  bytes_out c tr = concat (map s_form (accepted c (tcp_trace tr))).
Proof. exact @tcp_written_all. Qed.
Print Assumptions C75_written_all.
(** Two messages in one piece, a third in another.  The answer is half written. *)
Definition ex_b : list tnevent :=
  ex_serve (1%N, 1%N) ++ [TBytes 0 (s_form (note 1 7)); TBytes 0 (s_form (note 2 8) ++ s_form (note 1 9))] ++
  ex_read (Ready, Some 34) ++ [TRun (ERoute 0)] ++ ex_read all ++ map TRun [ERecvFrom 0; ESendTo 0 9%N (note 3 1); EStub 0 true; EStub 0 true; EStub 0 true; ESender 0] ++
  [TWrite 0 (NotReady, None); TWrite 0 (Ready, Some 10)].
Example C75_example : exists tr1 tr2 s, thistory b0 c0 (tr1 ++ tr2) s /\ served 0 (1%N, 1%N) (tcp_trace tr1) /\ reads 0 tr1 = [] /\
  stub_exists (t_rt s) 0 /\ stub_listening (t_rt s) 0 /\ conn_runs (t_rt s) 0 /\
  map (@length N) (reads 0 (tr1 ++ tr2)) = [34; 17] /\ map it_msg (stub_got 0 (tcp_trace (tr1 ++ tr2))) = [note 1 7] /\
  map it_msg (stub_backlog (t_rt s) 0) = [note 1 9] /\
  accepted 0 (tcp_trace (tr1 ++ tr2)) = [note 3 1] /\ bytes_out 0 (tr1 ++ tr2) = firstn 10 (s_form (note 3 1)).
Proof.
  ex_run ex_b. match type of H with thistory _ _ (?a1 :: ?a2 :: ?a3 :: ?a4 :: ?a5 :: ?t) _ => exists [a1; a2; a3; a4; a5], t end.
  eexists. split; [exact H|]. split; [exists (EEp true); cbn; tauto|]. split; [reflexivity|]. split; [eexists; split; reflexivity|].
  split; [repeat eexists|]. split; [eexists; split; reflexivity|]. repeat split.
Qed.
Definition ex_a : list tnevent :=
  ex_proxy ++ ex_send (note 1 7) ++ [TRun (EProxySend 0 (note 1 9)); TRun (ESender 0); TWrite 0 (Ready, Some 10); TWrite 0 all] ++
  [TBytes 0 (s_form (note 1 3)); TRead 0 all; TRun (ERoute 0); TRun (ERoute 0); TRun (EProxyRecv 0)].
Example C75_proxy_example : exists tr1 tr2 s, thistory b0 c0 (tr1 ++ tr2) s /\ proxied 0 (1%N, 1%N) 5%N (tcp_trace tr1) /\ reads 0 tr1 = [] /\
  opened 0 5%N (tcp_trace (tr1 ++ tr2)) /\ proxy_exists (t_rt s) 0 /\ proxy_connected (t_rt s) 0 /\ conn_runs (t_rt s) 0 /\
  map it_msg (proxy_got 0 (tcp_trace (tr1 ++ tr2))) = [note 1 3] /\ idle (t_rt s) /\
  accepted 0 (tcp_trace (tr1 ++ tr2)) = [note 1 7; note 1 9] /\ bytes_out 0 (tr1 ++ tr2) = s_form (note 1 7) ++ s_form (note 1 9).
Proof.
  ex_run ex_a. match type of H with thistory _ _ (?a1 :: ?a2 :: ?a3 :: ?a4 :: ?a5 :: ?t) _ => exists [a1; a2; a3; a4; a5], t end.
  eexists. split; [exact H|]. split; [exists (EEp true); cbn; tauto|]. split; [reflexivity|]. split; [exists (EEp true); cbn; tauto|].
  split; [eexists; split; reflexivity|]. split; [repeat eexists|]. split; [eexists; split; reflexivity|]. split; [reflexivity|].
  split; [ex_idle|]. split; reflexivity.
Qed.

(** C76.  Messages have no boundaries in the stream, and the endpoint does not look for them.  If every
    read happens to stop where a message stops, the messages read are the messages sent; between two
    endpoints nothing else arrives, the order is kept, and when all is done nothing is missing. *)
Theorem C76_whole : forall bk cbk tr s c ms,
  thistory bk cbk tr s -> Forall ordinary ms -> prefix (bytes_in c tr) (concat (map s_form ms)) ->
  between_messages ms (reads c tr) -> exists k, flat_map packet_messages (reads c tr) = firstn k ms.
Proof. exact @tcp_whole. Qed.
Print Assumptions C76_whole.
Theorem C76_end_to_end : forall bk cbk bk' cbk' ta a ca tb b cb n,
  thistory bk cbk ta a -> thistory bk' cbk' tb b ->
  prefix (bytes_in cb tb) (bytes_out ca ta) -> Forall ordinary (accepted ca (tcp_trace ta)) ->
  between_messages (accepted ca (tcp_trace ta)) (reads cb tb) ->
  subseq (map it_msg (from_conn cb (stub_got n (tcp_trace tb)))) (accepted ca (tcp_trace ta)) /\
  subseq (map it_msg (from_conn cb (proxy_got n (tcp_trace tb)))) (accepted ca (tcp_trace ta)).
Proof. exact @tcp_end_to_end. Qed.
Print Assumptions C76_end_to_end.
Theorem C76_all_got : forall bk cbk bk' cbk' ta a ca tb1 tb2 b cb n id,
  thistory bk cbk ta a -> thistory bk' cbk' (tb1 ++ tb2) b ->
  idle (t_rt a) -> conn_runs (t_rt a) ca -> idle (t_rt b) -> conn_runs (t_rt b) cb ->
  bytes_in cb (tb1 ++ tb2) = bytes_out ca ta -> concat (reads cb (tb1 ++ tb2)) = bytes_in cb (tb1 ++ tb2) ->
  Forall ordinary (accepted ca (tcp_trace ta)) -> between_messages (accepted ca (tcp_trace ta)) (reads cb (tb1 ++ tb2)) ->
  served n id (tcp_trace tb1) -> reads cb tb1 = [] -> stub_exists (t_rt b) n -> stub_listening (t_rt b) n ->
  map it_msg (from_conn cb (stub_got n (tcp_trace (tb1 ++ tb2)))) = filter (of_id id) (accepted ca (tcp_trace ta)).
Proof. exact @tcp_all_got. Qed.
Print Assumptions C76_all_got.
(** But a read can stop anywhere.  A message cut in its payload is given with what there is, a message
    cut in its header is dropped, and what follows is read as if it was the beginning of a message: what
    the sender put in a payload is given as a message.  No message with more than 1384 bytes of
    payload is given whole. *)
Theorem C76_any_cut : forall bk cbk tr s c rest n,
  thistory bk cbk tr s -> conn_runs (t_rt s) c -> waiting (t_rt s) c = [] ->
  bytes_in c tr = concat (reads c tr) ++ rest -> 1 <= n <= 1400 -> n <= length rest ->
  exists s' x, tnode_step bk cbk s (TRead c (Ready, Some n)) = Some (s', x) /\
    reads c (tr ++ [(TRead c (Ready, Some n), x)]) = reads c tr ++ [firstn n rest].
Proof. exact @tcp_any_cut. Qed.
Print Assumptions C76_any_cut.
Theorem C76_cut_message : forall m k,
  ordinary m -> k <= length (s_payload m) -> packet_messages (firstn (16 + k) (s_form m)) = [cut k m].
Proof. exact @cut_message. Qed.
Print Assumptions C76_cut_message.
Theorem C76_cut_header : forall m k,
  ordinary m -> k < 16 -> packet_messages (firstn k (s_form m)) = [].
Proof. exact @cut_header. Qed.
Print Assumptions C76_cut_header.
Theorem C76_smuggled : forall m m' k,
  ordinary m -> ordinary m' -> k <= length (s_payload m) -> skipn k (s_payload m) = s_form m' ->
  s_form m = firstn (16 + k) (s_form m) ++ s_form m' /\
  flat_map packet_messages [firstn (16 + k) (s_form m); s_form m'] = [cut k m; m'].
Proof. exact @smuggled. Qed.
Print Assumptions C76_smuggled.
Theorem C76_small : forall bk cbk tr s it,
  thistory bk cbk tr s -> (forall c, bytes_ok (bytes_in c tr)) -> In it (all_got (tcp_trace tr)) ->
  length (s_payload (it_msg it)) <= 1384.
Proof. exact @tcp_small. Qed.
Print Assumptions C76_small.
(** One message, for service 2, whose payload is a byte and then a message for service 1.  The stub
    for service 1 is given a message that was never sent. *)
Definition outer : msg := mkS 2 2 3 4 1 1 StNotification ScOk (0%N :: s_form (note 1 7)).
Theorem C76_only_what_was_sent_refuted : exists bk cbk ta a tb b,
  thistory bk cbk ta a /\ thistory bk cbk tb b /\ bytes_in 0 tb = bytes_out 0 ta /\ accepted 0 (tcp_trace ta) = [outer] /\ ordinary outer /\
  served 0 (1%N, 1%N) (tcp_trace tb) /\ map it_msg (stub_got 0 (tcp_trace tb)) = [note 1 7].
Proof.
  exists b0, c0. ex_run (ex_proxy ++ ex_send outer). rename H into HA.
  ex_run (ex_serve (1%N, 1%N) ++ [TBytes 0 (s_form outer)] ++ [TRead 0 (Ready, Some 17); TRun (ERoute 0)] ++ ex_read all ++ [TRun (ERecvFrom 0)]).
  eexists. eexists. eexists. eexists. split; [exact HA|]. split; [exact H|]. split; [reflexivity|]. split; [reflexivity|]. split.
  - unfold ordinary, smessage_ok, bytes_ok, len. cbn. repeat split; try lia. repeat constructor; lia.
  - split; [exists (EEp true); cbn; tauto|reflexivity].
Qed.
Print Assumptions C76_only_what_was_sent_refuted.
(** Reads that stop between messages: the end-to-end theorems apply. *)
Example C76_example : exists ta a tb1 tb2 b, thistory b0 c0 ta a /\ thistory b0 c0 (tb1 ++ tb2) b /\ idle (t_rt a) /\ conn_runs (t_rt a) 0 /\
  idle (t_rt b) /\ conn_runs (t_rt b) 0 /\ bytes_in 0 (tb1 ++ tb2) = bytes_out 0 ta /\ concat (reads 0 (tb1 ++ tb2)) = bytes_in 0 (tb1 ++ tb2) /\
  Forall ordinary (accepted 0 (tcp_trace ta)) /\ between_messages (accepted 0 (tcp_trace ta)) (reads 0 (tb1 ++ tb2)) /\
  served 0 (1%N, 1%N) (tcp_trace tb1) /\ reads 0 tb1 = [] /\ stub_exists (t_rt b) 0 /\ stub_listening (t_rt b) 0 /\
  accepted 0 (tcp_trace ta) = [note 1 7; note 2 8; note 1 9] /\ map it_msg (stub_got 0 (tcp_trace (tb1 ++ tb2))) = [note 1 7; note 1 9].
Proof.
  ex_run (ex_proxy ++ ex_send (note 1 7) ++ ex_send (note 2 8) ++ ex_send (note 1 9)). rename H into HA.
  ex_run (ex_serve (1%N, 1%N) ++ [TBytes 0 (s_form (note 1 7) ++ s_form (note 2 8) ++ s_form (note 1 9))] ++
    ex_read (Ready, Some 34) ++ [TRun (ERoute 0)] ++ ex_read all ++ map TRun [ERecvFrom 0; ERecvFrom 0]).
  eexists. eexists. match type of H with thistory _ _ (?a1 :: ?a2 :: ?a3 :: ?a4 :: ?a5 :: ?t) _ => exists [a1; a2; a3; a4; a5], t end. eexists.
  split; [exact HA|]. split; [exact H|]. split; [ex_idle|]. split; [eexists; split; reflexivity|]. split; [ex_idle|]. split; [eexists; split; reflexivity|].
  split; [reflexivity|]. split; [reflexivity|]. split; [repeat (constructor; [apply note_ordinary; lia|]); constructor|].
  split. { intros i I. cbn in I. destruct i as [|[|[|i]]]; [exists 0|exists 2|exists 3|lia]; reflexivity. }
  split; [exists (EEp true); cbn; tauto|]. split; [reflexivity|]. split; [eexists; split; reflexivity|]. split; [repeat eexists|]. split; reflexivity.
Qed.
(** A state where a read can stop anywhere: 34 bytes have arrived. *)
Example C76_cut_example : exists tr s rest, thistory b0 c0 tr s /\ conn_runs (t_rt s) 0 /\ waiting (t_rt s) 0 = [] /\
  bytes_in 0 tr = concat (reads 0 tr) ++ rest /\ length rest = 34.
Proof.
  ex_run (ex_serve (1%N, 1%N) ++ [TBytes 0 (s_form (note 1 7) ++ s_form (note 2 8))]). eexists. eexists. eexists.
  split; [exact H|]. split; [eexists; split; reflexivity|]. split; [reflexivity|]. split; [reflexivity|reflexivity].
Qed.

(** C77.  When the peer has closed its side and everything is read, every further read returns at once
    with nothing and changes nothing: the connection reads for ever.  It does not end because of
    that: without an error of the stream it runs as long as somebody owns it. *)
Theorem C77_spins : forall bk cbk tr s c n,
  thistory bk cbk tr s -> peer_closed c tr -> concat (reads c tr) = bytes_in c tr -> conn_runs (t_rt s) c -> waiting (t_rt s) c = [] ->
  exists x, tnode_step bk cbk s (TRead c (Ready, Some n)) = Some (s, x) /\ te_rt x = Some (EPacket c [], OUnit).
Proof. exact @tcp_spins. Qed.
Print Assumptions C77_spins.
Theorem C77_not_noticed : forall bk cbk tr1 s1 tr2 s c,
  thistory bk cbk tr1 s1 -> thistory bk cbk (tr1 ++ tr2) s -> peer_closed c tr1 -> conn_runs (t_rt s1) c ->
  ~ stream_failed c tr2 -> (forall o, ~ In (EUnowned c, o) (tcp_trace tr2)) -> conn_runs (t_rt s) c.
Proof. exact @tcp_not_noticed. Qed.
Print Assumptions C77_not_noticed.
Example C77_example : exists tr1 s1 tr2 s, thistory b0 c0 tr1 s1 /\ thistory b0 c0 (tr1 ++ tr2) s /\ peer_closed 0 tr1 /\
  concat (reads 0 tr1) = bytes_in 0 tr1 /\ conn_runs (t_rt s1) 0 /\ waiting (t_rt s1) 0 = [] /\ ~ stream_failed 0 tr2 /\
  (forall o, ~ In (EUnowned 0, o) (tcp_trace tr2)) /\ reads 0 (tr1 ++ tr2) = [s_form (note 1 3); []; []] /\ accepted 0 (tcp_trace tr2) = [note 1 7].
Proof.
  ex_run (ex_proxy ++ [TBytes 0 (s_form (note 1 3)); TEnd 0] ++ ex_read all). rename H into HA.
  ex_run (ex_proxy ++ [TBytes 0 (s_form (note 1 3)); TEnd 0] ++ ex_read all ++ [TRead 0 all; TRead 0 all] ++ ex_send (note 1 7)).
  match type of HA with thistory _ _ ?t _ => exists t end. eexists.
  match type of H with thistory _ _ (?a1 :: ?a2 :: ?a3 :: ?a4 :: ?a5 :: ?a6 :: ?a7 :: ?a8 :: ?a9 :: ?a10 :: ?a11 :: ?t) _ => exists t end. eexists.
  split; [exact HA|]. split; [exact H|]. split; [eexists; cbn; tauto|]. split; [reflexivity|]. split; [eexists; split; reflexivity|].
  split; [reflexivity|]. split.
  - intros (r & x & F & I). assert (r = (Ready, Some 2000)) by (destruct I as [I|I]; cbn in I; intuition congruence). subst r.
    apply F. right. split; [reflexivity|discriminate].
  - split; [intros o I; cbn in I; intuition discriminate|]. split; reflexivity.
Qed.

(** C78.  Over TCP a stub never opens a connection: every connection was made by a call of [proxy] or
    accepted from a peer.  So [send_to] succeeds only for an address such a connection is with. *)
Theorem C78_opened : forall bk cbk tr s c a e,
  thistory bk cbk tr s -> In (e, OSpawned c a) (tcp_trace tr) -> (exists ok, e = EEp ok) \/ (exists l, e = EAccept l a).
Proof. exact @tcp_opened. Qed.
Print Assumptions C78_opened.
Theorem C78_send_to : forall bk cbk tr s tr1 n ok c m tr2,
  thistory bk cbk tr s -> tcp_trace tr = tr1 ++ (EStub n ok, OOk c m) :: tr2 ->
  exists a e, last_send_to n tr1 = Some (a, m) /\ In (e, OSpawned c a) tr1 /\ ((exists ok, e = EEp ok) \/ (exists l, e = EAccept l a)).
Proof. exact @tcp_send_to. Qed.
Print Assumptions C78_send_to.
(** The stub of [ex_b] answers its peer; a stub that writes first fails. *)
Example C78_example : exists tr s tr1 tr2, thistory b0 c0 tr s /\ tcp_trace tr = tr1 ++ (EStub 0 true, OOk 0 (note 3 1)) :: tr2 /\
  In (EAccept 0 9%N, OSpawned 0 9%N) tr1.
Proof.
  ex_run ex_b. eexists. eexists.
  match type of H with thistory _ _ ?t _ => exists (firstn 19 (tcp_trace t)), (skipn 20 (tcp_trace t)) end.
  split; [exact H|]. split; [reflexivity|]. cbn. tauto.
Qed.
Example C78_fails_example : exists s tr, tnode_run b0 c0 tnode_init
    (map TRun [EServe (1%N, 1%N); EEp true; EEp true; EEp true; EEp true; ESendTo 0 9%N (note 3 1); EStub 0 true; EStub 0 true]) = Some (s, tr) /\
  In (EStub 0 true, OError) (tcp_trace tr).
Proof. eexists. eexists. split; [vm_compute; reflexivity|]. cbn. tauto. Qed.
