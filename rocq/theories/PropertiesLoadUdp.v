(** An endpoint over UDP under load that does not end: C100. *)
From Coq Require Import List NArith Bool PeanoNat Lia.
From Verif Require Import BytesModel WireSpec SomeipModel SomeipSpec MapModel RuntimeModel RuntimeSpec NodeModel NodeSpec QueueModel QueueSpec QueueUdpModel QueueUdpSpec QueueUdpTheorems
  LoadSpec LoadTheorems LoadUdpSpec LoadUdpTheorems PropertiesQueueUdp.
Import ListNotations.
Open Scope nat_scope.

(** ** C100: over UDP calls are answered, and what was accepted is handed to the system *)
Theorem C100_seen : forall bk cbk f t, udp_load bk cbk f t -> qn_history bk cbk (t 0) (f 0) -> load_run bk cbk (fun n => qn_calls (f n)) (fun n => calls_in (t n)).
Proof. intros bk cbk f t R _. exact (udp_seen bk cbk f t R). Qed.
Print Assumptions C100_seen.

Theorem C100_returns : forall bk cbk f t u n id to, udp_load bk cbk f t -> qn_history bk cbk (t 0) (f 0) -> In (MMade id to) (life u (calls_in (t n))) ->
  (exists m, n <= m /\ (In MDropped (life u (calls_in (t m))) \/ exists o, In (MReturned o) (life u (calls_in (t m))) /\ fits id to o)) \/ udp_unread f t.
Proof. intros bk cbk f t u n id to R H. exact (returns bk cbk true _ _ (udp_seen bk cbk f t R) (proj1 (halves _ _ _ _ H)) u n id to). Qed.
Print Assumptions C100_returns.

Theorem C100_sends : forall bk cbk f t N n, udp_load bk cbk f t -> qn_history bk cbk (t 0) (f 0) ->
  (exists m, N <= m /\ ~ busy (q_rt (qn_calls (f m))) n) \/ udp_unread f t.
Proof. intros bk cbk f t N n R H. exact (sends_end bk cbk true _ _ (udp_seen bk cbk f t R) (proj1 (halves _ _ _ _ H)) n N). Qed.
Print Assumptions C100_sends.

(** Each message that was accepted is handed to the system as a datagram for the peer, in order, unless
    the connection ends. *)
Theorem C100_handed : forall bk cbk f t N c a, udp_load bk cbk f t -> qn_history bk cbk (t 0) (f 0) -> opened c a (runtime_trace (node_in (t N))) ->
  exists m, N <= m /\ (~ conn_runs (n_rt (qn_node (f m))) c \/
    subseq (map (fun x => (a, encode x)) (accepted c (runtime_trace (node_in (t N))))) (sent_out (node_in (t m)))).
Proof. intros bk cbk f t N c a R H. exact (udp_handed bk cbk f t R H c a N). Qed.
Print Assumptions C100_handed.

(** If connections go on reading, what the socket put into the channel of a connection is taken, or
    reported lost, unless the connection ends. *)
Theorem C100_read : forall bk cbk f t N c k, udp_load bk cbk f t -> qn_history bk cbk (t 0) (f 0) -> reads_go bk cbk f t -> put (qn_node (f N)) c k ->
  (exists m, N <= m /\ consumed (qn_node (f m)) c k) \/ (exists m, N <= m /\ ~ conn_runs (n_rt (qn_node (f m))) c) \/ udp_unread_while f t c.
Proof. intros bk cbk f t N c k R H. exact (udp_read bk cbk f t R H c k N). Qed.
Print Assumptions C100_read.

(** What a connection took from the socket is routed. *)
Theorem C100_routed : forall bk cbk f t N c it, udp_load bk cbk f t -> qn_history bk cbk (t 0) (f 0) -> In it (waiting (q_rt (qn_calls (f N))) c) ->
  (exists m, N <= m /\ (In (ERoute c, ORouted it) (rt_trace (calls_in (t m))) \/ In (ERoute c, ODropped it) (rt_trace (calls_in (t m))))) \/
  (exists m, N <= m /\ ~ conn_runs (q_rt (qn_calls (f m))) c) \/ udp_unread_while f t c.
Proof. intros bk cbk f t N c it R H. exact (routed bk cbk true _ _ (udp_seen bk cbk f t R) (proj1 (halves _ _ _ _ H)) c N it). Qed.
Print Assumptions C100_routed.

(** ** Examples *)
(** After the run of C92_example a message is accepted by the proxy, a call is made and a datagram with
    a message for the stub is read, and another arrives; then the message is sent, the call returns, the
    other datagram is read and the stub is given both messages. *)
Definition ux_m : msg := mkS 3 2 3 4 1 1 StRequest ScOk [7%N].
Definition ux_start : list qnevent := ex_before ++ ex_after ++
  [ByCalls (QRun (EProxySend 0 ux_m)); ByCalls (QCall (4%N, 1%N) None); BySocket (NDatagram 5%N (s_form ex_m)); BySocket NTask; BySocket NTask; BySocket (NRecv 1);
   BySocket (NDatagram 5%N (s_form ex_m)); BySocket NTask; BySocket NTask].
Definition ux_rest : list qnevent :=
  [ByCalls (QRun (ESender 0)); BySocket (NSend 0 true)] ++ map ByCalls [QEnter (FCall 3); QTake; QGo true; QGo true; QGo true; QGo true; QReturn 3; QRun (EListener 0); QRun (ERoute 1); QRun (ERoute 1)] ++
  [BySocket (NRecv 1); ByCalls (QRun (ERoute 1)); ByCalls (QRun (ERoute 1))].
Definition ranu (evs : list qnevent) (j : qnode) : qnode * list (qnevent * qnlog) := match qnode_run b0 c0 j evs with Some r => r | None => (j, []) end.
Definition runsu (evs : list qnevent) (j : qnode) : bool := match qnode_run b0 c0 j evs with Some _ => true | None => false end.
Ltac value_at t E := let v := eval vm_compute in t in assert (E : t = v) by (vm_compute; reflexivity).
Definition ux_a : qnode * list (qnevent * qnlog) := ranu ux_start qnode_init.
Definition ux_f (n : nat) : qnode := fst (ranu (firstn n ux_rest) (fst ux_a)).
Definition ux_t (n : nat) : list (qnevent * qnlog) := snd ux_a ++ snd (ranu (firstn n ux_rest) (fst ux_a)).
Lemma ux_after n : 15 <= n -> ux_f n = ux_f 15 /\ ux_t n = ux_t 15.
Proof. intros L. unfold ux_f, ux_t. rewrite (firstn_all2 ux_rest) by (cbn; lia). rewrite (firstn_all2 (n := 15) ux_rest) by (cbn; lia). split; reflexivity. Qed.
Lemma ux_upto es : forall j r n, qnode_run b0 c0 j es = Some r -> n < length es ->
  exists ev j1 t1 j2 p, qnode_run b0 c0 j (firstn n es) = Some (j1, t1) /\ qnode_step b0 c0 j1 ev = Some (j2, p) /\ qnode_run b0 c0 j (firstn (S n) es) = Some (j2, t1 ++ [(ev, p)]).
Proof.
  induction es as [|ev es IH]; intros j r n R L; [cbn in L; lia|]. cbn [qnode_run] in R. destruct (qnode_step b0 c0 j ev) as [[j' p]|] eqn:ST; [|discriminate].
  destruct (qnode_run b0 c0 j' es) as [[j2 t2]|] eqn:R'; [|discriminate]. destruct n as [|n].
  - exists ev, j, [], j', p. split; [reflexivity|]. split; [exact ST|]. change (firstn 1 (ev :: es)) with [ev]. cbn [qnode_run]. rewrite ST. reflexivity.
  - cbn [length] in L. destruct (IH j' _ n R' ltac:(lia)) as (ev' & j1 & t1 & j3 & p' & A & B & C). exists ev', j1, ((ev, p) :: t1), j3, p'.
    change (firstn (S n) (ev :: es)) with (ev :: firstn n es). change (firstn (S (S n)) (ev :: es)) with (ev :: firstn (S n) es).
    cbn [qnode_run]. rewrite ST, A, C. split; [reflexivity|]. split; [exact B|reflexivity].
Qed.
Lemma ux_goes n : n < 15 -> exists ev p, qnode_step b0 c0 (ux_f n) ev = Some (ux_f (S n), p) /\ ux_t (S n) = ux_t n ++ [(ev, p)].
Proof.
  intros L. assert (R : runsu ux_rest (fst ux_a) = true) by (vm_compute; reflexivity). unfold runsu in R. destruct (qnode_run b0 c0 (fst ux_a) ux_rest) as [r|] eqn:E; [|discriminate R].
  destruct (ux_upto _ _ _ n E L) as (ev & j1 & t1 & j2 & p & A & B & C). exists ev, p. unfold ux_f, ux_t, ranu. rewrite A, C. cbn [fst snd]. rewrite app_assoc. split; [exact B|reflexivity].
Qed.
Lemma ran_none j : ranu [] j = (j, []).
Proof. reflexivity. Qed.
Lemma ux_first es : runsu es qnode_init = true -> qn_history b0 c0 (snd (ranu es qnode_init)) (fst (ranu es qnode_init)).
Proof.
  unfold runsu, ranu. destruct (qnode_run b0 c0 qnode_init es) as [[j tr]|] eqn:E; [|discriminate]. intros _. exact (run_history _ [] _ _ _ (qn_start _ _) E).
Qed.
Lemma ux_history : qn_history b0 c0 (ux_t 0) (ux_f 0).
Proof. unfold ux_t, ux_f. cbn [firstn]. rewrite ran_none. cbn [fst snd]. rewrite app_nil_r. unfold ux_a. apply ux_first. vm_compute. reflexivity. Qed.
Lemma ux_still : forall k, ~ can_act b0 c0 k (qn_calls (ux_f 15)).
Proof.
  value_at (qn_calls (ux_f 15)) E. rewrite E. clear E. intros k (x & r & A & Q).
  destruct k as [|c|c|c|c|c]; destruct x as [|[?|?]| | |?| | | |[]]; try contradiction A; cbn in A; subst; cbn in Q; unfold at_rt in Q; cbn in Q; try discriminate Q;
    repeat match type of Q with context [nth_error _ ?n] => destruct n; cbn in Q; try discriminate Q end.
Qed.
Lemma ux_run : udp_load b0 c0 ux_f ux_t.
Proof.
  constructor.
  - intros n. destruct (Nat.lt_ge_cases n 15) as [L|L]; [right; exact (ux_goes n L)|left]. destruct (ux_after n L) as [-> ->]. destruct (ux_after (S n) ltac:(lia)) as [-> ->]. split; reflexivity.
  - intros k n. exists (15 + n). split; [lia|right]. intros m L. destruct (ux_after m ltac:(lia)) as [-> _]. apply ux_still.
Qed.
Lemma ux_reads : reads_go b0 c0 ux_f ux_t.
Proof.
  intros c n. exists (15 + n). split; [lia|right]. intros m L. destruct (ux_after m ltac:(lia)) as [-> _]. value_at (ux_f 15) E. rewrite E. clear E. intros (r & S).
  destruct c as [|[|c]]; [vm_compute in S; discriminate S|vm_compute in S; discriminate S|]. cbn in S. destruct c; discriminate S.
Qed.
Example C100_example : udp_load b0 c0 ux_f ux_t /\ qn_history b0 c0 (ux_t 0) (ux_f 0) /\
  In (MMade (4%N, 1%N) None) (life 3 (calls_in (ux_t 0))) /\ opened 0 9 (runtime_trace (node_in (ux_t 0))) /\
  accepted 0 (runtime_trace (node_in (ux_t 0))) = [ux_m] /\ map it_msg (waiting (q_rt (qn_calls (ux_f 0))) 1) = [ex_m] /\
  reads_go b0 c0 ux_f ux_t /\ put (qn_node (ux_f 0)) 1 3 /\ ~ consumed (qn_node (ux_f 0)) 1 3 /\ ~ udp_unread ux_f ux_t /\ ~ udp_unread_while ux_f ux_t 1.
Proof.
  split; [exact ux_run|]. split; [exact ux_history|]. split. { value_at (life 3 (calls_in (ux_t 0))) E. rewrite E. cbn. tauto. }
  split. { exists (EEp true). value_at (runtime_trace (node_in (ux_t 0))) E. rewrite E. cbn. tauto. }
  split; [vm_compute; reflexivity|]. split; [vm_compute; reflexivity|]. split; [exact ux_reads|].
  value_at (qn_node (ux_f 0)) E0. rewrite E0. clear E0. split. { eexists _, _. split; [reflexivity|]. split; [reflexivity|]. cbn. lia. }
  split. { intros (h & ch & K & C & L). cbn in K. injection K as <-. cbn in C. injection C as <-. cbn in L. lia. }
  assert (K : forall c x, nth_error (r_conns (q_rt (qn_calls (ux_f 15)))) c = Some x -> c_recv x = RWait []).
  { value_at (r_conns (q_rt (qn_calls (ux_f 15)))) E. rewrite E. intros c x X. destruct c as [|[|[]]]; try discriminate X; injection X as <-; reflexivity. }
  assert (RU : conn_runs (q_rt (qn_calls (ux_f 15))) 1).
  { unfold conn_runs. value_at (r_conns (q_rt (qn_calls (ux_f 15)))) E. rewrite E. eexists; split; reflexivity. }
  split; intros (N & c & n & U); destruct (ux_after (15 + N) ltac:(lia)) as [EF _]; destruct U as [U|U]; specialize (U (15 + N) ltac:(lia)); cbn beta in U; rewrite EF in U.
  - destruct U as [(x & st & it & todo & X & _ & _ & XR & _) _]; rewrite (K c x X) in XR; discriminate XR.
  - destruct U as [(x & st & it & todo & X & _ & _ & XR & _) _]; rewrite (K c x X) in XR; discriminate XR.
  - destruct (U RU) as [(x & st & it & todo & X & _ & _ & XR & _) _]; rewrite (K c x X) in XR; discriminate XR.
  - destruct (U RU) as [(x & st & it & todo & X & _ & _ & XR & _) _]; rewrite (K c x X) in XR; discriminate XR.
Qed.
(** At first none of it had happened; at the end all of it has. *)
Example C100_example_done : sent_out (node_in (ux_t 0)) = [] /\ sent_out (node_in (ux_t 15)) = [(9%N, s_form ux_m)] /\ conn_runs (n_rt (qn_node (ux_f 15))) 0 /\
  ~ (exists o, In (MReturned o) (life 3 (calls_in (ux_t 0)))) /\ In (MReturned (OStub 2 (4%N, 1%N))) (life 3 (calls_in (ux_t 15))) /\
  consumed (qn_node (ux_f 15)) 1 3 /\ map it_msg (stub_backlog (n_rt (qn_node (ux_f 15))) 0) = [ex_m; ex_m].
Proof.
  split; [vm_compute; reflexivity|]. split; [vm_compute; reflexivity|]. split. { unfold conn_runs. value_at (r_conns (n_rt (qn_node (ux_f 15)))) E. rewrite E. eexists; split; reflexivity. }
  split. { value_at (life 3 (calls_in (ux_t 0))) E. rewrite E. intros (o & I). cbn in I. intuition discriminate. }
  split; [value_at (life 3 (calls_in (ux_t 15))) E; rewrite E; cbn; tauto|]. split; [|vm_compute; reflexivity].
  value_at (qn_node (ux_f 15)) E0. rewrite E0. eexists _, _. split; [reflexivity|]. split; [reflexivity|]. cbn. lia.
Qed.
