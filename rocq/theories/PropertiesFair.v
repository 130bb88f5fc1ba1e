(** Property theorem C87: everything comes to rest if nothing is left undone for ever.
    [bk] and [cbk] say which entries of the shared maps share a lock: all theorems hold whatever
    they are. *)
From Coq Require Import List NArith Bool PeanoNat Lia.
From Verif Require Import BytesModel WireSpec SomeipModel SomeipSpec MapModel RuntimeModel RuntimeSpec NodeModel NodeSpec ExchangeSpec
  TcpModel TcpSpec TcpNodeModel TcpNodeSpec TcpRestSpec TcpNetModel TcpNetSpec TcpNetTheorems FairSpec FairTheorems PropertiesRuntime.
From Verif Require PropertiesTcpNet.
Import ListNotations.
Open Scope nat_scope.

(** C87.  After the last call and the last packet, an endpoint whose tasks and users do not stay away
    from something they could do for ever comes to where nothing is left to do, and stays there, or
    it gets into the deadlock of C60.  [k] is any time: so there is such a time after any other. *)
Theorem C87_endpoint : forall bk cbk dg f t, rt_fair bk cbk f t -> history bk cbk dg (t 0) (f 0) -> forall k, exists n, k <= n /\
  history bk cbk dg (t n) (f n) /\ ((forall m, n <= m -> idle (f m)) \/ exists c i, jammed bk (t n) (f n) c i).
Proof. exact @rt_comes_to_rest. Qed.
Print Assumptions C87_endpoint.
(** So do an endpoint over UDP and one over TCP, *)
Theorem C87_udp : forall bk cbk f t, udp_fair bk cbk f t -> nhistory bk cbk (t 0) (f 0) -> forall k, exists n, k <= n /\
  nhistory bk cbk (t n) (f n) /\
  ((forall m, n <= m -> f m = f n /\ at_peace bk cbk (f m) /\ caught_up (f m)) \/ exists c i, jammed bk (runtime_trace (t n)) (n_rt (f n)) c i).
Proof. exact @udp_comes_to_rest. Qed.
Print Assumptions C87_udp.
Theorem C87_tcp : forall bk cbk f t, tcp_fair bk cbk f t -> thistory bk cbk (t 0) (f 0) -> forall k, exists n, k <= n /\
  thistory bk cbk (t n) (f n) /\
  ((forall m, n <= m -> f m = f n /\ idle (t_rt (f m)) /\ all_read (t m) (f m)) \/ exists c i, jammed bk (tcp_trace (t n)) (t_rt (f n)) c i).
Proof. exact @tcp_comes_to_rest. Qed.
Print Assumptions C87_tcp.
(** and any number of endpoints over TCP with the streams between them. *)
Theorem C87_tcp_net : forall bk cbk f t, net_fair bk cbk f t -> tnet_history bk cbk (t 0) (f 0) -> forall k, exists n, k <= n /\
  tnet_history bk cbk (t n) (f n) /\
  ((forall m, n <= m -> net_at_rest (t m) (f m) /\ ~ changed (f n) (f m)) \/ exists a c i, jammed bk (rt_tcp a (t n)) (t_rt (tn_node (f n) a)) c i).
Proof. exact @net_fair_rest. Qed.
Print Assumptions C87_tcp_net.
(** So, unless one of them deadlocks, there is a time from which on every stub that listens has been
    given exactly the messages for its service that were accepted at the other end of a connection, in
    order, if both ends run and every read stopped where a message stops (C76). *)
Theorem C87_delivered : forall bk cbk f t, net_fair bk cbk f t -> tnet_history bk cbk (t 0) (f 0) -> forall k, exists n, k <= n /\
  ((forall m, n <= m -> forall tr1 tr2 a c b d i id, t m = tr1 ++ tr2 ->
      ordinary_at a (t m) -> never_cut (f m) (t m) -> joined (f m) a c b d -> conn_runs (t_rt (tn_node (f m) a)) c -> conn_runs (t_rt (tn_node (f m) b)) d ->
      served i id (rt_tcp b tr1) -> reads d (at_tcp b tr1) = [] -> stub_exists (t_rt (tn_node (f m) b)) i -> stub_listening (t_rt (tn_node (f m) b)) i ->
      map it_msg (from_conn d (stub_got i (rt_tcp b (t m)))) = filter (of_id id) (accepted c (rt_tcp a (t m)))) \/
   exists a c i, jammed bk (rt_tcp a (t n)) (t_rt (tn_node (f n) a)) c i).
Proof. exact @net_delivered. Qed.
Print Assumptions C87_delivered.
(** Rest is rest: an endpoint that is idle stays so until somebody calls something or something
    arrives, and at rest nothing changes. *)
Theorem C87_idle_stays : forall bk cbk s e s' o, idle s -> brings e = None -> step bk cbk s e = Some (s', o) ->
  idle s' /\ (cooperative e -> o = OPending \/ o = OClosed).
Proof. exact @idle_stays. Qed.
Print Assumptions C87_idle_stays.
Theorem C87_udp_still : forall bk cbk tr s e s' x, nhistory bk cbk tr s -> at_peace bk cbk s -> caught_up s ->
  settles e -> node_step bk cbk s e = Some (s', x) -> s' = s.
Proof. exact @udp_done. Qed.
Print Assumptions C87_udp_still.
Theorem C87_tcp_still : forall bk cbk tr s e s' x, thistory bk cbk tr s -> idle (t_rt s) -> all_read tr s ->
  tcp_settles s e -> tnode_step bk cbk s e = Some (s', x) -> s' = s.
Proof. exact @tcp_done. Qed.
Print Assumptions C87_tcp_still.
Theorem C87_net_still : forall bk cbk tr w e w' x, tnet_history bk cbk tr w -> net_at_rest tr w ->
  net_settles w e -> tnet_step bk cbk w e = Some (w', x) -> ~ changed w w'.
Proof. exact @net_still. Qed.
Print Assumptions C87_net_still.
(** Every finite run to rest is the beginning of a run as above, so there are such runs. *)
Theorem C87_endpoint_runs : forall bk cbk s tr l s', goes_to (rt_goes bk cbk) s l s' -> idle s' ->
  exists f t, rt_fair bk cbk f t /\ f 0 = s /\ t 0 = tr /\ forall m, length l <= m -> f m = s' /\ t m = tr ++ l.
Proof. exact @rt_run_exists. Qed.
Print Assumptions C87_endpoint_runs.
Theorem C87_udp_runs : forall bk cbk s tr l s', goes_to (udp_goes bk cbk) s l s' -> nhistory bk cbk (tr ++ l) s' -> at_peace bk cbk s' -> caught_up s' ->
  exists f t, udp_fair bk cbk f t /\ f 0 = s /\ t 0 = tr /\ forall m, length l <= m -> f m = s' /\ t m = tr ++ l.
Proof. exact @udp_run_exists. Qed.
Print Assumptions C87_udp_runs.
Theorem C87_tcp_runs : forall bk cbk s tr l s', goes_to (tcp_goes bk cbk) s l s' -> thistory bk cbk (tr ++ l) s' -> idle (t_rt s') -> all_read (tr ++ l) s' ->
  exists f t, tcp_fair bk cbk f t /\ f 0 = s /\ t 0 = tr /\ forall m, length l <= m -> f m = s' /\ t m = tr ++ l.
Proof. exact @tcp_run_exists. Qed.
Print Assumptions C87_tcp_runs.
Theorem C87_net_runs : forall bk cbk w tr l w', goes_to (net_goes bk cbk) w l w' -> tnet_history bk cbk (tr ++ l) w' -> net_at_rest (tr ++ l) w' ->
  exists f t, net_fair bk cbk f t /\ f 0 = w /\ t 0 = tr /\ forall m, length l <= m -> f m = w' /\ t m = tr ++ l.
Proof. exact @net_run_exists. Qed.
Print Assumptions C87_net_runs.

(** A stub has been asked to send: a run in which the message is sent, after a poll of the stub that
    finds nothing. *)
Definition ex_asked : list event := ex_both ++ [EListener 0; EListener 0; ESendTo 0 5%N (ex_m 7)].
Definition ex_done : list event := [EStub 0 true; EStub 0 true; EStub 0 true; ERecvFrom 0; ESender 0; ESocket 0 true].
Lemma ex_goes_to es : forall s s' l, Forall (fun e => brings e = None) es -> run b0 c0 s es = Some (s', l) -> goes_to (rt_goes b0 c0) s l s'.
Proof.
  induction es as [|e es IH]; intros s s' l F R; cbn in R; [injection R as <- <-; constructor|]. inversion F; subst.
  destruct (step b0 c0 s e) as [[s1 o]|] eqn:S; [|discriminate]. destruct (run b0 c0 s1 es) as [[s2 l2]|] eqn:R2; [|discriminate]. injection R as <- <-.
  eapply gt_more; [split; [assumption|exact S]|]. apply IH; assumption.
Qed.
Example C87_endpoint_example : exists f t, rt_fair b0 c0 f t /\ history b0 c0 true (t 0) (f 0) /\ ~ idle (f 0) /\ sent 0 (t 0) = [] /\
  forall m, 6 <= m -> idle (f m) /\ sent 0 (t m) = [s_form (ex_m 7)].
Proof.
  destruct (run b0 c0 (rt_init true) ex_asked) as [[s tr]|] eqn:R; [|vm_compute in R; discriminate R].
  assert (H : history b0 c0 true tr s) by (apply (ex_history ex_asked); exact R).
  destruct (run b0 c0 s ex_done) as [[s' l]|] eqn:R'; [|exfalso; vm_compute in R; injection R as <- <-; vm_compute in R'; discriminate R'].
  assert (G : goes_to (rt_goes b0 c0) s l s') by (apply (ex_goes_to ex_done); [repeat constructor|exact R']).
  vm_compute in R. injection R as <- <-. vm_compute in R'. injection R' as <- <-.
  match type of G with goes_to _ ?s ?l ?s' => match type of H with history _ _ _ ?tr _ => destruct (C87_endpoint_runs b0 c0 s tr l s' G) as (f & t & FR & F & T & E) end end; [ex_idle|].
  exists f, t. split; [exact FR|]. rewrite F, T. split; [exact H|]. split; [intros J; apply (no_send _ J 0); eexists; split; [reflexivity|discriminate]|]. split; [reflexivity|].
  intros m L. destruct (E m L) as [-> ->]. split; [ex_idle|reflexivity].
Qed.
(** That somebody can always do something is not enough that it is done: a run in which nobody does. *)
Theorem C87_left_undone_refuted : exists f t, (forall n, (f (S n) = f n /\ t (S n) = t n) \/ exists x, rt_goes b0 c0 (f n) x (f (S n)) /\ t (S n) = t n ++ [x]) /\
  history b0 c0 true (t 0) (f 0) /\ forall n, rt_can b0 c0 (f n) /\ ~ idle (f n) /\ forall c i, ~ jammed b0 (t n) (f n) c i.
Proof.
  destruct (run b0 c0 (rt_init true) ex_asked) as [[s tr]|] eqn:R; [|vm_compute in R; discriminate R].
  exists (fun _ => s), (fun _ => tr). split; [auto|]. split; [apply (ex_history ex_asked); exact R|]. intros _.
  vm_compute in R. injection R as <- <-.
  split; [exists (EStub 0 true); eexists; eexists; split; [exact I|]; split; [vm_compute; reflexivity|split; discriminate]|].
  split; [intros J; apply (no_send _ J 0); eexists; split; [reflexivity|discriminate]|].
  intros c i (id & id2 & _ & _ & _ & [[k CR]|[o CR]] & _); discriminate CR.
Qed.
Print Assumptions C87_left_undone_refuted.
(** The network of C86_example: what the proxy was asked to send is given to the stub. *)
Lemma settling_goes bk cbk w l w' : net_settling bk cbk w l w' -> goes_to (net_goes bk cbk) w l w'.
Proof. induction 1; [constructor|]. eapply gt_more; [eexists; split; eassumption|assumption]. Qed.
Example C87_net_example : exists f t n, net_fair b0 c0 f t /\ tnet_history b0 c0 (t 0) (f 0) /\ stub_got 0 (rt_tcp 9 (t 0)) = [] /\
  forall m, n <= m -> net_at_rest (t m) (f m) /\ map it_msg (stub_got 0 (rt_tcp 9 (t m))) = [note 1 7].
Proof.
  destruct PropertiesTcpNet.C86_example as (H & S & R & G0 & G1).
  assert (H' : tnet_history b0 c0 (snd PropertiesTcpNet.ex_asked ++ snd PropertiesTcpNet.ex_settled) (fst PropertiesTcpNet.ex_settled)) by (unfold PropertiesTcpNet.ex_settled; apply PropertiesTcpNet.ran_history; [vm_compute; reflexivity|exact H]).
  destruct (C87_net_runs _ _ _ (snd PropertiesTcpNet.ex_asked) _ _ (settling_goes _ _ _ _ _ S) H' R) as (f & t & FR & F & T & E).
  exists f, t, (length (snd PropertiesTcpNet.ex_settled)). split; [exact FR|]. rewrite F, T. split; [exact H|]. split; [exact G0|].
  intros m L. destruct (E m L) as [-> ->]. split; [exact R|exact G1].
Qed.
