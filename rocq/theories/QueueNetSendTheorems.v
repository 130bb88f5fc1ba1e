(** What an endpoint and its calls may still send never grows by itself. *)
From Coq Require Import List NArith Bool PeanoNat Lia.
From Verif Require Import BytesModel MapModel EndpointProofs RuntimeModel RuntimeSpec RuntimeProofs RuntimeWorkTheorems NodeModel NodeSpec NodeProofs ExchangeSpec
  LexTheorems QueueModel QueueSpec QueueTheorems QueueProgressTheorems QueueUdpModel QueueUdpSpec QueueUdpTheorems.
From Verif Require TcpNetRestTheorems ExchangeRestTheorems.
Import ListNotations.
Open Scope nat_scope.

Section Locks.
Context (bk : iid -> N) (cbk : N -> N).
Notation step := (step bk cbk).
Notation to_send := TcpNetRestTheorems.to_send.
Notation spc_w := TcpNetRestTheorems.spc_w.
Notation out_w := TcpNetRestTheorems.out_w.

Ltac cases_in H :=
  repeat (match type of H with
  | context [match ?x with _ => _ end] =>
      lazymatch x with context [match _ with _ => _ end] => fail | _ => destruct x eqn:? end
  end; try discriminate H).
Ltac step_cases H :=
  unfold RuntimeModel.step, step_ep, step_take, step_route, step_stub, i_recv, push_cmd in H; cases_in H;
  injection H as <- <-.
Ltac rcbn := unfold upd_conn, upd_iface, upd_lsnr, upd_stub, upd_proxy, spawn in *;
  cbn [r_open r_datagram r_ep r_listener r_imap r_cmap r_ifaces r_conns r_lsnrs r_stubs r_proxies r_left
       set_ep set_open set_listener set_imap set_cmap set_ifaces set_conns set_lsnrs set_stubs set_proxies set_left
       st_iface st_lst st_conns st_pc st_alive st_with_pc st_with_conns end_stub l_alive l_cmds l_local l_conns l_pc
       l_with_cmds l_with_local l_with_conns l_with_pc end_lsnr new_lsnr px_iface px_conn px_remote px_alive end_proxy
       c_addr c_alive c_cmds c_out c_local c_recv c_count c_with_cmds c_with_out c_with_local c_with_recv c_with_count new_conn end_conn] in *.
Ltac one_total :=
  match goal with
  | |- context [total ?w (?l ++ [?x])] => rewrite (total_snoc w l x)
  | H : nth_error ?l ?n = Some ?x |- context [total ?w (upd ?n ?f ?l)] =>
      let K := fresh "K" in pose proof (total_upd w n f l x H) as K;
      let v := fresh "v" in set (v := total w (upd n f l)) in *; clearbody v
  end.
Ltac hide := repeat match goal with
  | |- context [total ?w ?l] => let v := fresh "v" in set (v := total w l) in *; clearbody v
  end.
Ltac wcbn := rcbn; cbn [total left_w bool_w ep_w pc_w fst snd length app] in *.
Ltac values := repeat match goal with
  | H : ?a = _ |- _ => lazymatch type of a with nat => fail | _ => rewrite H in *; clear H end
  end.
Lemma quiet_sends s e s' o : step s e = Some (s', o) -> brings e = None -> to_send s' <= to_send s.
Proof.
  intros ST B.
  assert (L : TcpNetRestTheorems.inward e -> to_send s' <= to_send s) by (intros I; destruct (TcpNetRestTheorems.send_step _ _ _ _ _ _ ST I) as [L|[L _]]; lia).
  destruct e; try discriminate B; try (apply L; left; exact Logic.I);
  try (destruct ok; [apply L; left; exact Logic.I|]); try (apply L; right; right; eauto; fail); clear L; step_cases ST; try (cbn; reflexivity);
  try (unfold TcpNetRestTheorems.to_send; rcbn; repeat one_total;
    repeat match goal with H : nth_error (r_left _) _ = _ |- _ => rewrite (total_drop left_w _ _ _ H); clear H end; cbn [total left_w]; hide;
    repeat match goal with H : nth_error _ _ = _ |- _ => clear H end; wcbn; unfold TcpNetRestTheorems.spc_w, TcpNetRestTheorems.out_w in *; rcbn; values; wcbn;
    rewrite ?app_length in *; cbn [length] in *; lia).
Qed.
Lemma call_sends s e s' o : step s e = Some (s', o) -> match e with EServe _ | EProxy _ _ | EAbandon _ _ => True | _ => False end -> to_send s' <= to_send s + 9.
Proof.
  intros ST B. destruct e; try contradiction B; step_cases ST; try (cbn; lia);
  (unfold TcpNetRestTheorems.to_send; rcbn; repeat one_total; cbn [total left_w]; hide; wcbn; values; wcbn; lia).
Qed.
Lemma packet_sends s e s' o : step s e = Some (s', o) -> match e with EPacket _ _ | EEnd _ | ELagged _ | EAccept _ _ | EAcceptEnd _ => True | _ => False end -> to_send s' <= to_send s.
Proof.
  intros ST B. destruct e; try contradiction B; try (eapply quiet_sends; [exact ST|reflexivity]).
  1: destruct (TcpNetRestTheorems.send_step _ _ _ _ _ _ ST) as [L|[L _]]; [right; left; eauto|lia|lia].
  all: step_cases ST; unfold TcpNetRestTheorems.to_send; rcbn; repeat one_total; hide; wcbn; unfold TcpNetRestTheorems.out_w in *; wcbn; lia.
Qed.

(** ** With the calls *)
Definition call_s (k : qcall) : nat := match k_stat k with CNew => 9 | _ => 0 end.
Definition entry_s (e : qentry) : nat := match e_cmd e with KCall _ _ => if e_gone e then 0 else 9 | KConnect _ => 0 end.
Definition calls_send (q : qst) : nat := to_send (q_rt q) + total call_s (q_calls q) + total entry_s (q_chan q).
Lemma lose_s f l : total entry_s (map (lose f) l) <= total entry_s l.
Proof. induction l as [|e l IH]; [cbn; lia|]. cbn. unfold lose at 1. destruct (waits f e); [|lia]. unfold entry_s at 1. cbn. destruct (e_cmd e); lia. Qed.
Lemma lose_call_s t l : Forall sorted_cmd l -> existsb (waits (FCall t)) l = true -> 9 + total entry_s (map (lose (FCall t)) l) <= total entry_s l.
Proof.
  induction l as [|e l IH]; intros S E; [discriminate|]. inversion S as [|? ? S1 S2]; subst. cbn [existsb map total] in *. unfold lose at 1. destruct (waits (FCall t) e) eqn:W.
  - pose proof (lose_s (FCall t) l). destruct (waits_is _ _ W) as [G F]. unfold sorted_cmd in S1. rewrite F in S1. unfold entry_s at 1 3. cbn. rewrite G. destruct (e_cmd e); [contradiction|]. lia.
  - specialize (IH S2 E). lia.
Qed.
Lemma dropped_sends s o l s' : dropped_answer bk cbk s o l s' -> to_send s' <= to_send s.
Proof.
  unfold dropped_answer. destruct (drop_answer o) as [d|] eqn:D; [|intros [-> _]; lia]. intros (o' & S & _). eapply quiet_sends; [exact S|].
  destruct o; try discriminate D; injection D as <-; reflexivity.
Qed.
Lemma sends_less dg tr q x q' o l : qhistory bk cbk dg tr q -> qstep bk cbk q x = Some (q', o, l) ->
  match x with QCall _ _ => False | QRun e => brings e = None \/ match e with EPacket _ _ | EEnd _ | ELagged _ | EAccept _ _ | EAcceptEnd _ => True | _ => False end | _ => True end ->
  calls_send q' <= calls_send q.
Proof.
  intros H S GO. pose proof (invariant _ _ _ _ _ H) as V. apply qstepped in S. pose proof (not_refused _ _ _ _ _ _ _ _ V S) as NR.
  destruct S; try congruence; try (exfalso; exact GO); unfold calls_send; cbn [q_chan q_now q_calls q_rt q_over with_rt with_chan with_now with_calls with_over set_call unwatch].
  - pose proof (total_upd call_s _ (k_now CIn) _ _ H0) as T. rewrite total_snoc. unfold call_s, entry_s in *. cbn [e_cmd e_gone k_stat k_now] in *. lia.
  - rewrite total_snoc. unfold entry_s at 2. cbn [e_cmd e_gone]. lia.
  - rewrite H2 in *. cbn [total] in *. lia.
  - rewrite H2 in *. cbn [total] in *. unfold entry_s at 2. rewrite H3. unfold begins in H4. destruct (e_gone e) eqn:G.
    + pose proof (quiet_sends _ _ _ _ H4 eq_refl). lia.
    + pose proof (call_sends _ _ _ _ H4 ltac:(destruct to; exact Logic.I)). lia.
  - unfold connects in H2. assert (B : brings b = None) by (destruct (e_gone e); [subst b; reflexivity|destruct H2 as (n & _ & ->); reflexivity]).
    pose proof (quiet_sends _ _ _ _ H3 B). lia.
  - pose proof (quiet_sends _ _ _ _ H2 eq_refl). lia.
  - pose proof (quiet_sends _ _ _ _ H2 eq_refl). pose proof (dropped_sends _ _ _ _ H5). lia.
  - pose proof (quiet_sends _ _ _ _ H2 eq_refl).
    destruct (now_call _ _ _ _ V H0 H4 H5) as (i & z & T & _). pose proof (total_upd call_s _ (k_now (CAnswered o)) _ _ T) as TT. unfold call_s in *. cbn [k_stat k_now] in *. lia.
  - pose proof (total_upd call_s _ (k_now COver) _ _ H0) as TT. unfold call_s in *. cbn [k_stat k_now] in *. lia.
  - pose proof (total_upd call_s _ (k_now COver) _ _ H0) as TT. unfold call_s in *. cbn [k_stat k_now] in *. lia.
  - pose proof (total_upd call_s _ (k_now COver) _ _ H0) as TT. pose proof (call_sends _ _ _ _ H2 Logic.I) as W.
    assert (SO : Forall sorted_cmd (q_chan q)) by (pose proof (v_sort _ _ V) as SO; unfold entries in SO; apply Forall_app in SO; apply SO).
    pose proof (lose_call_s _ _ SO H1). unfold call_s in *. cbn [k_stat k_now] in *. lia.
  - pose proof (total_upd call_s _ (k_now COver) _ _ H0) as TT. pose proof (lose_s (FCall t) (q_chan q)). unfold call_s in *. cbn [k_stat k_now] in *. lia.
  - pose proof (total_upd call_s _ (k_now COver) _ _ H0) as TT. pose proof (dropped_sends _ _ _ _ H1). unfold call_s in *. cbn [k_stat k_now] in *. lia.
  - pose proof (quiet_sends _ _ _ _ H0 eq_refl). pose proof (lose_s (FSend n) (q_chan q)). lia.
  - pose proof (quiet_sends _ _ _ _ H1 eq_refl). lia.
  - lia.
  - destruct GO as [GO|GO]; [pose proof (quiet_sends _ _ _ _ H1 GO)|pose proof (packet_sends _ _ _ _ H1 GO)]; lia.
Qed.
Lemma socket_sends q c ok q' o l : qstep bk cbk q (QRun (ESocket c ok)) = Some (q', o, l) -> calls_send q' < calls_send q.
Proof.
  intros S. apply qstepped in S. inversion S; subst. unfold calls_send. cbn [q_chan q_calls q_rt with_rt].
  match goal with K : step _ _ = Some _ |- _ => pose proof (TcpNetRestTheorems.socket_sends _ _ _ _ _ _ _ K) end. lia.
Qed.

(** ** An endpoint and its socket *)
Lemma run_out s e s' x : node_step bk cbk s (NRun e) = Some (s', x) -> e_out x = None.
Proof. intros S. cbn [NodeModel.node_step] in S. unfold pair_step in S. cases_in S; injection S as <- <-; reflexivity. Qed.
Lemma does_out es : forall s s' xs, node_does bk cbk s es = Some (s', xs) -> Forall (fun x => e_out x = None) xs.
Proof.
  induction es as [|e es IH]; intros s s' xs D; cbn [QueueUdpModel.node_does] in D; [injection D as <- <-; constructor|].
  destruct (node_step bk cbk s (NRun e)) as [[s1 x]|] eqn:S; [|discriminate D]. destruct (node_does bk cbk s1 es) as [[s2 ys]|] eqn:D'; [|discriminate D]. cbn in D. injection D as <- <-.
  constructor; [eapply run_out; exact S|eapply IH; exact D'].
Qed.
Lemma socket_out s e s' x : not_run e -> node_step bk cbk s e = Some (s', x) ->
  (exists c ok o, e_rt x = Some (ESocket c ok, o)) \/
  (e_out x = None /\ match e_rt x with None => True | Some (e', _) => match e' with EPacket _ _ | EEnd _ | ELagged _ | EAccept _ _ | EAcceptEnd _ => True | _ => False end end).
Proof.
  intros N S. destruct e as [e|a d| | |c|c os|l|c|l|]; try contradiction N; cbn [NodeModel.node_step] in S; unfold socket_step, answer, pair_step in S; cases_in S;
  injection S as <- <-; cbn [e_rt e_out]; eauto 6.
Qed.
Lemma none_out xs : Forall (fun x => e_out x = None) xs -> forall a, flat_map (fun x => match e_out x with Some (b, d) => [(a, b, d)] | None => [] end) xs = ([] : list (N * N * list N)).
Proof. induction 1 as [|x xs E _ IH]; intros a; [reflexivity|]. cbn. rewrite E, IH. reflexivity. Qed.
Lemma node_sends tr j ev j' p : qn_history bk cbk tr j -> qnode_step bk cbk j ev = Some (j', p) ->
  qn_quiet (ev, p) \/ (exists a d, ev = BySocket (NDatagram a d)) ->
  calls_send (qn_calls j') < calls_send (qn_calls j) \/ (calls_send (qn_calls j') <= calls_send (qn_calls j) /\ Forall (fun x => e_out x = None) (ql_node p)).
Proof.
  intros H S Q. destruct (halves _ _ _ _ H) as (HQ & HN & R & _). apply qnstepped in S. unfold qn_quiet in Q.
  destruct S as [x q o l s xs QS D|e s x N M S E|e s x e' o' q o l N M S E QS]; cbn [fst snd ql_call ql_node qn_node qn_calls] in *.
  - right. split; [|eapply does_out; exact D]. destruct Q as [Q|(a & d & Q)]; [|discriminate Q]. eapply sends_less; [exact HQ|exact QS|]. destruct x; try exact Logic.I; try exact Q. left. exact Q.
  - right. split; [reflexivity|]. constructor; [|constructor]. destruct (socket_out _ _ _ _ N S) as [(c & ok & o & K)|[K _]]; [congruence|exact K].
  - destruct (socket_out _ _ _ _ N S) as [(c & ok & o2 & K)|[K1 K2]].
    + left. rewrite E in K. injection K as -> ->. eapply socket_sends. exact QS.
    + right. rewrite E in K2. split; [|constructor; [exact K1|constructor]]. eapply sends_less; [exact HQ|exact QS|]. right. exact K2.
Qed.
End Locks.
