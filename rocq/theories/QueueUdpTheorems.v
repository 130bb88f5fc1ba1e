(** Theorems about the calls of an endpoint over UDP. *)
From Coq Require Import List NArith Bool PeanoNat Lia Wf_nat Inverse_Image.
From Verif Require Import BytesModel SomeipModel MapModel RuntimeModel RuntimeSpec RuntimeProofs RuntimeWorkTheorems NodeModel NodeSpec NodeProofs ExchangeSpec
  ExchangeRestTheorems LexTheorems QueueModel QueueSpec QueueTheorems QueueProgressTheorems QueueUdpModel QueueUdpSpec.
From Verif Require UdpModel UdpSpec UdpProofs UdpInv UdpTheorems FairSpec FairTheorems QueueFairTheorems.
Import ListNotations.
Open Scope nat_scope.

Section Locks.
Context (bk : iid -> N) (cbk : N -> N).
Notation step := (step bk cbk).
Notation steps := (steps bk cbk).
Notation node_step := (node_step bk cbk).
Notation nhistory := (nhistory bk cbk).
Notation qstep := (qstep bk cbk).
Notation qhistory := (qhistory bk cbk true).
Notation node_does := (node_does bk cbk).
Notation qnode_step := (qnode_step bk cbk).
Notation qn_history := (qn_history bk cbk).
Notation qn_steps := (qn_steps bk cbk).

Ltac cases_in H :=
  repeat (match type of H with
  | context [match ?x with _ => _ end] =>
      lazymatch x with context [match _ with _ => _ end] => fail | _ => destruct x eqn:? end
  end; try discriminate H).

(** ** What the runtime does with the socket below it *)
Lemma run_is s e s' x : node_step s (NRun e) = Some (s', x) -> internal e = true /\ exists o, e_rt x = Some (e, o) /\ step (n_rt s) e = Some (n_rt s', o).
Proof.
  intros S. cbn [NodeModel.node_step] in S. destruct (internal e); [|discriminate]. split; [reflexivity|].
  destruct (step (n_rt s) e) as [[r o]|] eqn:R; [|discriminate]. unfold pair_step in S. cases_in S; injection S as <- <-; eexists; (split; [reflexivity|first [exact R|reflexivity]]).
Qed.
Lemma run_keeps s e s' x : node_step s (NRun e) = Some (s', x) ->
  task_w (n_udp s') = task_w (n_udp s) /\ pending (n_udp s') = pending (n_udp s) /\ unreads (n_udp s') = unreads (n_udp s) /\ (n_rt s' = n_rt s -> s' = s).
Proof.
  intros ST. destruct (run_is _ _ _ _ ST) as (I & o0 & X & _). apply node_step_inv in ST.
  destruct ST; cbn [e_rt] in X; try discriminate X; injection X as <- <-; try discriminate I; cbn [n_udp n_rt].
  - repeat split. intros ->. destruct s. reflexivity.
  - match goal with K : UdpModel.step _ _ = Some _ |- _ => cbn in K; destruct (UdpModel.u_open (n_udp s)); [|discriminate K]; injection K as <- <- end.
    split; [reflexivity|]. split; [reflexivity|]. split; [unfold unreads; cbn; rewrite total_snoc; cbn; lia|].
    intros ->. pose proof (step_addrs _ _ _ _ _ _ H0) as A. apply (f_equal (@length N)) in A. rewrite app_length, map_length in A. cbn in A. lia.
  - match goal with K : UdpModel.step _ _ = Some _ |- _ => cbn in K; destruct (UdpModel.u_open (n_udp s)); [|discriminate K]; destruct (UdpModel.listener_locked (n_udp s)); [discriminate K|];
      injection K as <- <- end.
    split; [reflexivity|]. split; [unfold pending; cbn; rewrite total_snoc; cbn; lia|]. split; [reflexivity|]. intros ->. lia.
Qed.
Lemma does_is es : forall s s' xs, node_does s es = Some (s', xs) -> exists l, map fst l = es /\ steps (n_rt s) l (n_rt s') /\ runtime_trace xs = l /\ Forall (fun e => internal e = true) es.
Proof.
  induction es as [|e es IH]; intros s s' xs D; cbn [QueueUdpModel.node_does] in D.
  - injection D as <- <-. exists []. repeat split; constructor.
  - destruct (node_step s (NRun e)) as [[s1 x]|] eqn:S; [|discriminate D]. destruct (node_does s1 es) as [[s2 ys]|] eqn:D'; [|discriminate D]. cbn in D. injection D as <- <-.
    destruct (IH _ _ _ D') as (l & E & L & T & F). destruct (run_is _ _ _ _ S) as (I & o & X & R). exists ((e, o) :: l). split; [cbn; rewrite E; reflexivity|].
    split; [econstructor; eassumption|]. split; [cbn; rewrite X; cbn; f_equal; exact T|constructor; assumption].
Qed.
Lemma steps_det l : forall l' s s1 s2, steps s l s1 -> steps s l' s2 -> map fst l = map fst l' -> l = l' /\ s1 = s2.
Proof.
  induction l as [|[e o] l IH]; intros [|[e' o'] l'] s s1 s2 S1 S2 E; try discriminate E.
  - inversion S1; inversion S2; subst. auto.
  - cbn in E. injection E as <- E. inversion S1 as [|? ? ? t1 ? ? T1 S1']; subst. inversion S2 as [|? ? ? t2 ? ? T2 S2']; subst.
    assert (K : Some (t1, o) = Some (t2, o')) by congruence. injection K as <- <-. destruct (IH _ _ _ _ S1' S2' E) as [-> ->]. auto.
Qed.
Lemma does_keeps es : forall s s' xs, node_does s es = Some (s', xs) ->
  task_w (n_udp s') = task_w (n_udp s) /\ pending (n_udp s') = pending (n_udp s) /\ unreads (n_udp s') = unreads (n_udp s).
Proof.
  induction es as [|e es IH]; intros s s' xs D; cbn [QueueUdpModel.node_does] in D; [injection D as <- <-; auto|].
  destruct (node_step s (NRun e)) as [[s1 x]|] eqn:S; [|discriminate D]. destruct (node_does s1 es) as [[s2 ys]|] eqn:D'; [|discriminate D]. cbn in D. injection D as <- <-.
  destruct (run_keeps _ _ _ _ S) as (A & B & C & _). destruct (IH _ _ _ D') as (A' & B' & C'). repeat split; congruence.
Qed.
Lemma does_history es : forall tr s s' xs, nhistory tr s -> node_does s es = Some (s', xs) -> nhistory (tr ++ xs) s'.
Proof.
  induction es as [|e es IH]; intros tr s s' xs H D; cbn [QueueUdpModel.node_does] in D; [injection D as <- <-; rewrite app_nil_r; exact H|].
  destruct (node_step s (NRun e)) as [[s1 x]|] eqn:S; [|discriminate D]. destruct (node_does s1 es) as [[s2 ys]|] eqn:D'; [|discriminate D]. cbn in D. injection D as <- <-.
  change (x :: ys) with ([x] ++ ys). rewrite app_assoc. eapply IH; [|exact D']. econstructor; eassumption.
Qed.

(** ** The cases of a step *)
Definition not_run (e : nevent) : Prop := match e with NRun _ => False | _ => True end.
Inductive qngoes (j : qnode) : qnevent -> qnode -> qnlog -> Prop :=
| qg_calls x q o l s xs : qstep (qn_calls j) x = Some (q, o, l) -> node_does (qn_node j) (map fst l) = Some (s, xs) ->
    qngoes j (ByCalls x) (mkQN q s) (mkQL (Some (x, o, l)) xs)
| qg_socket e s x : not_run e -> may_drop e (qn_calls j) = true -> node_step (qn_node j) e = Some (s, x) -> e_rt x = None ->
    qngoes j (BySocket e) (mkQN (qn_calls j) s) (mkQL None [x])
| qg_answer e s x e' o' q o l : not_run e -> may_drop e (qn_calls j) = true -> node_step (qn_node j) e = Some (s, x) -> e_rt x = Some (e', o') ->
    qstep (qn_calls j) (QRun e') = Some (q, o, l) -> qngoes j (BySocket e) (mkQN q s) (mkQL (Some (QRun e', o, l)) [x]).
Lemma qnstepped j ev j' p : qnode_step j ev = Some (j', p) -> qngoes j ev j' p.
Proof.
  intros S. destruct ev as [x|e].
  - cbn [QueueUdpModel.qnode_step] in S. destruct (qstep (qn_calls j) x) as [[[q o] l]|] eqn:Q; [|discriminate]. destruct (node_does (qn_node j) (map fst l)) as [[s xs]|] eqn:D; [|discriminate].
    injection S as <- <-. econstructor; eassumption.
  - assert (N : not_run e) by (destruct e; try exact I; discriminate S).
    assert (S' : (if may_drop e (qn_calls j) then match node_step (qn_node j) e with
        | Some (s, x) => match e_rt x with None => Some (mkQN (qn_calls j) s, mkQL None [x])
            | Some (e', _) => match qstep (qn_calls j) (QRun e') with Some (q, o, l) => Some (mkQN q s, mkQL (Some (QRun e', o, l)) [x]) | None => None end end
        | None => None end else None) = Some (j', p)) by (destruct e; try exact S; contradiction N).
    clear S. destruct (may_drop e (qn_calls j)) eqn:M; [|discriminate]. destruct (node_step (qn_node j) e) as [[s x]|] eqn:X; [|discriminate]. destruct (e_rt x) as [[e' o']|] eqn:E.
    + destruct (qstep (qn_calls j) (QRun e')) as [[[q o] l]|] eqn:Q; [|discriminate]. injection S' as <- <-. eapply qg_answer; eassumption.
    + injection S' as <- <-. eapply qg_socket; eassumption.
Qed.
Lemma qnstep_of j ev j' p : qngoes j ev j' p -> qnode_step j ev = Some (j', p).
Proof.
  intros [x q o l s xs Q D|e s x N M S E|e s x e' o' q o l N M S E Q].
  - cbn [QueueUdpModel.qnode_step]. rewrite Q, D. reflexivity.
  - destruct e; try contradiction N; cbn [QueueUdpModel.qnode_step]; rewrite M, S, E; reflexivity.
  - destruct e; try contradiction N; cbn [QueueUdpModel.qnode_step]; rewrite M, S, E, Q; reflexivity.
Qed.

(** ** Both halves *)
Lemma rt_of_entry s e s' x : node_step s e = Some (s', x) -> match e_rt x with Some (e', o) => step (n_rt s) e' = Some (n_rt s', o) | None => n_rt s' = n_rt s end.
Proof. intros S. apply node_step_inv in S. destruct S; cbn; try assumption; reflexivity. Qed.
Lemma calls_snoc tr p : calls_in (tr ++ [p]) = calls_in tr ++ match ql_call (snd p) with Some l => [l] | None => [] end.
Proof. unfold calls_in. rewrite flat_map_app. cbn [flat_map]. rewrite app_nil_r. reflexivity. Qed.
Lemma node_snoc tr p : node_in (tr ++ [p]) = node_in tr ++ ql_node (snd p).
Proof. unfold node_in. rewrite flat_map_app. cbn [flat_map]. rewrite app_nil_r. reflexivity. Qed.
Lemma rt_app tr tr' : rt_trace (tr ++ tr') = rt_trace tr ++ rt_trace tr'.
Proof. apply flat_map_app. Qed.
Lemma run_app tr tr' : runtime_trace (tr ++ tr') = runtime_trace tr ++ runtime_trace tr'.
Proof. apply flat_map_app. Qed.
Lemma run_one x : runtime_trace [x] = match e_rt x with Some p => [p] | None => [] end.
Proof. cbn. apply app_nil_r. Qed.
Theorem halves tr j : qn_history tr j -> qhistory (calls_in tr) (qn_calls j) /\ nhistory (node_in tr) (qn_node j) /\
  q_rt (qn_calls j) = n_rt (qn_node j) /\ rt_trace (calls_in tr) = runtime_trace (node_in tr).
Proof.
  induction 1 as [|tr j ev j' p H (HQ & HN & R & T) S]; [repeat split; constructor|]. apply qnstepped in S.
  rewrite calls_snoc, node_snoc.
  destruct S as [x q o l s xs Q D|e s x N M S E|e s x e' o' q o l N M S E Q]; cbn [snd ql_call ql_node qn_calls qn_node]; rewrite ?app_nil_r, rt_app || idtac; rewrite run_app, ?app_nil_r, ?T.
  - destruct (does_is _ _ _ _ D) as (l' & E & L & T' & _). pose proof (below _ _ _ _ _ _ _ (qstepped _ _ _ _ _ _ _ Q)) as B. rewrite R in B.
    destruct (steps_det _ _ _ _ _ B L (eq_sym E)) as [<- ER]. split; [econstructor; eassumption|]. split; [eapply does_history; eassumption|]. split; [exact ER|].
    rewrite T'. cbn. rewrite app_nil_r. reflexivity.
  - pose proof (rt_of_entry _ _ _ _ S) as K. rewrite E in K. split; [exact HQ|]. split; [econstructor; eassumption|]. split; [congruence|].
    rewrite run_one, E. cbn. rewrite app_nil_r. reflexivity.
  - pose proof (rt_of_entry _ _ _ _ S) as K. rewrite E in K. split; [econstructor; eassumption|]. split; [econstructor; eassumption|].
    pose proof (qstepped _ _ _ _ _ _ _ Q) as G. inversion G; subst. cbn [q_rt with_rt].
    match goal with Y : step (q_rt _) e' = Some (?a, ?b) |- _ => rewrite R in Y; assert (EQ : Some (a, b) = Some (n_rt s, o')) by congruence; injection EQ as -> -> end.
    split; [reflexivity|]. rewrite run_one, E. reflexivity.
Qed.

(** ** How much is left to do *)
Definition qn_left (j : qnode) : list nat :=
  [task_w (n_udp (qn_node j)); pending (n_udp (qn_node j)); unreads (n_udp (qn_node j)); calls_left (qn_calls j); held (n_udp (qn_node j))].
Definition qn_acts (p : qnevent * qnlog) : bool :=
  match fst p with
  | ByCalls _ => match ql_call (snd p) with Some l => acts l | None => true end
  | BySocket NFail => false
  | BySocket _ => true
  end.
Lemma socket_less tr s e s' x : nhistory tr s -> not_run e -> match e with NDatagram _ _ | NFail => False | _ => True end -> node_step s e = Some (s', x) ->
  let m u := [task_w u; pending u; unreads u] in
  lexl (m (n_udp s')) (m (n_udp s)) \/ m (n_udp s') = m (n_udp s) /\
    ((e_rt x = None /\ held (n_udp s') < held (n_udp s)) \/ exists e' o, e_rt x = Some (e', o) /\ brings e' = None /\ o <> OPending /\ o <> OClosed).
Proof.
  intros H N K ST m. pose proof (socket_history _ _ _ _ H) as HU.
  assert (ED : forall f u o, dropping f -> UdpModel.step (n_udp s) f = Some (u, o) -> lexl (m u) (m (n_udp s)) \/ m u = m (n_udp s) /\ held u < held (n_udp s)).
  { intros f u o D S. destruct (drop_less cbk _ _ _ _ D S) as (E1 & [L|(E2 & E3 & L)]); [left|right]; unfold m; [split; [reflexivity|]; cbn; tauto|]. rewrite E1, E2, E3. auto. }
  assert (ED' : forall f, dropping f -> socket_step s f = Some (s', x) -> lexl (m (n_udp s')) (m (n_udp s)) \/ m (n_udp s') = m (n_udp s) /\
    ((e_rt x = None /\ held (n_udp s') < held (n_udp s)) \/ exists e' o, e_rt x = Some (e', o) /\ brings e' = None /\ o <> OPending /\ o <> OClosed)).
  { intros f D S. unfold socket_step in S. destruct (UdpModel.step (n_udp s) f) as [[u q]|] eqn:US; [|discriminate]. injection S as <- <-. cbn [n_udp e_rt].
    destruct (ED _ _ _ D US) as [L|[E L]]; [left; exact L|right; auto]. }
  destruct e as [e| | | |c|c os|l|c|l|]; try contradiction N; try contradiction K; clear N K.
  - left. cbn in ST. unfold socket_step in ST. cbn [UdpModel.step] in ST. destruct (UdpModel.task_step (n_udp s)) as [u|] eqn:T; [|discriminate]. injection ST as <- <-. cbn [n_udp].
    split; [reflexivity|]. left. destruct (Nat.eq_dec (task_w (n_udp s)) 0) as [Z|Z].
    + exfalso. unfold UdpModel.task_step in T. unfold task_w in Z. destruct (UdpModel.u_task (n_udp s)); try discriminate.
    + destruct (UdpTheorems.task_moves _ _ (UdpInv.inv_history _ _ HU) Z) as (u' & T' & L). rewrite T in T'. injection T' as <-. exact L.
  - cbn [NodeModel.node_step] in ST. destruct (nth_error (n_chan s) c) as [ch|] eqn:C; [|discriminate].
    destruct (UdpModel.step (n_udp s) (UdpModel.ERecv ch)) as [[u q]|] eqn:US; [|discriminate].
    assert (IC : exists cc, nth_error (UdpModel.u_chans (n_udp s)) ch = Some cc).
    { pose proof US as US'. cbn in US'. destruct (nth_error (UdpModel.u_chans (n_udp s)) ch); [eauto|discriminate]. }
    destruct IC as (cc & CC). pose proof (read_less _ _ _ _ _ _ HU CC US) as RL. unfold answer in ST.
    destruct q; try discriminate; (destruct (step (n_rt s) _) as [[r o]|] eqn:S; [|discriminate]); unfold pair_step in ST; injection ST as <- <-; destruct RL as (R1 & R2 & R3); cbn [n_udp e_rt].
    + left. unfold m. split; [reflexivity|]. cbn. tauto.
    + left. unfold m. split; [reflexivity|]. cbn. tauto.
    + right. unfold m. rewrite R1, R2, R3. split; [reflexivity|]. right. exists (EEnd c), o. repeat split; intros ->; cbn in S; cases_in S.
  - cbn [NodeModel.node_step] in ST.
    destruct (nth_error (r_conns (n_rt s)) c) as [y|] eqn:Y; [|discriminate]. destruct (nth_error (n_chan s) c) as [k|]; [|discriminate].
    destruct (c_out y) as [bs|]; [|discriminate]. destruct (nth_error (UdpModel.u_chans (n_udp s)) k); [|discriminate].
    destruct (UdpModel.udp_send bs os) as [ok out]. destruct (step (n_rt s) (ESocket c ok)) as [[r o]|] eqn:S; [|discriminate].
    injection ST as <- <-. right. split; [reflexivity|]. right. exists (ESocket c ok), o. repeat split; intros ->; cbn in S; cases_in S.
  - cbn [NodeModel.node_step] in ST. destruct (nth_error (n_lst s) l) as [k|]; [|discriminate].
    destruct (UdpModel.step (n_udp s) (UdpModel.EAccept k)) as [[u q]|] eqn:US; [|discriminate]. cbn in US.
    destruct (nth_error (UdpModel.u_lsts (n_udp s)) k) as [y|] eqn:Y; [|discriminate]. destruct (UdpModel.l_rx y); [|discriminate].
    unfold answer in ST. destruct (UdpModel.l_queue y) as [|[ch a] qs] eqn:QY.
    + injection US as <- <-. destruct (UdpModel.has_listener _ _); [discriminate|]. destruct (step (n_rt s) (EAcceptEnd l)) as [[r o]|] eqn:S; [|discriminate].
      unfold pair_step in ST. injection ST as <- <-. right. split; [reflexivity|]. right. exists (EAcceptEnd l), o. repeat split; intros ->; cbn in S; cases_in S.
    + injection US as <- <-. destruct (step (n_rt s) (EAccept l a)) as [[r o]|] eqn:S; [|discriminate]. unfold pair_step in ST. injection ST as <- <-. left.
      split; [reflexivity|]. cbn. right. split; [reflexivity|]. left. pose proof (total_set_nth pending_w _ (UdpModel.mkL (UdpModel.l_cap y) qs true) _ _ Y) as T.
      unfold pending_w in T at 2 4. rewrite QY in T. unfold pending. cbn in *. lia.
  - cbn [NodeModel.node_step] in ST. destruct (nth_error (r_conns (n_rt s)) c) as [y|]; [|discriminate]. destruct (nth_error (n_chan s) c) as [k|]; [|discriminate].
    destruct (c_alive y); [discriminate|]. eapply ED'; [|exact ST]. exact Logic.I.
  - cbn [NodeModel.node_step] in ST. destruct (nth_error (r_lsnrs (n_rt s)) l) as [y|]; [|discriminate]. destruct (nth_error (n_lst s) l) as [k|]; [|discriminate].
    destruct (l_alive y); [discriminate|]. eapply ED'; [|exact ST]. exact Logic.I.
  - cbn [NodeModel.node_step] in ST. destruct (ep_strong (n_rt s)); [discriminate|]. destruct (r_ep (n_rt s)); try discriminate. destruct (r_left (n_rt s)); [|discriminate].
    eapply ED'; [|exact ST]. exact Logic.I.
Qed.
Lemma lex_more a b : lexl a b -> forall c d, length c = length d -> lexl (a ++ c) (b ++ d).
Proof.
  revert b. induction a as [|x a IH]; intros [|y b] [L X] c d E; try contradiction X. cbn in L, X. injection L as L. destruct X as [X|[-> X]].
  - split; [cbn; rewrite !app_length; lia|]. left. exact X.
  - destruct (IH b (conj L X) c d E) as [L' X']. split; [cbn; f_equal; exact L'|]. right. split; [reflexivity|exact X'].
Qed.
Lemma pending_same s e s' o : brings e = None -> step s e = Some (s', o) -> o = OPending \/ o = OClosed -> s' = s.
Proof.
  intros B ST N. destruct e; try discriminate B; cbn [RuntimeModel.step] in ST;
  unfold step_ep, step_take, step_route, step_stub, i_recv, push_cmd in ST; cases_in ST; injection ST as <- <-; destruct N; try discriminate; reflexivity.
Qed.
Lemma fail_keeps s s' x : node_step s NFail = Some (s', x) -> e_rt x = None /\ task_w (n_udp s') = task_w (n_udp s) /\ pending (n_udp s') = pending (n_udp s) /\
  unreads (n_udp s') = unreads (n_udp s) /\ held (n_udp s') = held (n_udp s).
Proof.
  intros S. cbn in S. unfold socket_step in S. cbn [UdpModel.step] in S. destruct (UdpModel.u_task (n_udp s)) eqn:T; try discriminate. injection S as <- <-.
  unfold task_w. cbn. rewrite T. repeat split.
Qed.
Lemma qn_less tr j ev j' p : qn_history tr j -> qnode_step j ev = Some (j', p) -> qn_quiet (ev, p) ->
  (qn_acts (ev, p) = false /\ qn_left j' = qn_left j) \/ lexl (qn_left j') (qn_left j).
Proof.
  intros H S Q. destruct (halves _ _ H) as (HQ & HN & R & _). apply qnstepped in S. unfold qn_quiet in Q. unfold qn_acts, qn_left.
  destruct S as [x q o l s xs QS D|e s x N M S E|e s x e' o' q o l N M S E QS]; cbn [fst snd ql_call qn_node qn_calls] in *.
  - destruct (does_keeps _ _ _ _ D) as (A & B & C). rewrite A, B, C. pose proof (calls_less _ _ _ _ _ _ _ _ _ HQ QS Q) as L. destruct (acts (x, o, l)) eqn:AC.
    + right. split; [reflexivity|]; right; split; [reflexivity|]; right; split; [reflexivity|]; right; split; [reflexivity|]; left; lia.
    + left. split; [reflexivity|].
      destruct x; try (destruct l as [|[? []] [|? ?]]; discriminate AC). apply qstepped in QS. inversion QS; subst.
      match goal with Y : step (q_rt _) e = Some (?a, ?b) |- _ => pose proof (pending_same _ _ _ _ Q Y) as K; rewrite R in Y; assert (W : a = q_rt (qn_calls j)) by
        (apply K; cbn in AC; destruct b; try discriminate AC; auto) end.
      subst s'. rewrite with_rt_id. cbn [map fst QueueUdpModel.node_does] in D. destruct (node_step (qn_node j) (NRun e)) as [[s1 y]|] eqn:ST; [|discriminate D]. cbn in D. injection D as <- <-.
      destruct (run_keeps _ _ _ _ ST) as (_ & _ & _ & KK). destruct (run_is _ _ _ _ ST) as (_ & o2 & _ & RS). rewrite KK; [reflexivity|]. congruence.
  - assert (NF : e = NFail \/ match e with NDatagram _ _ | NFail => False | _ => True end) by (destruct e; auto; contradiction Q). destruct NF as [->|NF].
    + left. split; [reflexivity|]. destruct (fail_keeps _ _ _ S) as (_ & -> & -> & -> & ->). reflexivity.
    + right. destruct (socket_less _ _ _ _ _ HN N NF S) as [L|[EQ [[_ L]|(e' & o' & E' & _)]]]; [|injection EQ as -> -> ->; split; [reflexivity|]; cbn; tauto|congruence].
      apply (lex_more _ _ L [_; _] [_; _]). reflexivity.
  - assert (NF : e = NFail \/ match e with NDatagram _ _ | NFail => False | _ => True end) by (destruct e; auto; contradiction Q). destruct NF as [->|NF].
    + destruct (fail_keeps _ _ _ S) as [X _]. congruence.
    + right. destruct (socket_less _ _ _ _ _ HN N NF S) as [L|[EQ [[X _]|(e2 & o2 & E2 & BR & N1 & N2)]]]; [apply (lex_more _ _ L [_; _] [_; _]); reflexivity|congruence|].
      injection EQ as -> -> ->. rewrite E in E2. injection E2 as <- <-. pose proof (calls_less _ _ _ _ _ _ _ _ _ HQ QS BR) as L.
      apply qstepped in QS. inversion QS; subst. pose proof (rt_of_entry _ _ _ _ S) as K. rewrite E in K.
      assert (AC : acts (QRun e', QUnit, [(e', o0)]) = true).
      { assert (o0 = o') as -> by (rewrite <- R in K; congruence). destruct o'; try reflexivity; congruence. }
      rewrite AC in L. split; [reflexivity|]; right; split; [reflexivity|]; right; split; [reflexivity|]; right; split; [reflexivity|]; left; lia.
Qed.
Lemma on_is j ev j' p : qnode_step j ev = Some (j', p) -> qn_on (ev, p) -> qn_quiet (ev, p) /\ qn_acts (ev, p) = true.
Proof.
  intros S O. apply qnstepped in S. unfold qn_on, qn_quiet, qn_acts in *.
  destruct S as [x q o l s xs QS D|e s x N M S E|e s x e' o' q o l N M S E QS]; cbn [fst snd ql_call] in *.
  - destruct x; try (split; [apply (on_quiet bk cbk); exact O|apply on_acts; exact O]). split; [exact I|reflexivity].
  - destruct e; try contradiction O; split; trivial.
  - destruct e; try contradiction O; split; trivial.
Qed.

(** ** What can go on *)
Lemma run_goes_on tr s e r o : nhistory tr s -> task_w (n_udp s) = 0 -> internal e = true -> step (n_rt s) e = Some (r, o) ->
  exists s' x, node_step s (NRun e) = Some (s', x) /\ n_rt s' = r.
Proof.
  intros H T I S.
  assert (OP : (exists c a, o = OSpawned c a) \/ length (r_lsnrs (n_rt s)) < length (r_lsnrs r) -> UdpModel.u_open (n_udp s) = true).
  { intros K. destruct (UdpModel.u_open (n_udp s)) eqn:O; [reflexivity|]. exfalso. destruct (closed_over _ _ _ _ H O) as (E & P & L).
    assert (E1 := E). unfold ep_strong in E1. apply orb_false_iff in E1. destruct E1 as [_ E1]. change (existsb opens_pc (r_stubs (n_rt s)) = false) in E1.
    destruct K as [(c & a & ->)|K].
    - destruct (spawn_event _ _ _ _ _ _ _ S) as (_ & [(ok & ->)|[(n & ok & ->)|[(l & ->)|(k & ok & ->)]]]); cbn in S; unfold step_ep, step_take in S; rewrite ?P, ?L in S; try discriminate S; try (destruct k; discriminate S); [|discriminate I].
      unfold step_stub, push_cmd in S. cases_in S.
      match goal with X : nth_error (r_stubs _) _ = Some ?t |- _ => pose proof (existsb_at _ _ _ _ E1 X) as Z; unfold opens_pc in Z;
         match goal with W : st_pc t = _ |- _ => rewrite W in Z end; congruence end.
    - destruct (listens_open _ _ _ _ _ _ S K) as (ok & ->). cbn in S. unfold step_ep in S. rewrite P in S. discriminate S. }
  assert (LK : UdpModel.listener_locked (n_udp s) = false).
  { unfold task_w in T. unfold UdpModel.listener_locked. destruct (UdpModel.u_task (n_udp s)); try discriminate; reflexivity. }
  cbn [NodeModel.node_step]. rewrite I, S.
  assert (EL : length (r_lsnrs (n_rt s)) < length (r_lsnrs r) -> exists u l, UdpModel.step (n_udp s) (UdpModel.EListen 8) = Some (u, UdpModel.OListening l)).
  { intros K. cbn. rewrite (OP (or_intror K)), LK. eauto. }
  assert (DL : length (r_lsnrs (n_rt s)) < length (r_lsnrs r) \/ (length (r_lsnrs (n_rt s)) <? length (r_lsnrs r)) = false).
  { destruct (Nat.ltb_spec (length (r_lsnrs (n_rt s))) (length (r_lsnrs r))); auto. }
  assert (NS : (exists c a, o = OSpawned c a) \/ ~ (exists c a, o = OSpawned c a)).
  { destruct o; try (left; eauto; fail); right; intros (? & ? & ?); discriminate. }
  destruct NS as [(c & a & ->)|NS].
  - assert (US : exists u k, UdpModel.step (n_udp s) (UdpModel.EConnect a) = Some (u, UdpModel.OConnected k)).
    { cbn. rewrite OP by (left; eauto). eauto. }
    destruct US as (u & k & ->). eexists. eexists. split; reflexivity.
  - assert (G : exists s' x, (if length (r_lsnrs (n_rt s)) <? length (r_lsnrs r) then
              match UdpModel.step (n_udp s) (UdpModel.EListen 8) with
              | Some (u, UdpModel.OListening l) =>
                  pair_step s e r o (UdpModel.EListen 8) u (UdpModel.OListening l) [] [l] None
              | _ => None
              end
            else Some (mkN r (n_udp s) (n_chan s) (n_lst s), NodeModel.mkE (Some (e, o)) None None)) = Some (s', x) /\ n_rt s' = r).
    { destruct DL as [K|K].
      - destruct (EL K) as (u & l & ->). apply Nat.ltb_lt in K. rewrite K. eexists. eexists. split; reflexivity.
      - rewrite K. eexists. eexists. split; reflexivity. }
    destruct o; try exact G. exfalso. apply NS. eauto.
Qed.
Lemma follow l : forall tr s r, nhistory tr s -> task_w (n_udp s) = 0 -> Forall (fun e => internal e = true) (map fst l) -> steps (n_rt s) l r ->
  exists s' xs, node_does s (map fst l) = Some (s', xs).
Proof.
  induction l as [|[e o] l IH]; intros tr s r H T F S; [exists s, []; reflexivity|]. inversion S as [|? ? ? r1 ? ? S1 S2]; subst. cbn [map fst] in *. inversion F as [|? ? F1 F2]; subst.
  destruct (run_goes_on _ _ _ _ _ H T F1 S1) as (s1 & x & ST & <-). destruct (run_keeps _ _ _ _ ST) as (T1 & _). rewrite T in T1.
  destruct (IH _ _ _ (n_more _ _ _ _ _ _ _ H ST) T1 F2 S2) as (s' & xs & D). exists s', (x :: xs). cbn [QueueUdpModel.node_does]. rewrite ST, D. reflexivity.
Qed.
Lemma inside tr q x q' o l : qhistory tr q -> qstep q x = Some (q', o, l) -> goes_on (x, o, l) ->
  Forall (fun e => internal e = true) (map fst l) \/ exists c, x = QRun (ESocket c true).
Proof.
  intros H S G. pose proof (invariant _ _ _ _ _ H) as V. apply qstepped in S. pose proof (not_refused _ _ _ _ _ _ _ _ V S) as NR.
  destruct S; try congruence; try contradiction G; cbn [map fst]; try (left; constructor; fail); try (left; repeat constructor; fail).
  - left. constructor; [|constructor]. unfold begins. destruct (e_gone e); [reflexivity|]. destruct to; reflexivity.
  - destruct ok; [|contradiction G]. left. constructor; [|constructor]. unfold connects in *. destruct (e_gone e); [subst b; reflexivity|].
    match goal with K : exists n, _ |- _ => destruct K as (n & _ & ->) end. reflexivity.
  - destruct ok; [|contradiction G]. left. repeat constructor.
  - destruct ok; [|contradiction G]. left. constructor; [reflexivity|]. match goal with K : dropped_answer _ _ _ _ _ _ |- _ => unfold dropped_answer in K; destruct o; cbn in K;
      first [destruct K as (? & _ & ->); repeat constructor|destruct K as [_ ->]; constructor] end.
  - destruct ok; [|contradiction G]. left. repeat constructor.
  - destruct G as [C _]. destruct e; try contradiction C; try (left; repeat constructor; fail); try (destruct ok; [|contradiction C]; try (left; repeat constructor; fail)). right. eauto.
Qed.
Definition answers_of (e : event) : bool := match e with EPacket _ _ | ELagged _ | EEnd _ | ESocket _ _ | EAccept _ _ | EAcceptEnd _ => true | _ => false end.
Lemma entry_answers s e s' x e' o : not_run e -> node_step s e = Some (s', x) -> e_rt x = Some (e', o) -> answers_of e' = true.
Proof.
  intros N S E. destruct e as [e|a d| | |c|c os|l|c|l|]; try contradiction N; cbn [NodeModel.node_step] in S; unfold socket_step, answer, pair_step in S; cases_in S;
  injection S as <- <-; cbn in E; try discriminate E; injection E as <- <-; reflexivity.
Qed.
Lemma by_socket tr j e s' x : qn_history tr j -> settles e -> not_run e -> may_drop e (qn_calls j) = true -> node_step (qn_node j) e = Some (s', x) -> qn_can bk cbk j.
Proof.
  intros H Q N M S. destruct (halves _ _ H) as (_ & _ & R & _). exists (BySocket e). pose proof (rt_of_entry _ _ _ _ S) as K. destruct (e_rt x) as [[e' o']|] eqn:E.
  - pose proof (entry_answers _ _ _ _ _ _ N S E) as A. assert (QS : exists q o l, qstep (qn_calls j) (QRun e') = Some (q, o, l)).
    { cbn. assert (EW : elsewhere e' (qn_calls j) = true) by (destruct e'; try discriminate A; reflexivity). rewrite EW. unfold at_rt. rewrite R, K. eauto. }
    destruct QS as (q & o & l & QS). eexists _, _. split; [apply qnstep_of; eapply qg_answer; eassumption|exact Q].
  - eexists _, _. split; [apply qnstep_of; eapply qg_socket; eassumption|exact Q].
Qed.
Theorem qn_progress tr j : qn_history tr j -> qn_can bk cbk j \/ qn_rest bk cbk j \/ qn_jammed bk tr j.
Proof.
  intros H. destruct (halves _ _ H) as (HQ & HN & R & T). destruct (Nat.eq_dec (task_w (n_udp (qn_node j))) 0) as [Z|Z].
  2: { left. destruct (UdpTheorems.task_moves _ _ (UdpInv.inv_history _ _ (socket_history _ _ _ _ HN)) Z) as (u & TK & _).
       eapply (by_socket _ _ NTask); [exact H|exact I|exact I|reflexivity|]. cbn. unfold socket_step. cbn [UdpModel.step]. rewrite TK. reflexivity. }
  destruct (calls_progress _ _ _ _ _ HQ) as [(x & q & o & l & S & G)|[AE|(c & n & J)]].
  - left. destruct (inside _ _ _ _ _ _ HQ S G) as [F|(c & ->)].
    + pose proof (below _ _ _ _ _ _ _ (qstepped _ _ _ _ _ _ _ S)) as B. rewrite R in B. destruct (follow _ _ _ _ HN Z F B) as (s' & xs & D).
      exists (ByCalls x). eexists _, _. split; [apply qnstep_of; econstructor; eassumption|]. unfold qn_on. cbn [fst snd ql_call]. destruct x; try exact G. exact I.
    + apply qstepped in S. inversion S; subst. match goal with Y : step (q_rt _) (ESocket c true) = Some _ |- _ => rewrite R in Y; destruct (send_goes _ _ _ _ _ _ _ HN Y) as (s2 & x & ST & _) end.
      eapply (by_socket _ _ (NSend c true)); [exact H|exact I|exact I|reflexivity|exact ST].
  - pose proof AE as [ID [CH NOW] CA]. destruct (step_on _ _ _ _ HN) as [(e & s' & x & Q & ST & NE)|[[P C]|J]].
    + left. destruct e as [e| | | |c|c os|k|c|k|]; try contradiction Q.
      * exfalso. destruct (run_is _ _ _ _ ST) as (_ & o & _ & RS). rewrite R in ID. destruct (FairTheorems.idle_stays bk cbk _ _ _ _ ID (coop_brings _ Q) RS) as [_ K].
        apply NE. destruct (run_keeps _ _ _ _ ST) as (_ & _ & _ & SAME). apply SAME. eapply no_news_same; [exact Q|exact RS|exact (K Q)].
      * eapply by_socket; [exact H|exact Q|exact I|reflexivity|exact ST].
      * eapply by_socket; [exact H|exact Q|exact I|reflexivity|exact ST].
      * eapply by_socket; [exact H|exact Q|exact I|reflexivity|exact ST].
      * eapply by_socket; [exact H|exact Q|exact I|reflexivity|exact ST].
      * eapply by_socket; [exact H|exact Q|exact I|reflexivity|exact ST].
      * eapply by_socket; [exact H|exact Q|exact I|reflexivity|exact ST].
      * destruct (q_over (qn_calls j)) eqn:OV; [eapply by_socket; [exact H|exact Q|exact I|exact OV|exact ST]|].
        cbn [NodeModel.node_step] in ST. destruct (ep_strong (n_rt (qn_node j))) eqn:ES; [discriminate ST|].
        exists (ByCalls QStop). assert (S : qstep (qn_calls j) QStop = Some (with_over (qn_calls j), QUnit, [])).
        { cbn. rewrite OV, NOW, CH, R, ES. reflexivity. }
        eexists _, _. split; [apply qnstep_of; eapply qg_calls; [exact S|reflexivity]|exact I].
    + right. left. constructor; assumption.
    + right. right. exact J.
  - right. right. exists c, n. rewrite <- T, <- R. exact J.
Qed.

(** ** Once it has come to rest *)
Lemma open_stays s e s' x : node_step s e = Some (s', x) -> e <> NDropSocket -> UdpModel.u_open (n_udp s') = UdpModel.u_open (n_udp s).
Proof.
  intros ST N.
  assert (OS : forall f u q, UdpModel.step (n_udp s) f = Some (u, q) -> f <> UdpModel.EDropSocket -> UdpModel.u_open u = UdpModel.u_open (n_udp s)).
  { intros f u q S F. apply UdpProofs.step_inv in S. destruct S; try reflexivity; try congruence.
    destruct (UdpProofs.drop_all_other (UdpModel.l_queue x0) (UdpModel.set_lst (n_udp s) l (UdpModel.mkL (UdpModel.l_cap x0) [] false))) as (-> & _). reflexivity. }
  pose proof ST as ST'. apply node_step_inv in ST. destruct ST; cbn [n_rt n_udp] in *; try reflexivity.
  1-2,4-8: (match goal with S : UdpModel.step _ _ = Some _ |- _ => rewrite <- (OS _ _ _ S) by discriminate; reflexivity end).
  match goal with S : UdpModel.step _ _ = Some _ |- _ => apply (OS _ _ _ S) end. intros ->.
  destruct e; try (apply N; reflexivity); cbn in ST'; unfold socket_step, answer, pair_step in ST'; cases_in ST'; congruence.
Qed.
Lemma does_open es : forall s s' xs, node_does s es = Some (s', xs) -> UdpModel.u_open (n_udp s') = UdpModel.u_open (n_udp s).
Proof.
  induction es as [|e es IH]; intros s s' xs D; cbn [QueueUdpModel.node_does] in D; [injection D as <- <-; reflexivity|].
  destruct (node_step s (NRun e)) as [[s1 x]|] eqn:S; [|discriminate D]. destruct (node_does s1 es) as [[s2 ys]|] eqn:D'; [|discriminate D]. cbn in D. injection D as <- <-.
  rewrite (IH _ _ _ D'). eapply open_stays; [exact S|discriminate].
Qed.
Lemma over_stays q x q' o l : qstep q x = Some (q', o, l) -> q_over q = true -> q_over q' = true.
Proof. intros S O. apply qstepped in S. destruct S; cbn; congruence. Qed.
Theorem closed_stopped tr j : qn_history tr j -> UdpModel.u_open (n_udp (qn_node j)) = false -> q_over (qn_calls j) = true.
Proof.
  induction 1 as [|tr j ev j' p H IH S]; [discriminate|]. intros O. apply qnstepped in S.
  assert (K : forall e s x, node_step (qn_node j) e = Some (s, x) -> may_drop e (qn_calls j) = true -> UdpModel.u_open (n_udp s) = false -> q_over (qn_calls j) = true).
  { intros e s x S' M O'. assert (DS : e = NDropSocket \/ e <> NDropSocket) by (destruct e; auto; right; discriminate). destruct DS as [-> |N]; [exact M|].
    apply IH. rewrite <- (open_stays _ _ _ _ S' N). exact O'. }
  destruct S as [x q o l s xs QS D|e s x N M S E|e s x e' o' q o l N M S E QS]; cbn [qn_calls qn_node] in *.
  - eapply over_stays; [exact QS|]. apply IH. rewrite <- (does_open _ _ _ _ D). exact O.
  - eapply K; eassumption.
  - eapply over_stays; [exact QS|]. eapply K; eassumption.
Qed.
Lemma socket_changes tr j e s' x : nhistory tr (qn_node j) -> settles e -> not_run e -> node_step (qn_node j) e = Some (s', x) -> s' <> qn_node j.
Proof.
  intros H Q N S ->. destruct (socket_less _ _ _ _ _ H N ltac:(destruct e; try exact I; contradiction Q) S) as [[_ L]|[_ [[_ L]|(e' & o & E & B & N1 & N2)]]].
  - exact (lex_irrefl _ L).
  - lia.
  - pose proof (rt_of_entry _ _ _ _ S) as K. rewrite E in K. pose proof (work_less _ _ _ _ _ _ B K N1 N2). lia.
Qed.
Theorem rest_done tr j : qn_history tr j -> qn_rest bk cbk j -> ~ qn_can bk cbk j.
Proof.
  intros H [AE P C] (ev & j' & p & S & O). destruct (halves _ _ H) as (HQ & HN & R & _). apply qnstepped in S. unfold qn_on in O.
  assert (SK : forall e s x, settles e -> not_run e -> node_step (qn_node j) e = Some (s, x) -> False).
  { intros e s x Q N S'. apply (socket_changes _ _ _ _ _ HN Q N S'). exact (FairTheorems.udp_done _ _ _ _ _ _ _ HN P C Q S'). }
  destruct S as [x q o l s xs QS D|e s x N M S E|e s x e' o' q o l N M S E QS]; cbn [fst snd ql_call] in O.
  - assert (G : goes_on (x, o, l) \/ x = QStop) by (destruct x; auto). destruct G as [G| ->].
    + apply (QueueFairTheorems.ease_done bk cbk true _ _ HQ AE). exists x, q, o, l. auto.
    + apply qstepped in QS. inversion QS; subst. rewrite R in *. pose proof (closed_stopped _ _ H (no_socket_left _ C ltac:(assumption))). congruence.
  - eapply SK; eassumption.
  - eapply SK; eassumption.
Qed.
Theorem rest_answered tr j : qn_history tr j -> at_ease (qn_calls j) -> all_answered tr.
Proof. intros H E t id to M D. eapply calls_answered; [exact (proj1 (halves _ _ H))|exact E|exact M|exact D]. Qed.

(** ** The runs *)
Theorem qn_stops (f : nat -> qnode) tr : qn_history tr (f 0) -> ~ (forall n, exists ev p, qn_on (ev, p) /\ qnode_step (f n) ev = Some (f (S n), p)).
Proof.
  intros H F. assert (HN : forall n, exists t, qn_history t (f n)).
  { induction n as [|n (t & IH)]; [eauto|]. destruct (F n) as (ev & p & _ & S). eexists. eapply qn_more; eassumption. }
  assert (L : forall n, lexl (qn_left (f (S n))) (qn_left (f n))).
  { intros n. destruct (HN n) as (t & Ht). destruct (F n) as (ev & p & O & S). destruct (on_is _ _ _ _ S O) as [Q A]. destruct (qn_less _ _ _ _ _ Ht S Q) as [[K _]|K]; [congruence|exact K]. }
  assert (A : forall m, Acc lexl m -> forall n, qn_left (f n) = m -> False).
  { induction 1 as [m _ IH]. intros n E. apply (IH (qn_left (f (S n)))) with (n := S n); [rewrite <- E; apply L|reflexivity]. }
  exact (A _ (lex_wf (qn_left (f 0))) 0 eq_refl).
Qed.
Theorem qn_stopped tr j : qn_history tr j -> ~ qn_can bk cbk j -> qn_rest bk cbk j \/ qn_jammed bk tr j.
Proof. intros H N. destruct (qn_progress _ _ H) as [K|K]; [contradiction|exact K]. Qed.
Theorem qn_comes_to_rest tr j : qn_history tr j -> exists tr' j', qn_steps j tr' j' /\ Forall qn_on tr' /\ qn_history (tr ++ tr') j' /\ (qn_rest bk cbk j' \/ qn_jammed bk (tr ++ tr') j').
Proof.
  remember (qn_left j) as m eqn:E. revert tr j E. induction m as [m IH] using (well_founded_induction lex_wf). intros tr j -> H.
  destruct (qn_progress _ _ H) as [(ev & j1 & p & S & O)|K].
  - destruct (on_is _ _ _ _ S O) as [Q A]. destruct (qn_less _ _ _ _ _ H S Q) as [[K _]|K]; [congruence|].
    destruct (IH _ K _ _ eq_refl (qn_more _ _ _ _ _ _ _ H S)) as (tr' & j' & S' & F & H' & D). exists ((ev, p) :: tr'), j'. rewrite <- app_assoc in D, H'.
    split; [econstructor; eassumption|]. split; [constructor; assumption|]. split; assumption.
  - exists [], j. rewrite app_nil_r. split; [constructor|]. split; [constructor|]. split; assumption.
Qed.
Lemma goes_history tr j p j' : qn_history tr j -> qn_goes bk cbk j p j' -> qn_history (tr ++ [p]) j'.
Proof. intros H [_ S]. destruct p as [ev p]. econstructor; eassumption. Qed.
Lemma answered_stays tr j p j' : qn_history tr j -> all_answered tr -> qn_goes bk cbk j p j' -> all_answered (tr ++ [p]).
Proof.
  intros H A [Q S] t id to. destruct p as [ev p]. cbn [fst snd] in S. rewrite calls_snoc. cbn [snd].
  assert (NM : match ql_call p with Some l => match l with (QCall _ _, _, _) => False | _ => True end | None => True end).
  { apply qnstepped in S. unfold qn_quiet in Q. destruct S; cbn [fst snd ql_call] in *; [destruct x; try exact I; contradiction Q|exact I|exact I]. }
  destruct (ql_call p) as [l|]; [|rewrite app_nil_r; apply A]. unfold life. rewrite flat_map_app. cbn [flat_map]. rewrite app_nil_r. intros M D. apply in_app_iff in M. destruct M as [M|M].
  - destruct (A t id to M) as (o & B & F); [intros K; apply D; apply in_app_iff; auto|]. exists o. split; [apply in_app_iff; auto|exact F].
  - exfalso. destruct l as [[x o] l]. unfold mark_of in M. destruct x as [| | | | |[?|?]| | |], o as [|?|[?|?] ?| |[?|?] ?|[?|?] ? ?|? ?]; cbn in M; try contradiction;
    repeat match type of M with context [?a =? ?b] => destruct (Nat.eqb_spec a b) end; cbn in M; intuition discriminate.
Qed.
Theorem qn_fair_rest f t : qn_fair bk cbk f t -> qn_history (t 0) (f 0) -> forall k, exists n, k <= n /\ qn_history (t n) (f n) /\
  ((qn_rest bk cbk (f n) /\ forall m, n <= m -> all_answered (t m)) \/ qn_jammed bk (t n) (f n)).
Proof.
  intros R P k.
  destruct (FairTheorems.fair_rest (qn_goes bk cbk) (qn_can bk cbk) (fun _ p _ => qn_on p) qn_history (fun tr j => qn_rest bk cbk j \/ qn_jammed bk tr j)
    (fun _ j => qn_left j) lexl lex_wf goes_history) with (f := f) (t := t) (k := k) as (n & L & Q); try assumption.
  - intros tr j [ev p] j' H [QU S]. cbn [fst snd] in S. destruct (qn_less _ _ _ _ _ H S QU) as [[_ K]|K]; auto.
  - intros tr j [ev p] j' H [QU S] O. cbn [fst snd] in S. destruct (on_is _ _ _ _ S O) as [_ A]. destruct (qn_less _ _ _ _ _ H S QU) as [[K _]|K]; [congruence|exact K].
  - exact qn_progress.
  - pose proof (FairTheorems.fair_past _ _ _ _ goes_history _ _ R P) as PN. exists n. split; [exact L|]. split; [apply PN|]. destruct Q as [Q|Q]; [left|right; exact Q]. split; [exact Q|].
    intros m LM. apply (FairTheorems.fair_keeps _ _ _ _ goes_history (fun tr _ => all_answered tr) _ _ R P) with (n := n) (m := m); [|eapply rest_answered; [apply PN|apply Q]|exact LM].
    intros tr j p j' H A G. eapply answered_stays; eassumption.
Qed.
Theorem qn_fair_exists tr j l j' : FairSpec.goes_to (qn_goes bk cbk) j l j' -> qn_history (tr ++ l) j' -> qn_rest bk cbk j' ->
  exists f t, qn_fair bk cbk f t /\ f 0 = j /\ t 0 = tr /\ forall m, length l <= m -> f m = j' /\ t m = tr ++ l.
Proof. intros G H E. apply FairTheorems.fair_exists; [exact G|]. eapply rest_done; eassumption. Qed.
End Locks.
