(** Theorems about the calls of an endpoint over TCP. *)
From Coq Require Import List NArith Bool PeanoNat Lia Wf_nat.
From Verif Require Import BytesModel SomeipModel MapModel RuntimeModel RuntimeSpec RuntimeProofs RuntimeProgressTheorems RuntimeWorkTheorems
  TcpModel TcpSpec TcpTheorems TcpNodeModel TcpNodeSpec TcpNodeTheorems TcpRestSpec TcpRestTheorems
  LexTheorems QueueModel QueueSpec QueueTheorems QueueProgressTheorems QueueTcpModel QueueTcpSpec.
From Verif Require ExchangeRestTheorems FairSpec FairTheorems QueueFairTheorems.
Import ListNotations.
Open Scope nat_scope.

Section Locks.
Context (bk : iid -> N) (cbk : N -> N).
Notation step := (step bk cbk).
Notation steps := (steps bk cbk).
Notation tnode_step := (tnode_step bk cbk).
Notation thistory := (thistory bk cbk).
Notation qstep := (qstep bk cbk).
Notation qhistory := (qhistory bk cbk false).
Notation tnode_does := (tnode_does bk cbk).
Notation qtnode_step := (qtnode_step bk cbk).
Notation qt_history := (qt_history bk cbk).
Notation qt_steps := (qt_steps bk cbk).

Ltac cases_in H :=
  repeat (match type of H with
  | context [match ?x with _ => _ end] =>
      lazymatch x with context [match _ with _ => _ end] => fail | _ => destruct x eqn:? end
  end; try discriminate H).

(** ** What the runtime does with the streams below it *)
Lemma run_is s e s' x : tnode_step s (TRun e) = Some (s', x) -> tcp_internal e = true /\ exists o, te_rt x = Some (e, o) /\ step (t_rt s) e = Some (t_rt s', o) /\
  t_links s' = t_links s ++ repeat new_link (length (r_conns (t_rt s')) - length (t_links s)).
Proof.
  intros S. cbn [TcpNodeModel.tnode_step] in S. destruct (tcp_internal e); [|discriminate]. split; [reflexivity|]. unfold tcp_answer in S.
  destruct (step (t_rt s) e) as [[r o]|] eqn:R; [|discriminate]. injection S as <- <-. exists o. repeat split; first [exact R|reflexivity].
Qed.
Lemma does_is es : forall s s' xs, tnode_does s es = Some (s', xs) -> exists l, map fst l = es /\ steps (t_rt s) l (t_rt s') /\ tcp_trace xs = l.
Proof.
  induction es as [|e es IH]; intros s s' xs D; cbn [QueueTcpModel.tnode_does] in D.
  - injection D as <- <-. exists []. repeat split; constructor.
  - destruct (tnode_step s (TRun e)) as [[s1 x]|] eqn:S; [|discriminate D]. destruct (tnode_does s1 es) as [[s2 ys]|] eqn:D'; [|discriminate D]. cbn in D. injection D as <- <-.
    destruct (IH _ _ _ D') as (l & E & L & T). destruct (run_is _ _ _ _ S) as (I & o & X & R & _). exists ((e, o) :: l). split; [cbn; rewrite E; reflexivity|].
    split; [econstructor; eassumption|]. cbn. rewrite X. cbn. f_equal. exact T.
Qed.
Lemma steps_det l : forall l' s s1 s2, steps s l s1 -> steps s l' s2 -> map fst l = map fst l' -> l = l' /\ s1 = s2.
Proof.
  induction l as [|[e o] l IH]; intros [|[e' o'] l'] s s1 s2 S1 S2 E; try discriminate E.
  - inversion S1; inversion S2; subst. auto.
  - cbn in E. injection E as <- E. inversion S1 as [|? ? ? t1 ? ? T1 S1']; subst. inversion S2 as [|? ? ? t2 ? ? T2 S2']; subst.
    assert (K : Some (t1, o) = Some (t2, o')) by congruence. injection K as <- <-. destruct (IH _ _ _ _ S1' S2' E) as [-> ->]. auto.
Qed.
Lemma run_unreads s e s' x : tnode_step s (TRun e) = Some (s', x) -> unreads s' = unreads s.
Proof. intros S. destruct (run_is _ _ _ _ S) as (_ & o & _ & _ & L). unfold unreads. rewrite L. apply unread_grow. Qed.
Lemma does_unreads es : forall s s' xs, tnode_does s es = Some (s', xs) -> unreads s' = unreads s.
Proof.
  induction es as [|e es IH]; intros s s' xs D; cbn [QueueTcpModel.tnode_does] in D; [injection D as <- <-; auto|].
  destruct (tnode_step s (TRun e)) as [[s1 x]|] eqn:S; [|discriminate D]. destruct (tnode_does s1 es) as [[s2 ys]|] eqn:D'; [|discriminate D]. cbn in D. injection D as <- <-.
  rewrite (IH _ _ _ D'). exact (run_unreads _ _ _ _ S).
Qed.
Lemma does_history es : forall tr s s' xs, thistory tr s -> tnode_does s es = Some (s', xs) -> thistory (tr ++ xs) s'.
Proof.
  induction es as [|e es IH]; intros tr s s' xs H D; cbn [QueueTcpModel.tnode_does] in D; [injection D as <- <-; rewrite app_nil_r; exact H|].
  destruct (tnode_step s (TRun e)) as [[s1 x]|] eqn:S; [|discriminate D]. destruct (tnode_does s1 es) as [[s2 ys]|] eqn:D'; [|discriminate D]. cbn in D. injection D as <- <-.
  change ((TRun e, x) :: ys) with ([(TRun e, x)] ++ ys). rewrite app_assoc. eapply IH; [|exact D']. econstructor; eassumption.
Qed.
Lemma same_node tr s e s' x : thistory tr s -> tnode_step s (TRun e) = Some (s', x) -> t_rt s' = t_rt s -> s' = s.
Proof.
  intros H S E. destruct (run_is _ _ _ _ S) as (_ & o & _ & _ & L). rewrite E, (links_length _ _ _ _ H), Nat.sub_diag in L. cbn in L. rewrite app_nil_r in L.
  destruct s, s'; cbn in *; congruence.
Qed.

(** ** The cases of a step *)
Definition not_run (e : tnevent) : Prop := match e with TRun _ => False | _ => True end.
Inductive qtgoes (j : qtnode) : qtevent -> qtnode -> qtlog -> Prop :=
| qg_calls x q o l s xs : qstep (qt_calls j) x = Some (q, o, l) -> tnode_does (qt_node j) (map fst l) = Some (s, xs) ->
    qtgoes j (AtCalls x) (mkQT q s) (mkQTL (Some (x, o, l)) xs)
| qg_stream e s x : not_run e -> tnode_step (qt_node j) e = Some (s, x) -> te_rt x = None ->
    qtgoes j (AtStream e) (mkQT (qt_calls j) s) (mkQTL None [(e, x)])
| qg_answer e s x e' o' q o l : not_run e -> tnode_step (qt_node j) e = Some (s, x) -> te_rt x = Some (e', o') ->
    qstep (qt_calls j) (QRun e') = Some (q, o, l) -> qtgoes j (AtStream e) (mkQT q s) (mkQTL (Some (QRun e', o, l)) [(e, x)]).
Lemma qtstepped j ev j' p : qtnode_step j ev = Some (j', p) -> qtgoes j ev j' p.
Proof.
  intros S. destruct ev as [x|e].
  - cbn [QueueTcpModel.qtnode_step] in S. destruct (qstep (qt_calls j) x) as [[[q o] l]|] eqn:Q; [|discriminate]. destruct (tnode_does (qt_node j) (map fst l)) as [[s xs]|] eqn:D; [|discriminate].
    injection S as <- <-. econstructor; eassumption.
  - assert (N : not_run e) by (destruct e; try exact I; discriminate S).
    assert (S' : match tnode_step (qt_node j) e with
        | Some (s, x) => match te_rt x with None => Some (mkQT (qt_calls j) s, mkQTL None [(e, x)])
            | Some (e', _) => match qstep (qt_calls j) (QRun e') with Some (q, o, l) => Some (mkQT q s, mkQTL (Some (QRun e', o, l)) [(e, x)]) | None => None end end
        | None => None end = Some (j', p)) by (destruct e; try exact S; contradiction N).
    clear S. destruct (tnode_step (qt_node j) e) as [[s x]|] eqn:X; [|discriminate]. destruct (te_rt x) as [[e' o']|] eqn:E.
    + destruct (qstep (qt_calls j) (QRun e')) as [[[q o] l]|] eqn:Q; [|discriminate]. injection S' as <- <-. eapply qg_answer; eassumption.
    + injection S' as <- <-. eapply qg_stream; eassumption.
Qed.
Lemma qtstep_of j ev j' p : qtgoes j ev j' p -> qtnode_step j ev = Some (j', p).
Proof.
  intros [x q o l s xs Q D|e s x N S E|e s x e' o' q o l N S E Q].
  - cbn [QueueTcpModel.qtnode_step]. rewrite Q, D. reflexivity.
  - destruct e; try contradiction N; cbn [QueueTcpModel.qtnode_step]; rewrite S, E; reflexivity.
  - destruct e; try contradiction N; cbn [QueueTcpModel.qtnode_step]; rewrite S, E, Q; reflexivity.
Qed.

(** ** Both halves *)
Lemma rt_of_entry s e s' x : tnode_step s e = Some (s', x) -> match te_rt x with Some (e', o) => step (t_rt s) e' = Some (t_rt s', o) | None => t_rt s' = t_rt s end.
Proof. intros S. apply tnode_stepped in S. destruct S; cbn; try assumption; reflexivity. Qed.
Lemma calls_snoc tr p : calls_at (tr ++ [p]) = calls_at tr ++ match qtl_call (snd p) with Some l => [l] | None => [] end.
Proof. unfold calls_at. rewrite flat_map_app. cbn [flat_map]. rewrite app_nil_r. reflexivity. Qed.
Lemma node_snoc tr p : node_at (tr ++ [p]) = node_at tr ++ qtl_node (snd p).
Proof. unfold node_at. rewrite flat_map_app. cbn [flat_map]. rewrite app_nil_r. reflexivity. Qed.
Lemma rt_app tr tr' : rt_trace (tr ++ tr') = rt_trace tr ++ rt_trace tr'.
Proof. apply flat_map_app. Qed.
Lemma run_app tr tr' : tcp_trace (tr ++ tr') = tcp_trace tr ++ tcp_trace tr'.
Proof. apply flat_map_app. Qed.
Lemma run_one p : tcp_trace [p] = match te_rt (snd p) with Some p => [p] | None => [] end.
Proof. cbn. apply app_nil_r. Qed.
Theorem halves tr j : qt_history tr j -> qhistory (calls_at tr) (qt_calls j) /\ thistory (node_at tr) (qt_node j) /\
  q_rt (qt_calls j) = t_rt (qt_node j) /\ rt_trace (calls_at tr) = tcp_trace (node_at tr).
Proof.
  induction 1 as [|tr j ev j' p H (HQ & HN & R & T) S]; [repeat split; constructor|]. apply qtstepped in S.
  rewrite calls_snoc, node_snoc.
  destruct S as [x q o l s xs Q D|e s x N S E|e s x e' o' q o l N S E Q]; cbn [snd qtl_call qtl_node qt_calls qt_node]; rewrite ?app_nil_r, rt_app || idtac; rewrite run_app, ?app_nil_r, ?T.
  - destruct (does_is _ _ _ _ D) as (l' & E & L & T'). pose proof (below _ _ _ _ _ _ _ (qstepped _ _ _ _ _ _ _ Q)) as B. rewrite R in B.
    destruct (steps_det _ _ _ _ _ B L (eq_sym E)) as [<- ER]. split; [econstructor; eassumption|]. split; [eapply does_history; eassumption|]. split; [exact ER|].
    rewrite T'. cbn. rewrite app_nil_r. reflexivity.
  - pose proof (rt_of_entry _ _ _ _ S) as K. rewrite E in K. split; [exact HQ|]. split; [econstructor; eassumption|]. split; [congruence|].
    rewrite run_one. cbn [snd]. rewrite E. cbn. rewrite app_nil_r. reflexivity.
  - pose proof (rt_of_entry _ _ _ _ S) as K. rewrite E in K. split; [econstructor; eassumption|]. split; [econstructor; eassumption|].
    pose proof (qstepped _ _ _ _ _ _ _ Q) as G. inversion G; subst. cbn [q_rt with_rt].
    match goal with Y : step (q_rt _) e' = Some (?a, ?b) |- _ => rewrite R in Y; assert (EQ : Some (a, b) = Some (t_rt s, o')) by congruence; injection EQ as -> -> end.
    split; [reflexivity|]. rewrite run_one. cbn [snd]. rewrite E. reflexivity.
Qed.

(** ** How much is left to do *)
Definition qt_left (j : qtnode) : list nat := [unreads (qt_node j); calls_left (qt_calls j); unsent (qt_node j)].
Lemma unsent_upd s c f r k : nth_error (t_links s) c = Some k -> k_sent (f k) = k_sent k -> t_rt r = t_rt s -> t_links r = upd c f (t_links s) -> unsent r = unsent s.
Proof.
  intros K E R L. unfold unsent. rewrite R, L. destruct (nth_error (r_conns (t_rt s)) c) as [x|] eqn:X.
  - pose proof (total_combine unsent_w _ _ c f _ _ X K) as T. unfold unsent_w in T at 2 4. cbn [fst snd] in T. rewrite E in T. lia.
  - clear K E. assert (forall (l : list conn) ls c, nth_error l c = None -> combine l (upd c f ls) = combine l ls) as ->; [|reflexivity|exact X].
    induction l as [|y l IH]; intros [|z ls] [|d] N; try reflexivity; cbn in N; try discriminate N. cbn. f_equal. apply IH. exact N.
Qed.
Lemma stream_less tr s e s' x : thistory tr s -> not_run e -> match e with TBytes _ _ => False | _ => True end -> tnode_step s e = Some (s', x) ->
  unreads s' < unreads s \/ unreads s' = unreads s /\
  ((exists e' o, te_rt x = Some (e', o) /\ brings e' = None /\ o <> OPending /\ o <> OClosed) \/
   s' = s \/
   (te_rt x = None /\ (unsent s' < unsent s \/ unsent s' = unsent s /\ ~ tcp_settles s e))).
Proof.
  intros H N Q ST. pose proof (links_length _ _ _ _ H) as LL. pose proof (writing _ _ _ _ H) as WR.
  destruct (tnode_stepped _ _ _ _ _ _ ST) as
    [e r o n IN S NN|c d k K F|c k K|c q d t k r o n K R S NN|c q t k r o n K R S NN|c q y k bs w z r o n Y K O W S NN|c q y k bs w z r o n Y K O W S NN|c q y k bs w z Y K O W];
    try contradiction Q; try contradiction N; cbn [te_rt].
  - right. split.
    { unfold unreads. cbn [t_links]. pose proof (total_upd unread_w c (k_with_in (mkT (t_avail (k_in k)) true)) _ _ K) as T. unfold unread_w in T at 2 4. cbn in T. lia. }
    right. right. split; [reflexivity|]. right. split; [|intros []].
    apply (unsent_upd s c (k_with_in (mkT (t_avail (k_in k)) true)) _ k); [exact K|reflexivity|reflexivity|reflexivity].
  - destruct (recv_one _ _ _ _ R) as (_ & A & F). destruct d as [|b d].
    + right. cbn in A. assert (t = k_in k) as -> by (destruct t, (k_in k); cbn in *; congruence). subst n. pose proof (empty_read bk cbk _ _ _ _ _ K LL S) as E. split; [f_equal; exact E|]. auto.
    + left. unfold unreads. cbn [t_links]. rewrite unread_grow. pose proof (total_upd unread_w c (k_with_in t) _ _ K) as T.
      unfold unread_w in T at 2 4. cbn in T. rewrite A in T. cbn in T. rewrite app_length in T. lia.
  - right. split.
    + unfold unreads. cbn [t_links]. rewrite unread_grow. pose proof (total_upd unread_w c (k_with_in t) _ _ K) as T. unfold unread_w in T at 2 4. cbn in T.
      assert (t = k_in k) as ->; [|lia]. destruct q as [[] [m|]]; cbn in R; try discriminate R; cases_in R; injection R; congruence.
    + left. eexists _, _. split; [reflexivity|]. split; [reflexivity|]. split; intros ->; cbn in S; cases_in S.
  - right. split; [unfold unreads; cbn [t_links]; rewrite unread_grow; apply total_upd_same; reflexivity|]. left. eexists _, _. split; [reflexivity|]. split; [reflexivity|]. split; intros ->; cbn in S; cases_in S.
  - right. split; [unfold unreads; cbn [t_links]; rewrite unread_grow; apply total_upd_same; reflexivity|]. left. eexists _, _. split; [reflexivity|]. split; [reflexivity|]. split; intros ->; cbn in S; cases_in S.
  - right. split; [unfold unreads; cbn [t_links]; apply total_upd_same; reflexivity|]. right.
    specialize (WR c). unfold wrote in WR. rewrite Y, O, (lk_is _ _ _ K) in WR.
    destruct (c_alive y); [|destruct WR; discriminate]. destruct WR as [LE _]. destruct (write_one _ _ _ _ _ _ LE W) as (LE' & _).
    destruct w as [|b w].
    + left. rewrite (upd_same _ _ _ _ K); [destruct s; reflexivity|]. cbn. rewrite Nat.add_0_r. destruct k; reflexivity.
    + right. split; [reflexivity|]. left. unfold unsent. cbn [t_rt t_links].
      pose proof (total_combine unsent_w _ _ c (k_with_sent (k_sent k + length (b :: w))) _ _ Y K) as T.
      unfold unsent_w in T at 2 4. cbn [fst snd k_sent k_with_sent] in T. rewrite O in T. cbn [length] in *. lia.
Qed.
Lemma pending_same s e s' o : brings e = None -> step s e = Some (s', o) -> o = OPending \/ o = OClosed -> s' = s.
Proof.
  intros B ST N. destruct e; try discriminate B; cbn [RuntimeModel.step] in ST;
  unfold step_ep, step_take, step_route, step_stub, i_recv, push_cmd in ST; cases_in ST; injection ST as <- <-; destruct N; try discriminate; reflexivity.
Qed.
Lemma qt_less tr j ev j' p : qt_history tr j -> qtnode_step j ev = Some (j', p) -> qt_quiet (ev, p) ->
  (qt_left j' = qt_left j /\ ~ qt_on j (ev, p) j') \/ lexl (qt_left j') (qt_left j).
Proof.
  intros H S Q. destruct (halves _ _ H) as (HQ & HN & R & _). apply qtstepped in S. unfold qt_quiet in Q. unfold qt_on, qt_left.
  assert (LT : forall a b c a' b' c' : nat, a' = a -> b' < b -> lexl [a'; b'; c'] [a; b; c]) by (intros; subst; split; [reflexivity|]; right; split; [reflexivity|]; left; assumption).
  destruct S as [x q o l s xs QS D|e s x N S E|e s x e' o' q o l N S E QS]; cbn [fst snd qtl_call qt_node qt_calls] in *.
  - pose proof (does_unreads _ _ _ _ D) as A. pose proof (calls_less _ _ _ _ _ _ _ _ _ HQ QS Q) as L. destruct (acts (x, o, l)) eqn:AC.
    + right. apply LT; [exact A|lia].
    + left. split; [|intros G; rewrite (on_acts _ G) in AC; discriminate AC].
      destruct x; try (destruct l as [|[? []] [|? ?]]; discriminate AC). apply qstepped in QS. inversion QS; subst.
      match goal with Y : step (q_rt _) e = Some (?a, ?b) |- _ => pose proof (pending_same _ _ _ _ Q Y) as K; rewrite R in Y; assert (W : a = q_rt (qt_calls j)) by
        (apply K; cbn in AC; destruct b; try discriminate AC; auto) end.
      subst s'. rewrite with_rt_id. cbn [map fst QueueTcpModel.tnode_does] in D. destruct (tnode_step (qt_node j) (TRun e)) as [[s1 y]|] eqn:ST; [|discriminate D]. cbn in D. injection D as <- <-.
      destruct (run_is _ _ _ _ ST) as (_ & o2 & _ & RS & _). rewrite (same_node _ _ _ _ _ HN ST); [reflexivity|]. congruence.
  - assert (NB : match e with TBytes _ _ => False | _ => True end) by (destruct e; auto).
    destruct (stream_less _ _ _ _ _ HN N NB S) as [L|[EU [(e' & o' & E' & _)|[ES|(_ & [L|[EQ NS]])]]]].
    + right. split; [reflexivity|]. left. exact L.
    + congruence.
    + left. subst s. split; [reflexivity|]. intros [_ K]. apply K. reflexivity.
    + right. rewrite EU. split; [reflexivity|]. right. split; [reflexivity|]. right. split; [reflexivity|]. left. exact L.
    + left. rewrite EU, EQ. split; [reflexivity|]. intros [K _]. exact (NS K).
  - assert (NB : match e with TBytes _ _ => False | _ => True end) by (destruct e; auto).
    assert (QK : qstep (qt_calls j) (QRun e') = Some (with_rt (t_rt s) (qt_calls j), QUnit, [(e', o')]) /\ q = with_rt (t_rt s) (qt_calls j)).
    { pose proof (rt_of_entry _ _ _ _ S) as K. rewrite E in K. pose proof QS as QS'. apply qstepped in QS'. inversion QS'; subst.
      match goal with Y : step (q_rt _) e' = Some (?a, ?b) |- _ => rewrite R in Y; assert (EQ : Some (a, b) = Some (t_rt s, o')) by congruence; injection EQ as -> -> end. auto. }
    destruct QK as [QK ->].
    destruct (stream_less _ _ _ _ _ HN N NB S) as [L|[EU [(e2 & o2 & E2 & BR & N1 & N2)|[ES|(X & _)]]]].
    + right. split; [reflexivity|]. left. exact L.
    + right. rewrite E in E2. injection E2 as <- <-. pose proof (calls_less _ _ _ _ _ _ _ _ _ HQ QK BR) as L.
      assert (AC : acts (QRun e', QUnit, [(e', o')]) = true) by (destruct o'; try reflexivity; congruence). rewrite AC in L. apply LT; [exact EU|lia].
    + left. subst s. rewrite <- R, with_rt_id. split; [reflexivity|]. intros [_ K]. apply K. reflexivity.
    + congruence.
Qed.
Lemma on_is j ev j' p : qtnode_step j ev = Some (j', p) -> qt_on j (ev, p) j' -> qt_quiet (ev, p).
Proof.
  intros S O. apply qtstepped in S. unfold qt_on, qt_quiet in *.
  destruct S as [x q o l s xs QS D|e s x N S E|e s x e' o' q o l N S E QS]; cbn [fst snd qtl_call] in *.
  - apply (on_quiet bk cbk). exact O.
  - destruct O as [O _]. destruct e; try contradiction O; exact I.
  - destruct O as [O _]. destruct e; try contradiction O; exact I.
Qed.

(** ** What can go on *)
Lemma follow l : forall s r, Forall (fun e => tcp_internal e = true) (map fst l) -> steps (t_rt s) l r -> exists s' xs, tnode_does s (map fst l) = Some (s', xs).
Proof.
  induction l as [|[e o] l IH]; intros s r F S; [exists s, []; reflexivity|]. inversion S as [|? ? ? r1 ? ? S1 S2]; subst. cbn [map fst] in *. inversion F as [|? ? F1 F2]; subst.
  cbn [QueueTcpModel.tnode_does]. cbn [TcpNodeModel.tnode_step]. rewrite F1. unfold tcp_answer at 1. rewrite S1.
  destruct (IH (mkTN r1 (t_links s ++ repeat new_link (length (r_conns r1) - length (t_links s)))) _ F2 S2) as (s' & xs & D). rewrite D. eexists _, _. reflexivity.
Qed.
Lemma inside tr q x q' o l : qhistory tr q -> qstep q x = Some (q', o, l) -> goes_on (x, o, l) ->
  Forall (fun e => tcp_internal e = true) (map fst l) \/ exists c, x = QRun (ESocket c true).
Proof.
  intros H S G. pose proof (invariant _ _ _ _ _ H) as V. apply qstepped in S. pose proof (not_refused _ _ _ _ _ _ _ _ V S) as NR.
  destruct S; try congruence; try contradiction G; cbn [map fst]; try (left; constructor; fail); try (left; repeat constructor; fail).
  - left. constructor; [|constructor]. unfold begins. destruct (e_gone e); [reflexivity|]. destruct to; reflexivity.
  - destruct ok; [|contradiction G]. left. constructor; [|constructor]. unfold connects in *. destruct (e_gone e); [subst b; reflexivity|].
    match goal with K : exists n, _ |- _ => destruct K as (n & _ & ->) end. reflexivity.
  - destruct ok; [|contradiction G]. left. constructor; [reflexivity|]. match goal with K : dropped_answer _ _ _ _ _ _ |- _ => unfold dropped_answer in K; destruct o; cbn in K;
      first [destruct K as (? & _ & ->); repeat constructor|destruct K as [_ ->]; constructor] end.
  - destruct G as [C _]. destruct e; try contradiction C; try (left; repeat constructor; fail); try (destruct ok; [|contradiction C]; try (left; repeat constructor; fail)). right. eauto.
Qed.
Definition answers_of (e : event) : bool := match e with EPacket _ _ | EEnd _ | ESocket _ _ => true | _ => false end.
Lemma entry_answers s e s' x e' o : not_run e -> tnode_step s e = Some (s', x) -> te_rt x = Some (e', o) -> answers_of e' = true.
Proof. intros N S E. apply tnode_stepped in S. destruct S; try contradiction N; cbn in E; try discriminate E; injection E as <- <-; reflexivity. Qed.
Lemma by_stream tr j e s' x : qt_history tr j -> tcp_settles (qt_node j) e -> not_run e -> tnode_step (qt_node j) e = Some (s', x) -> s' <> qt_node j -> qt_can bk cbk j.
Proof.
  intros H Q N S NE. destruct (halves _ _ H) as (_ & _ & R & _). exists (AtStream e). pose proof (rt_of_entry _ _ _ _ S) as K. destruct (te_rt x) as [[e' o']|] eqn:E.
  - pose proof (entry_answers _ _ _ _ _ _ N S E) as A. assert (QS : exists q o l, qstep (qt_calls j) (QRun e') = Some (q, o, l)).
    { cbn. assert (EW : elsewhere e' (qt_calls j) = true) by (destruct e'; try discriminate A; reflexivity). rewrite EW. unfold at_rt. rewrite R, K. eauto. }
    destruct QS as (q & o & l & QS). eexists _, _. split; [apply qtstep_of; eapply qg_answer; eassumption|split; [exact Q|exact NE]].
  - eexists _, _. split; [apply qtstep_of; eapply qg_stream; eassumption|split; [exact Q|exact NE]].
Qed.
Theorem qt_progress tr j : qt_history tr j -> qt_can bk cbk j \/ qt_rest tr j \/ qt_jammed bk tr j.
Proof.
  intros H. destruct (halves _ _ H) as (HQ & HN & R & T).
  destruct (calls_progress _ _ _ _ _ HQ) as [(x & q & o & l & S & G)|[AE|(c & n & J)]].
  - left. destruct (inside _ _ _ _ _ _ HQ S G) as [F|(c & ->)].
    + pose proof (below _ _ _ _ _ _ _ (qstepped _ _ _ _ _ _ _ S)) as B. rewrite R in B. destruct (follow _ _ _ F B) as (s' & xs & D).
      exists (AtCalls x). eexists _, _. split; [apply qtstep_of; econstructor; eassumption|]. exact G.
    + apply qstepped in S. inversion S; subst. match goal with Y : step (q_rt _) (ESocket c true) = Some (?r, ?ob) |- _ => rewrite R in Y; destruct (send_goes _ _ _ _ _ _ _ HN Y) as (z & s2 & x & FL & ST & E2);
        assert (W : left_to_do r < left_to_do (t_rt (qt_node j))) by (eapply ExchangeRestTheorems.work_less; [|exact Y| |]; [reflexivity|..]; intros ->; cbn in Y; cases_in Y) end.
      eapply (by_stream _ _ (TWrite c z)); [exact H|exact FL|exact I|exact ST|]. intros ->. rewrite E2 in W. exact (Nat.lt_irrefl _ W).
  - pose proof AE as [ID [CH NOW] CA]. destruct (step_on _ _ _ _ HN) as [(e & s' & x & Q & ST & NE)|[[P C]|J]].
    + left. destruct e as [e|c d|c|c z|c z]; try contradiction Q.
      * exfalso. destruct (run_is _ _ _ _ ST) as (_ & o & _ & RS & _). rewrite R in ID. destruct (FairTheorems.idle_stays bk cbk _ _ _ _ ID (ExchangeRestTheorems.coop_brings _ Q) RS) as [_ K].
        apply NE. apply (same_node _ _ _ _ _ HN ST). eapply ExchangeRestTheorems.no_news_same; [exact Q|exact RS|exact (K Q)].
      * eapply by_stream; [exact H|exact Q|exact I|exact ST|exact NE].
      * eapply by_stream; [exact H|exact Q|exact I|exact ST|exact NE].
    + right. left. constructor; assumption.
    + right. right. exact J.
  - right. right. exists c, n. rewrite <- T, <- R. exact J.
Qed.

(** ** Once it has come to rest *)
Theorem rest_done tr j : qt_history tr j -> qt_rest tr j -> ~ qt_can bk cbk j.
Proof.
  intros H [AE C] (ev & j' & p & S & O). destruct (halves _ _ H) as (HQ & HN & R & _). apply qtstepped in S. unfold qt_on in O.
  assert (SK : forall e s x, tcp_settles (qt_node j) e -> tnode_step (qt_node j) e = Some (s, x) -> s <> qt_node j -> False).
  { intros e s x Q S' NE. apply NE. eapply FairTheorems.tcp_done; [exact HN|rewrite <- R; exact (ease_rt _ AE)|exact C|exact Q|exact S']. }
  destruct S as [x q o l s xs QS D|e s x N S E|e s x e' o' q o l N S E QS]; cbn [fst snd qtl_call qt_node] in O.
  - apply (QueueFairTheorems.ease_done bk cbk false _ _ HQ AE). exists x, q, o, l. auto.
  - destruct O. eapply SK; eassumption.
  - destruct O. eapply SK; eassumption.
Qed.
Theorem rest_answered tr j : qt_history tr j -> at_ease (qt_calls j) -> answered_all tr.
Proof. intros H E t id to M D. eapply calls_answered; [exact (proj1 (halves _ _ H))|exact E|exact M|exact D]. Qed.

(** ** The runs *)
Lemma on_less tr j ev j' p : qt_history tr j -> qtnode_step j ev = Some (j', p) -> qt_on j (ev, p) j' -> lexl (qt_left j') (qt_left j).
Proof. intros H S O. destruct (qt_less _ _ _ _ _ H S (on_is _ _ _ _ S O)) as [[_ K]|K]; [contradiction|exact K]. Qed.
Theorem qt_stops (f : nat -> qtnode) tr : qt_history tr (f 0) -> ~ (forall n, exists ev p, qt_on (f n) (ev, p) (f (S n)) /\ qtnode_step (f n) ev = Some (f (S n), p)).
Proof.
  intros H F. assert (HN : forall n, exists t, qt_history t (f n)).
  { induction n as [|n (t & IH)]; [eauto|]. destruct (F n) as (ev & p & _ & S). eexists. eapply qt_more; eassumption. }
  assert (L : forall n, lexl (qt_left (f (S n))) (qt_left (f n))).
  { intros n. destruct (HN n) as (t & Ht). destruct (F n) as (ev & p & O & S). eapply on_less; eassumption. }
  assert (A : forall m, Acc lexl m -> forall n, qt_left (f n) = m -> False).
  { induction 1 as [m _ IH]. intros n E. apply (IH (qt_left (f (S n)))) with (n := S n); [rewrite <- E; apply L|reflexivity]. }
  exact (A _ (lex_wf (qt_left (f 0))) 0 eq_refl).
Qed.
Theorem qt_stopped tr j : qt_history tr j -> ~ qt_can bk cbk j -> qt_rest tr j \/ qt_jammed bk tr j.
Proof. intros H N. destruct (qt_progress _ _ H) as [K|K]; [contradiction|exact K]. Qed.
Theorem qt_comes_to_rest tr j : qt_history tr j -> exists tr' j', qt_steps j tr' j' /\ qt_history (tr ++ tr') j' /\ (qt_rest (tr ++ tr') j' \/ qt_jammed bk (tr ++ tr') j').
Proof.
  remember (qt_left j) as m eqn:E. revert tr j E. induction m as [m IH] using (well_founded_induction lex_wf). intros tr j -> H.
  destruct (qt_progress _ _ H) as [(ev & j1 & p & S & O)|K].
  - destruct (IH _ (on_less _ _ _ _ _ H S O) _ _ eq_refl (qt_more _ _ _ _ _ _ _ H S)) as (tr' & j' & S' & H' & D). exists ((ev, p) :: tr'), j'. rewrite <- app_assoc in D, H'.
    split; [econstructor; eassumption|]. split; assumption.
  - exists [], j. rewrite app_nil_r. split; [constructor|]. split; assumption.
Qed.
Lemma goes_history tr j p j' : qt_history tr j -> qt_goes bk cbk j p j' -> qt_history (tr ++ [p]) j'.
Proof. intros H [_ S]. destruct p as [ev p]. econstructor; eassumption. Qed.
Lemma answered_stays tr j p j' : qt_history tr j -> answered_all tr -> qt_goes bk cbk j p j' -> answered_all (tr ++ [p]).
Proof.
  intros H A [Q S] t id to. destruct p as [ev p]. cbn [fst snd] in S. rewrite calls_snoc. cbn [snd].
  assert (NM : match qtl_call p with Some l => match l with (QCall _ _, _, _) => False | _ => True end | None => True end).
  { apply qtstepped in S. unfold qt_quiet in Q. destruct S; cbn [fst snd qtl_call] in *; [destruct x; try exact I; contradiction Q|exact I|exact I]. }
  destruct (qtl_call p) as [l|]; [|rewrite app_nil_r; apply A]. unfold life. rewrite flat_map_app. cbn [flat_map]. rewrite app_nil_r. intros M D. apply in_app_iff in M. destruct M as [M|M].
  - destruct (A t id to M) as (o & B & F); [intros K; apply D; apply in_app_iff; auto|]. exists o. split; [apply in_app_iff; auto|exact F].
  - exfalso. destruct l as [[x o] l]. unfold mark_of in M. destruct x as [| | | | |[?|?]| | |], o as [|?|[?|?] ?| |[?|?] ?|[?|?] ? ?|? ?]; cbn in M; try contradiction;
    repeat match type of M with context [?a =? ?b] => destruct (Nat.eqb_spec a b) end; cbn in M; intuition discriminate.
Qed.
Theorem qt_fair_rest f t : qt_fair bk cbk f t -> qt_history (t 0) (f 0) -> forall k, exists n, k <= n /\ qt_history (t n) (f n) /\
  ((qt_rest (t n) (f n) /\ forall m, n <= m -> answered_all (t m)) \/ qt_jammed bk (t n) (f n)).
Proof.
  intros R P k.
  destruct (FairTheorems.fair_rest (qt_goes bk cbk) (qt_can bk cbk) qt_on qt_history (fun tr j => qt_rest tr j \/ qt_jammed bk tr j)
    (fun _ j => qt_left j) lexl lex_wf goes_history) with (f := f) (t := t) (k := k) as (n & L & Q); try assumption.
  - intros tr j [ev p] j' H [QU S]. cbn [fst snd] in S. destruct (qt_less _ _ _ _ _ H S QU) as [[K _]|K]; auto.
  - intros tr j [ev p] j' H [QU S] O. cbn [fst snd] in S. eapply on_less; eassumption.
  - exact qt_progress.
  - pose proof (FairTheorems.fair_past _ _ _ _ goes_history _ _ R P) as PN. exists n. split; [exact L|]. split; [apply PN|]. destruct Q as [Q|Q]; [left|right; exact Q]. split; [exact Q|].
    intros m LM. apply (FairTheorems.fair_keeps _ _ _ _ goes_history (fun tr _ => answered_all tr) _ _ R P) with (n := n) (m := m); [|eapply rest_answered; [apply PN|apply Q]|exact LM].
    intros tr j p j' H A G. eapply answered_stays; eassumption.
Qed.
Theorem qt_fair_exists tr j l j' : FairSpec.goes_to (qt_goes bk cbk) j l j' -> qt_history (tr ++ l) j' -> qt_rest (tr ++ l) j' ->
  exists f t, qt_fair bk cbk f t /\ f 0 = j /\ t 0 = tr /\ forall m, length l <= m -> f m = j' /\ t m = tr ++ l.
Proof. intros G H E. apply FairTheorems.fair_exists; [exact G|]. eapply rest_done; eassumption. Qed.
End Locks.
