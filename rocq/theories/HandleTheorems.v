(** Theorems about the handles of a v1 endpoint and upgrading weak ones. *)
From Coq Require Import List NArith Bool PeanoNat.
From Verif Require Import BytesModel SomeipModel RuntimeModel RuntimeSpec HandleSpec.
Import ListNotations.
Open Scope nat_scope.

Section Locks.
Context (bk : iid -> N) (cbk : N -> N) (dg : bool).
Notation history := (history bk cbk dg).
Notation step := (step bk cbk).

Ltac cases_in H :=
  repeat (match type of H with
  | context [match ?x with _ => _ end] =>
      lazymatch x with context [match _ with _ => _ end] => fail | _ => destruct x eqn:? end
  end; try discriminate H).

Definition opening (t : stub) : bool := match st_pc t with SConnect _ _ | SShare _ _ _ => st_alive t | _ => false end.
Lemma existsb_upd {A} (p : A -> bool) n f l : existsb p l = false -> (forall x, nth_error l n = Some x -> p (f x) = false) -> existsb p (upd n f l) = false.
Proof.
  revert n. induction l as [|y l IH]; intros [|n] E F; cbn in *; try reflexivity; apply orb_false_iff in E; destruct E as [E1 E2]; apply orb_false_iff.
  - split; [apply F; reflexivity|exact E2].
  - split; [exact E1|]. apply IH; [exact E2|]. intros x X. apply F. exact X.
Qed.
Lemma existsb_at {A} (p : A -> bool) n l x : existsb p l = false -> nth_error l n = Some x -> p x = false.
Proof. intros E X. destruct (p x) eqn:P; [|reflexivity]. rewrite <- E. symmetry. apply existsb_exists. exists x. split; [eapply nth_error_In; exact X|exact P]. Qed.

(** An endpoint without owners gets none again. *)
Lemma unowned_step s e s' o : step s e = Some (s', o) -> ep_strong s = false ->
  ep_strong s' = false /\ (e = EUpgrade -> o = OError) /\ ~ of_endpoint e /\ (forall n ok c a, e = EStub n ok -> o <> OSpawned c a).
Proof.
  intros ST E0. assert (E := E0). unfold ep_strong in E. apply orb_false_iff in E. destruct E as [O E].
  change (existsb opening (r_stubs s) = false) in E.
  assert (G : r_open s' = false /\ existsb opening (r_stubs s') = false /\ (e = EUpgrade -> o = OError) /\ ~ of_endpoint e /\ (forall n ok c a, e = EStub n ok -> o <> OSpawned c a)).
  { destruct e; cbn [RuntimeModel.step] in ST; rewrite ?O, ?E0 in ST; try discriminate ST.
    all: unfold step_ep, step_take, step_route, i_recv, step_stub, push_cmd in ST; rewrite ?O, ?E0 in ST; try discriminate ST.
    all: cases_in ST; try (injection ST as <- <-); unfold of_endpoint; cbn; (repeat split; intros; try tauto; try discriminate; try assumption).
    all: try (rewrite existsb_app, E; reflexivity).
    all: try match goal with |- existsb _ (upd ?n _ _) = _ => apply existsb_upd; [exact E|]; intros t' T' end.
    all: try reflexivity.
    all: exfalso; match goal with X : nth_error (r_stubs _) _ = Some ?t |- _ => pose proof (existsb_at _ _ _ _ E X) as Z; unfold opening in Z;
         match goal with Q : st_pc t = _ |- _ => rewrite Q in Z end; congruence end. }
  destruct G as (G1 & G2 & G3). split; [unfold ep_strong; rewrite G1; exact G2|exact G3].
Qed.
Lemma unowned_steps tr0 s0 : forall tr s, history (tr0 ++ tr) s -> history tr0 s0 -> ep_strong s0 = false ->
  (forall s', history tr0 s' -> s' = s0) ->
  ep_strong s = false /\ forall e o, In (e, o) tr -> (e = EUpgrade -> o = OError) /\ ~ of_endpoint e /\ (forall n ok c a, e = EStub n ok -> o <> OSpawned c a).
Proof.
  induction tr as [|[e o] tr IH] using rev_ind; intros s H H0 E U.
  - rewrite app_nil_r in H. rewrite (U _ H). split; [exact E|]. intros e o [].
  - rewrite app_assoc in H. inversion H as [X|tr' s1 e' s' o' H1 ST X]; [destruct (app_cons_not_nil _ _ _ X)|].
    apply app_inj_tail in X. destruct X as [-> X]. injection X as -> ->. subst s'.
    destruct (IH _ H1 H0 E U) as [E1 F]. destruct (unowned_step _ _ _ _ ST E1) as [E2 G]. split; [exact E2|].
    intros e' o' I. apply in_app_iff in I. destruct I as [I|[I|[]]]; [exact (F _ _ I)|]. injection I as <- <-. exact G.
Qed.
Lemma only_state tr : forall s s', history tr s -> history tr s' -> s' = s.
Proof.
  induction tr as [|x tr IH] using rev_ind; intros s s' H H'.
  - inversion H as [X|? ? ? ? ? ? ? X]; [|destruct (app_cons_not_nil _ _ _ (eq_sym X))].
    inversion H' as [Y|? ? ? ? ? ? ? Y]; [|destruct (app_cons_not_nil _ _ _ (eq_sym Y))]. reflexivity.
  - inversion H as [X|? ? ? ? ? A B X]; [destruct (app_cons_not_nil _ _ _ X)|].
    inversion H' as [Y|? ? ? ? ? A' B' Y]; [destruct (app_cons_not_nil _ _ _ Y)|].
    apply app_inj_tail in X, Y. destruct X as [-> X], Y as [-> Y]. rewrite <- X in Y. injection Y as -> ->.
    rewrite (IH _ _ A A') in B'. congruence.
Qed.

Lemma held_is tr s : history tr s -> r_open s = held tr.
Proof.
  induction 1 as [|tr s e s' o H IH ST]; [reflexivity|]. unfold held in *. rewrite fold_left_app, <- IH. cbn [fold_left].
  unfold RuntimeModel.step, step_ep, step_take, step_route, i_recv, step_stub, push_cmd in ST.
  destruct e; cases_in ST; injection ST as <- <-; cbn; try reflexivity; congruence.
Qed.
Lemma connecting_is s : existsb opening (r_stubs s) = true <-> exists n, stub_connecting s n.
Proof.
  rewrite existsb_exists. split.
  - intros (t & I & O). apply In_nth_error in I. destruct I as [n X]. exists n. unfold opening in O.
    destruct (st_pc t) as [| |a m|a c m| |] eqn:P; try discriminate O; exists t, a, m; eauto.
  - intros (n & t & a & m & X & A & P). exists t. split; [eapply nth_error_In; exact X|]. unfold opening.
    destruct P as [P|[c P]]; rewrite P; exact A.
Qed.
Theorem upgrade_iff tr s : history tr s ->
  (held tr = true \/ (exists n, stub_connecting s n) -> exists s', step s EUpgrade = Some (s', OUnit)) /\
  (held tr = false /\ ~ (exists n, stub_connecting s n) -> step s EUpgrade = Some (s, OError)).
Proof.
  intros H. rewrite <- (held_is _ _ H), <- connecting_is. cbn [RuntimeModel.step]. unfold ep_strong. change (existsb _ (r_stubs s)) with (existsb opening (r_stubs s)).
  split.
  - intros [->| ->]; rewrite ?orb_true_r; eexists; reflexivity.
  - intros [-> N]. destruct (existsb opening (r_stubs s)); [tauto|reflexivity].
Qed.
Theorem upgrade_same tr s : history tr s -> held tr = true -> step s EUpgrade = Some (s, OUnit).
Proof.
  intros H E. rewrite <- (held_is _ _ H) in E. cbn [RuntimeModel.step]. unfold ep_strong. rewrite E. cbn. f_equal. f_equal.
  destruct s; cbn in *. rewrite E. reflexivity.
Qed.
Theorem upgrade_fails_for_good tr1 tr2 s : history (tr1 ++ [(EUpgrade, OError)] ++ tr2) s -> forall e o, In (e, o) tr2 ->
  (e = EUpgrade -> o = OError) /\ ~ of_endpoint e /\ (forall n ok c a, e = EStub n ok -> o <> OSpawned c a).
Proof.
  intros H. rewrite app_assoc in H.
  assert (P : forall tr s, history ((tr1 ++ [(EUpgrade, OError)]) ++ tr) s -> exists s0, history (tr1 ++ [(EUpgrade, OError)]) s0).
  { induction tr as [|x tr IH] using rev_ind; intros s0 H0; [rewrite app_nil_r in H0; eauto|]. rewrite app_assoc in H0.
    inversion H0 as [X|? ? ? ? ? A B X]; [destruct (app_cons_not_nil _ _ _ X)|]. apply app_inj_tail in X. destruct X as [-> _]. eapply IH. exact A. }
  destruct (P _ _ H) as [s0 H0]. assert (E : ep_strong s0 = false).
  { inversion H0 as [X|? ? ? ? ? A B X]; [destruct (app_cons_not_nil _ _ _ X)|]. apply app_inj_tail in X. destruct X as [-> X]. injection X as -> ->.
    cbn in B. destruct (ep_strong s1) eqn:Q; [discriminate B|]. injection B as <-. exact Q. }
  refine (proj2 (unowned_steps _ _ _ _ H H0 E _)). intros s' H'. exact (only_state _ _ _ H0 H').
Qed.
Theorem dropped_when_quiet tr s : history tr s -> held tr = false -> (forall n, ~ busy s n) -> step s EUpgrade = Some (s, OError).
Proof.
  intros H E F. apply (proj2 (upgrade_iff _ _ H)). split; [exact E|]. intros (n & t & a & m & X & A & P). apply (F n). exists t.
  split; [exact X|]. destruct P as [P|[c P]]; rewrite P; discriminate.
Qed.
End Locks.
