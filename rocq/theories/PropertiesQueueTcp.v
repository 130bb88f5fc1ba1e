(** The calls of an endpoint over TCP: C93. *)
From Coq Require Import List NArith Bool PeanoNat Lia.
From Verif Require Import BytesModel SomeipModel SomeipSpec MapModel RuntimeModel RuntimeSpec TcpModel TcpSpec TcpNodeModel TcpNodeSpec TcpRestSpec QueueModel QueueSpec
  QueueTcpModel QueueTcpSpec QueueTcpTheorems.
From Verif Require FairSpec.
Import ListNotations.
Open Scope nat_scope.

(** ** C93: over TCP every call of [serve] and [proxy] is answered *)
Theorem C93_halves : forall bk cbk tr j, qt_history bk cbk tr j ->
  qhistory bk cbk false (calls_at tr) (qt_calls j) /\ thistory bk cbk (node_at tr) (qt_node j) /\
  q_rt (qt_calls j) = t_rt (qt_node j) /\ rt_trace (calls_at tr) = tcp_trace (node_at tr).
Proof. exact @halves. Qed.
Print Assumptions C93_halves.
Theorem C93_stops : forall bk cbk (f : nat -> qtnode) tr, qt_history bk cbk tr (f 0) ->
  ~ (forall n, exists ev p, qt_on (f n) (ev, p) (f (S n)) /\ qtnode_step bk cbk (f n) ev = Some (f (S n), p)).
Proof. exact @qt_stops. Qed.
Print Assumptions C93_stops.
Theorem C93_stopped : forall bk cbk tr j, qt_history bk cbk tr j -> ~ qt_can bk cbk j -> qt_rest tr j \/ qt_jammed bk tr j.
Proof. exact @qt_stopped. Qed.
Print Assumptions C93_stopped.
Theorem C93_still : forall bk cbk tr j, qt_history bk cbk tr j -> qt_rest tr j -> ~ qt_can bk cbk j.
Proof. exact @rest_done. Qed.
Print Assumptions C93_still.
Theorem C93_comes_to_rest : forall bk cbk tr j, qt_history bk cbk tr j ->
  exists tr' j', qt_steps bk cbk j tr' j' /\ qt_history bk cbk (tr ++ tr') j' /\ (qt_rest (tr ++ tr') j' \/ qt_jammed bk (tr ++ tr') j').
Proof. exact @qt_comes_to_rest. Qed.
Print Assumptions C93_comes_to_rest.
Theorem C93_answered : forall bk cbk tr j, qt_history bk cbk tr j -> qt_rest tr j -> answered_all tr.
Proof. intros bk cbk tr j H [E _]. exact (rest_answered bk cbk tr j H E). Qed.
Print Assumptions C93_answered.
Theorem C93_fair : forall bk cbk f t, qt_fair bk cbk f t -> qt_history bk cbk (t 0) (f 0) -> forall k, exists n, k <= n /\ qt_history bk cbk (t n) (f n) /\
  ((qt_rest (t n) (f n) /\ forall m, n <= m -> answered_all (t m)) \/ qt_jammed bk (t n) (f n)).
Proof. exact @qt_fair_rest. Qed.
Print Assumptions C93_fair.
Theorem C93_fair_exists : forall bk cbk tr j l j', FairSpec.goes_to (qt_goes bk cbk) j l j' -> qt_history bk cbk (tr ++ l) j' -> qt_rest (tr ++ l) j' ->
  exists f t, qt_fair bk cbk f t /\ f 0 = j /\ t 0 = tr /\ forall m, length l <= m -> f m = j' /\ t m = tr ++ l.
Proof. exact @qt_fair_exists. Qed.
Print Assumptions C93_fair_exists.

Definition b0 : iid -> N := fun _ => 0%N.
Definition c0 : N -> N := fun _ => 0%N.
Lemma run_history evs : forall tr j j' tr', qt_history b0 c0 tr j -> qtnode_run b0 c0 j evs = Some (j', tr') -> qt_history b0 c0 (tr ++ tr') j'.
Proof.
  induction evs as [|ev evs IH]; intros tr j j' tr' H R; cbn in R; [injection R as <- <-; rewrite app_nil_r; exact H|].
  destruct (qtnode_step b0 c0 j ev) as [[j1 p]|] eqn:S; [|discriminate]. destruct (qtnode_run b0 c0 j1 evs) as [[j2 t2]|] eqn:R'; [|discriminate]. injection R as <- <-.
  change ((ev, p) :: t2) with ([(ev, p)] ++ t2). rewrite app_assoc. eapply IH; [|exact R']. econstructor; eassumption.
Qed.
Lemma run_goes evs : forall j j' tr', qtnode_run b0 c0 j evs = Some (j', tr') -> Forall qt_quiet tr' -> FairSpec.goes_to (qt_goes b0 c0) j tr' j'.
Proof.
  induction evs as [|ev evs IH]; intros j j' tr' R F; cbn in R; [injection R as <- <-; constructor|].
  destruct (qtnode_step b0 c0 j ev) as [[j1 p]|] eqn:S; [|discriminate]. destruct (qtnode_run b0 c0 j1 evs) as [[j2 t2]|] eqn:R'; [|discriminate]. injection R as <- <-.
  inversion F; subst. econstructor; [split; [|exact S]; assumption|]. apply IH; assumption.
Qed.

(** Three calls are made.  The first is dropped while its command waits, the second has returned a
    stub, and the endpoint is busy with the third, which is for a proxy.  A connection was accepted,
    and a message for the stub has arrived on it. *)
Definition ex_m : msg := mkS 2 2 3 4 1 1 StRequest ScOk [7%N].
Definition ex_before : list qtevent :=
  map AtCalls [QCall (1%N, 1%N) None; QCall (2%N, 1%N) None; QCall (3%N, 1%N) (Some 9%N);
    QEnter (FCall 1); QEnter (FCall 0); QEnter (FCall 2); QTake; QDrop (FCall 0); QGo true; QGo true; QGo true; QGo true;
    QTake; QGo true; QGo true; QReturn 1; QGo true; QGo true; QRun (EAccept 0 5%N); QTake; QGo true; QGo true] ++ [AtStream (TBytes 0 (s_form ex_m))].
Definition ex_after : list qtevent :=
  map AtCalls [QRun (EAcceptShare 0); QRun (EListener 0); QRun (EListener 0); QGo true; QGo true; QReturn 2; QRun (ESender 1)] ++
  [AtStream (TRead 0 (Ready, Some 400)); AtCalls (QRun (ERoute 0)); AtCalls (QRun (ERoute 0)); AtCalls (QRun (ERecvFrom 0))].
Ltac ex_pick n X := repeat (destruct n as [|n]; cbn in X; [try discriminate X; injection X as <-|]; try discriminate X).
Ltac ex_idle := constructor;
  [split; reflexivity
  |let n := fresh in let X := fresh in let P := fresh in intros n (? & X & P); ex_pick n X; exact (P eq_refl)
  |let c := fresh in intros c; do 6 (destruct c as [|c]; [reflexivity|]); reflexivity
  |let n := fresh in let X := fresh in intros n (? & X & _); ex_pick n X; reflexivity
  |let n := fresh in let X := fresh in intros n (? & X & _); ex_pick n X; reflexivity
  |let c := fresh in let X := fresh in intros c ? X; ex_pick c X; split; reflexivity
  |let c := fresh in let X := fresh in intros c ? X; ex_pick c X; split; reflexivity].
Ltac ex_ease := constructor; [ex_idle|split; reflexivity|cbn; intuition (subst; reflexivity)].
Ltac ex_rest := constructor; [ex_ease|let c := fresh in let X := fresh in intros c (? & X & _); ex_pick c X; reflexivity].
Example C93_example : exists tr j tr' j', qt_history b0 c0 tr j /\ ~ answered_all tr /\ qt_steps b0 c0 j tr' j' /\
  qt_history b0 c0 (tr ++ tr') j' /\ qt_rest (tr ++ tr') j' /\ In (MReturned (OProxy 0 (3%N, 1%N) 9%N)) (life 2 (calls_at (tr ++ tr'))) /\
  In MDropped (life 0 (calls_at (tr ++ tr'))) /\ map it_msg (stub_got 0 (tcp_trace (node_at (tr ++ tr')))) = [ex_m].
Proof.
  destruct (qtnode_run b0 c0 qtnode_init ex_before) as [[j tr]|] eqn:R; [|vm_compute in R; discriminate R].
  pose proof (run_history _ [] _ _ _ (qt_start _ _) R) as H. cbn [app] in H. vm_compute in R. injection R as <- <-.
  match type of H with qt_history _ _ ?t ?s => destruct (qtnode_run b0 c0 s ex_after) as [[j' tr']|] eqn:R; [|vm_compute in R; discriminate R]; exists t, s, tr', j' end.
  pose proof (run_history _ _ _ _ _ H R) as H'. split; [exact H|]. split.
  { intros A. destruct (A 2 (3%N, 1%N) (Some 9%N)) as (o & K & _); [cbn; tauto|cbn; intuition discriminate|]. cbn in K. intuition discriminate. }
  vm_compute in R. injection R as <- <-. split.
  { repeat (eapply qts_more; [vm_compute; reflexivity|cbn; first [discriminate|exact I|(repeat split; discriminate)|idtac]|]); [|constructor].
    split; [split; [right; split; [reflexivity|discriminate]|intros _; eexists; split; [reflexivity|left; discriminate]]|discriminate]. }
  split; [exact H'|]. split; [ex_rest|]. split; [cbn; tauto|]. split; [cbn; tauto|]. reflexivity.
Qed.
(** The same in a fair run, in which the peer then closes its side. *)
Example C93_fair_example : exists f t, qt_fair b0 c0 f t /\ qt_history b0 c0 (t 0) (f 0) /\ ~ answered_all (t 0) /\
  exists n, qt_rest (t n) (f n) /\ answered_all (t n) /\ In (MReturned (OProxy 0 (3%N, 1%N) 9%N)) (life 2 (calls_at (t n))) /\ peer_closed 0 (node_at (t n)).
Proof.
  destruct (qtnode_run b0 c0 qtnode_init ex_before) as [[j tr]|] eqn:R; [|vm_compute in R; discriminate R].
  pose proof (run_history _ [] _ _ _ (qt_start _ _) R) as H. cbn [app] in H. vm_compute in R. injection R as <- <-.
  match type of H with qt_history _ _ ?t ?s => destruct (qtnode_run b0 c0 s (ex_after ++ [AtStream (TEnd 0)])) as [[j' tr']|] eqn:R; [|vm_compute in R; discriminate R] end.
  pose proof (run_history _ _ _ _ _ H R) as H'. assert (Q : Forall qt_quiet tr') by (vm_compute in R; injection R as <- <-; repeat constructor).
  pose proof (run_goes _ _ _ _ R Q) as G. clear Q. vm_compute in R. injection R as <- <-. destruct (qt_fair_exists _ _ _ _ _ _ G H') as (f & t & F & F0 & T0 & E); [ex_rest|].
  exists f, t. split; [exact F|]. rewrite F0, T0. split; [exact H|]. split.
  { intros A. destruct (A 2 (3%N, 1%N) (Some 9%N)) as (o & K & _); [cbn; tauto|cbn; intuition discriminate|]. cbn in K. intuition discriminate. }
  eexists. edestruct E as [F1 T1]; [apply Nat.le_refl|]. rewrite F1, T1. split; [ex_rest|]. split; [|split; [cbn; tauto|eexists; cbn; tauto]]. eapply rest_answered; [exact H'|ex_ease].
Qed.
