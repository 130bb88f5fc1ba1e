(** The calls of an endpoint and the channel they go through: C90, C91. *)
From Coq Require Import List NArith Bool PeanoNat Lia.
From Verif Require Import BytesModel SomeipModel MapModel RuntimeModel RuntimeSpec QueueModel QueueSpec QueueTheorems QueueProgressTheorems
  QueueFairSpec QueueFairTheorems.
From Verif Require FairSpec.
Import ListNotations.
Open Scope nat_scope.

Definition b0 : iid -> N := fun _ => 0%N.
Definition c0 : N -> N := fun _ => 0%N.
Lemma qrun_history datagram tr q xs q' tr' : qhistory b0 c0 datagram tr q -> qrun b0 c0 q xs = Some (q', tr') -> qhistory b0 c0 datagram (tr ++ tr') q'.
Proof.
  revert tr q tr'. induction xs as [|x xs IH]; intros tr q tr' H R; cbn in R; [injection R as <- <-; rewrite app_nil_r; exact H|].
  destruct (qstep b0 c0 q x) as [[[q1 o] l]|] eqn:S; [|discriminate]. destruct (qrun b0 c0 q1 xs) as [[q2 t2]|] eqn:R'; [|discriminate]. injection R as <- <-.
  change ((x, o, l) :: t2) with ([(x, o, l)] ++ t2). rewrite app_assoc. eapply IH; [|exact R']. econstructor; eassumption.
Qed.
Lemma qrun_steps xs : forall q q' tr', qrun b0 c0 q xs = Some (q', tr') -> qsteps b0 c0 q tr' q'.
Proof.
  induction xs as [|x xs IH]; intros q q' tr' R; cbn in R; [injection R as <- <-; constructor|].
  destruct (qstep b0 c0 q x) as [[[q1 o] l]|] eqn:S; [|discriminate]. destruct (qrun b0 c0 q1 xs) as [[q2 t2]|] eqn:R'; [|discriminate]. injection R as <- <-.
  econstructor; [exact S|]. apply IH. exact R'.
Qed.

(** ** C90: the endpoint executes its callers' commands one at a time, in the order they got a place
    in its channel; every call is answered at most once and with what its own execution gave *)
Theorem C90_refines : forall bk cbk dg tr q, qhistory bk cbk dg tr q -> history bk cbk dg (rt_trace tr) (q_rt q).
Proof. exact @refines. Qed.
Print Assumptions C90_refines.
Theorem C90_order : forall bk cbk dg tr q, qhistory bk cbk dg tr q ->
  exists now rest, entered tr = finished tr ++ now ++ rest /\ taken tr = finished tr ++ now /\ length now <= 1 /\ length rest <= 8.
Proof. exact @in_order. Qed.
Print Assumptions C90_order.
Theorem C90_bypass : forall bk cbk dg tr1 q1 tr2 q2 t, qhistory bk cbk dg tr1 q1 -> qsteps bk cbk q1 tr2 q2 ->
  In MEntered (life t tr1) -> (forall o, ~ In (MDone o) (life t (tr1 ++ tr2))) -> length (finished tr2) <= 8.
Proof. exact @bypass. Qed.
Print Assumptions C90_bypass.
Theorem C90_life : forall bk cbk dg tr q t, qhistory bk cbk dg tr q ->
  exists id to o l rest, whole_life id to o l /\ life t tr ++ rest = l /\ (forall o', In (MDone o') (life t tr) -> fits id to o').
Proof. exact @call_life. Qed.
Print Assumptions C90_life.
Theorem C90_executed : forall bk cbk dg tr q t o, qhistory bk cbk dg tr q -> In (MDone o) (life t tr) -> exists ok, In (EEp ok, o) (rt_trace tr).
Proof. exact @executed. Qed.
Print Assumptions C90_executed.
Theorem C90_never_refused : forall bk cbk dg tr q, qhistory bk cbk dg tr q -> forall p, In p tr -> seen p <> QRefused.
Proof. exact @never_refused. Qed.
Print Assumptions C90_never_refused.
Theorem C90_stub_owned : forall bk cbk dg tr q n, qhistory bk cbk dg tr q -> stub_exists (q_rt q) n ->
  exists t id, has_answer t (OStub n id) tr /\ forall u id', has_answer u (OStub n id') tr -> u = t.
Proof. intros bk cbk dg tr q n H (st & X & A). exact (stub_owned bk cbk dg tr q n st H X A). Qed.
Print Assumptions C90_stub_owned.
Theorem C90_proxy_owned : forall bk cbk dg tr q n, qhistory bk cbk dg tr q -> proxy_exists (q_rt q) n ->
  exists t id a, has_answer t (OProxy n id a) tr /\ forall u id' a', has_answer u (OProxy n id' a') tr -> u = t.
Proof. intros bk cbk dg tr q n H (px & X & A). exact (proxy_owned bk cbk dg tr q n px H X A). Qed.
Print Assumptions C90_proxy_owned.

(** Three calls are made.  The second gets its place first.  The call of the first is dropped while
    its command waits: it is executed all the same, and the stub it gave is dropped. *)
Definition ex_calls : list qevent :=
  [QCall (1%N, 1%N) None; QCall (2%N, 1%N) None; QCall (3%N, 1%N) (Some 9%N);
   QEnter (FCall 1); QEnter (FCall 0); QEnter (FCall 2); QTake; QDrop (FCall 0); QGo true; QGo true; QGo true; QGo true;
   QTake; QGo true; QGo true; QReturn 1; QGo true; QGo true; QTake; QGo true; QGo true].
Definition ex_rest : list qevent := [QRun (EListener 0); QRun (EListener 0); QGo true; QGo true; QReturn 2; QRun (ESender 0)].
Example C90_example : exists tr q, qhistory b0 c0 true tr q /\
  entered tr = [(FCall 1, KCall (2%N, 1%N) None); (FCall 0, KCall (1%N, 1%N) None); (FCall 2, KCall (3%N, 1%N) (Some 9%N))] /\
  length (finished tr) = 2 /\ life 0 tr = [MMade (1%N, 1%N) None; MEntered; MDropped; MTaken; MDone (OStub 1 (1%N, 1%N))] /\
  life 1 tr = [MMade (2%N, 1%N) None; MEntered; MTaken; MDone (OStub 0 (2%N, 1%N)); MReturned (OStub 0 (2%N, 1%N))] /\
  life 2 tr = [MMade (3%N, 1%N) (Some 9%N); MEntered; MTaken] /\ stub_exists (q_rt q) 0 /\ ~ stub_exists (q_rt q) 1 /\ has_answer 1 (OStub 0 (2%N, 1%N)) tr.
Proof.
  destruct (qrun b0 c0 (q_init true) ex_calls) as [[q tr]|] eqn:R; [|vm_compute in R; discriminate R].
  exists tr, q. pose proof (qrun_history true [] _ _ _ _ (q_start _ _ _) R) as H. cbn [app] in H. split; [exact H|]. clear H.
  vm_compute in R. injection R as <- <-. repeat split; try reflexivity.
  - eexists. split; reflexivity.
  - intros (t & X & A). cbn in X. injection X as <-. discriminate A.
  - cbn. tauto.
  - cbn. intuition discriminate.
Qed.
(** Eight commands can indeed be finished before the one that gets the last place. *)
Definition ex_full : list qevent :=
  map (fun k => QCall (N.of_nat k, 1%N) None) (seq 1 9) ++ [QEnter (FCall 0); QTake] ++ map (fun k => QEnter (FCall k)) (seq 1 8).
Definition ex_go : list qevent := [QGo true; QGo true; QGo true; QGo true].
Definition ex_eight : list qevent := ex_go ++ flat_map (fun _ => QTake :: ex_go) (seq 1 7).
Example C90_bypass_example : exists tr1 q1 tr2 q2, qhistory b0 c0 true tr1 q1 /\ qsteps b0 c0 q1 tr2 q2 /\ In MEntered (life 8 tr1) /\
  (forall o, ~ In (MDone o) (life 8 (tr1 ++ tr2))) /\ length (finished tr2) = 8.
Proof.
  destruct (qrun b0 c0 (q_init true) ex_full) as [[q tr]|] eqn:R; [|vm_compute in R; discriminate R].
  pose proof (qrun_history true [] _ _ _ _ (q_start _ _ _) R) as H. cbn [app] in H. vm_compute in R. injection R as <- <-.
  match type of H with qhistory _ _ _ ?t ?s => destruct (qrun b0 c0 s ex_eight) as [[q' tr']|] eqn:R; [|vm_compute in R; discriminate R]; exists t, s, tr', q' end.
  pose proof (qrun_steps _ _ _ _ R) as S. split; [exact H|]. split; [exact S|]. vm_compute in R. injection R as <- <-.
  split; [vm_compute; tauto|]. split; [|reflexivity]. intros o. cbn. intuition discriminate.
Qed.

(** ** C91: every call is answered, unless the endpoint and its stubs wait for each other *)
Theorem C91_answered : forall bk cbk dg tr q t id to, qhistory bk cbk dg tr q -> at_ease q -> In (MMade id to) (life t tr) -> ~ In MDropped (life t tr) ->
  exists o, In (MReturned o) (life t tr) /\ fits id to o.
Proof. exact @calls_answered. Qed.
Print Assumptions C91_answered.
Theorem C91_all_finished : forall bk cbk dg tr q, qhistory bk cbk dg tr q -> at_ease q -> finished tr = entered tr.
Proof. exact @calls_finished. Qed.
Print Assumptions C91_all_finished.
Theorem C91_comes_to_rest : forall bk cbk dg tr q, qhistory bk cbk dg tr q ->
  exists tr' q', qsteps bk cbk q tr' q' /\ Forall goes_on tr' /\ (at_ease q' \/ exists c n, jammed bk (rt_trace (tr ++ tr')) (q_rt q') c n).
Proof. exact @calls_come_to_rest. Qed.
Print Assumptions C91_comes_to_rest.
Theorem C91_bound : forall bk cbk dg tr q, qhistory bk cbk dg tr q ->
  exists k, forall tr' q', qsteps bk cbk q tr' q' -> Forall quiet tr' -> length (filter acts tr') <= k.
Proof. exact @calls_bound. Qed.
Print Assumptions C91_bound.
Theorem C91_rest : forall bk cbk dg tr q, qhistory bk cbk dg tr q ->
  (forall x q' o l, qstep bk cbk q x = Some (q', o, l) -> ~ goes_on (x, o, l)) ->
  at_ease q \/ exists c n, jammed bk (rt_trace tr) (q_rt q) c n.
Proof. exact @calls_at_rest. Qed.
Print Assumptions C91_rest.
(** What is left to do after [ex_calls]. *)
Ltac ex_pick n X := repeat (destruct n as [|n]; cbn in X; [try discriminate X; injection X as <-|]; try discriminate X).
Ltac ex_idle := constructor;
  [split; reflexivity
  |let n := fresh in let X := fresh in let P := fresh in intros n (? & X & P); ex_pick n X; exact (P eq_refl)
  |let c := fresh in intros c; do 6 (destruct c as [|c]; [reflexivity|]); reflexivity
  |let n := fresh in let X := fresh in intros n (? & X & _); ex_pick n X; reflexivity
  |let n := fresh in let X := fresh in intros n (? & X & _); ex_pick n X; reflexivity
  |let c := fresh in let X := fresh in intros c ? X; ex_pick c X; split; reflexivity
  |let c := fresh in let X := fresh in intros c ? X; ex_pick c X; split; reflexivity].
Example C91_example : exists tr q tr' q', qhistory b0 c0 true tr q /\ qsteps b0 c0 q tr' q' /\ Forall goes_on tr' /\ qhistory b0 c0 true (tr ++ tr') q' /\ at_ease q' /\
  ~ at_ease q /\ In (MMade (3%N, 1%N) (Some 9%N)) (life 2 (tr ++ tr')) /\ ~ In MDropped (life 2 (tr ++ tr')) /\ In (MReturned (OProxy 0 (3%N, 1%N) 9%N)) (life 2 (tr ++ tr')).
Proof.
  destruct (qrun b0 c0 (q_init true) ex_calls) as [[q tr]|] eqn:R; [|vm_compute in R; discriminate R].
  pose proof (qrun_history true [] _ _ _ _ (q_start _ _ _) R) as H. cbn [app] in H.
  vm_compute in R. injection R as <- <-.
  match type of H with qhistory _ _ _ ?t ?s => destruct (qrun b0 c0 s ex_rest) as [[q' tr']|] eqn:R; [|vm_compute in R; discriminate R]; exists t, s, tr', q' end.
  pose proof (qrun_history true _ _ _ _ _ H R) as H'. pose proof (qrun_steps _ _ _ _ R) as S. split; [exact H|]. split; [exact S|].
  vm_compute in R. injection R as <- <-. split; [repeat constructor; cbn; try discriminate|]. split; [exact H'|]. split.
  - constructor; [ex_idle|split; reflexivity|]. cbn. intuition (subst; reflexivity).
  - split; [intros [_ [_ N] _]; discriminate N|]. split; [cbn; tauto|]. split; [cbn; intuition discriminate|cbn; tauto].
Qed.

(** In a run without end of everything but calls and packets, in which nothing that can go on stops for
    ever, the endpoint comes to rest with every call answered, or waits for its stubs and they for it. *)
Theorem C91_fair : forall bk cbk dg f t, q_fair bk cbk f t -> qhistory bk cbk dg (t 0) (f 0) -> forall k, exists n, k <= n /\ qhistory bk cbk dg (t n) (f n) /\
  ((forall m, n <= m -> at_ease (f m) /\ forall u id to, In (MMade id to) (life u (t m)) -> ~ In MDropped (life u (t m)) ->
      exists o, In (MReturned o) (life u (t m)) /\ fits id to o) \/
   exists c i, jammed bk (rt_trace (t n)) (q_rt (f n)) c i).
Proof. exact @calls_fair. Qed.
Print Assumptions C91_fair.
Theorem C91_fair_exists : forall bk cbk dg tr q l q', FairSpec.goes_to (q_goes bk cbk) q l q' -> qhistory bk cbk dg (tr ++ l) q' -> at_ease q' ->
  exists f t, q_fair bk cbk f t /\ f 0 = q /\ t 0 = tr /\ forall m, length l <= m -> f m = q' /\ t m = tr ++ l.
Proof. exact @calls_run_exists. Qed.
Print Assumptions C91_fair_exists.
Lemma steps_go q l q' : qsteps b0 c0 q l q' -> Forall quiet l -> FairSpec.goes_to (q_goes b0 c0) q l q'.
Proof. induction 1 as [|q x o l q1 tr q2 S _ IH]; intros F; [constructor|]. inversion F; subst. econstructor; [|apply IH; assumption]. split; assumption. Qed.
(** The run that begins as above, while the stub of the second call is dropped. *)
Example C91_fair_example : exists f t, q_fair b0 c0 f t /\ qhistory b0 c0 true (t 0) (f 0) /\ ~ at_ease (f 0) /\
  exists n, at_ease (f n) /\ In (MReturned (OProxy 0 (3%N, 1%N) 9%N)) (life 2 (t n)) /\ ~ stub_exists (q_rt (f n)) 0.
Proof.
  destruct (qrun b0 c0 (q_init true) ex_calls) as [[q tr]|] eqn:R; [|vm_compute in R; discriminate R].
  pose proof (qrun_history true [] _ _ _ _ (q_start _ _ _) R) as H. cbn [app] in H.
  vm_compute in R. injection R as <- <-.
  match type of H with qhistory _ _ _ ?t ?s => destruct (qrun b0 c0 s (ex_rest ++ [QRun (EDropStub 0)])) as [[q' tr']|] eqn:R; [|vm_compute in R; discriminate R];
    pose proof (qrun_history true _ _ _ _ _ H R) as H'; pose proof (qrun_steps _ _ _ _ R) as S; vm_compute in R; injection R as <- <-;
    pose proof (steps_go _ _ _ S ltac:(repeat constructor)) as G end.
  destruct (calls_run_exists _ _ _ _ _ _ _ G H') as (f & t & F & F0 & T0 & E).
  { constructor; [ex_idle|split; reflexivity|]. cbn. intuition (subst; reflexivity). }
  exists f, t. split; [exact F|]. rewrite F0, T0. split; [exact H|]. split; [intros [_ [_ N] _]; discriminate N|]. eexists. edestruct E as [F1 T1]; [apply Nat.le_refl|]. rewrite F1, T1.
  split; [constructor; [ex_idle|split; reflexivity|]; cbn; intuition (subst; reflexivity)|]. split; [cbn; tauto|]. intros (? & X & A). cbn in X. injection X as <-. discriminate A.
Qed.
