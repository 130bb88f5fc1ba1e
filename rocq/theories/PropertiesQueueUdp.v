(** The calls of an endpoint over UDP: C92. *)
From Coq Require Import List NArith Bool PeanoNat Lia.
From Verif Require Import BytesModel SomeipModel SomeipSpec MapModel RuntimeModel RuntimeSpec NodeModel NodeSpec ExchangeSpec QueueModel QueueSpec
  QueueUdpModel QueueUdpSpec QueueUdpTheorems.
From Verif Require UdpModel FairSpec.
Import ListNotations.
Open Scope nat_scope.

(** ** C92: over UDP every call of [serve] and [proxy] is answered, without an assumption about sockets *)
Theorem C92_halves : forall bk cbk tr j, qn_history bk cbk tr j ->
  qhistory bk cbk true (calls_in tr) (qn_calls j) /\ nhistory bk cbk (node_in tr) (qn_node j) /\
  q_rt (qn_calls j) = n_rt (qn_node j) /\ rt_trace (calls_in tr) = runtime_trace (node_in tr).
Proof. exact @halves. Qed.
Print Assumptions C92_halves.
Theorem C92_stops : forall bk cbk (f : nat -> qnode) tr, qn_history bk cbk tr (f 0) ->
  ~ (forall n, exists ev p, qn_on (ev, p) /\ qnode_step bk cbk (f n) ev = Some (f (S n), p)).
Proof. exact @qn_stops. Qed.
Print Assumptions C92_stops.
Theorem C92_stopped : forall bk cbk tr j, qn_history bk cbk tr j -> ~ qn_can bk cbk j -> qn_rest bk cbk j \/ qn_jammed bk tr j.
Proof. exact @qn_stopped. Qed.
Print Assumptions C92_stopped.
Theorem C92_still : forall bk cbk tr j, qn_history bk cbk tr j -> qn_rest bk cbk j -> ~ qn_can bk cbk j.
Proof. exact @rest_done. Qed.
Print Assumptions C92_still.
Theorem C92_comes_to_rest : forall bk cbk tr j, qn_history bk cbk tr j ->
  exists tr' j', qn_steps bk cbk j tr' j' /\ Forall qn_on tr' /\ qn_history bk cbk (tr ++ tr') j' /\ (qn_rest bk cbk j' \/ qn_jammed bk (tr ++ tr') j').
Proof. exact @qn_comes_to_rest. Qed.
Print Assumptions C92_comes_to_rest.
Theorem C92_answered : forall bk cbk tr j, qn_history bk cbk tr j -> qn_rest bk cbk j -> all_answered tr.
Proof. intros bk cbk tr j H [E _ _]. exact (rest_answered bk cbk tr j H E). Qed.
Print Assumptions C92_answered.
Theorem C92_fair : forall bk cbk f t, qn_fair bk cbk f t -> qn_history bk cbk (t 0) (f 0) -> forall k, exists n, k <= n /\ qn_history bk cbk (t n) (f n) /\
  ((qn_rest bk cbk (f n) /\ forall m, n <= m -> all_answered (t m)) \/ qn_jammed bk (t n) (f n)).
Proof. exact @qn_fair_rest. Qed.
Print Assumptions C92_fair.
Theorem C92_fair_exists : forall bk cbk tr j l j', FairSpec.goes_to (qn_goes bk cbk) j l j' -> qn_history bk cbk (tr ++ l) j' -> qn_rest bk cbk j' ->
  exists f t, qn_fair bk cbk f t /\ f 0 = j /\ t 0 = tr /\ forall m, length l <= m -> f m = j' /\ t m = tr ++ l.
Proof. exact @qn_fair_exists. Qed.
Print Assumptions C92_fair_exists.
(** The endpoint task returns before its socket is dropped. *)
Theorem C92_socket_last : forall bk cbk tr j, qn_history bk cbk tr j -> UdpModel.u_open (n_udp (qn_node j)) = false ->
  q_over (qn_calls j) = true.
Proof. exact @closed_stopped. Qed.
Print Assumptions C92_socket_last.

Definition b0 : iid -> N := fun _ => 0%N.
Definition c0 : N -> N := fun _ => 0%N.
Lemma run_history evs : forall tr j j' tr', qn_history b0 c0 tr j -> qnode_run b0 c0 j evs = Some (j', tr') -> qn_history b0 c0 (tr ++ tr') j'.
Proof.
  induction evs as [|ev evs IH]; intros tr j j' tr' H R; cbn in R; [injection R as <- <-; rewrite app_nil_r; exact H|].
  destruct (qnode_step b0 c0 j ev) as [[j1 p]|] eqn:S; [|discriminate]. destruct (qnode_run b0 c0 j1 evs) as [[j2 t2]|] eqn:R'; [|discriminate]. injection R as <- <-.
  change ((ev, p) :: t2) with ([(ev, p)] ++ t2). rewrite app_assoc. eapply IH; [|exact R']. econstructor; eassumption.
Qed.
Lemma run_steps evs : forall j j' tr', qnode_run b0 c0 j evs = Some (j', tr') -> qn_steps b0 c0 j tr' j'.
Proof.
  induction evs as [|ev evs IH]; intros j j' tr' R; cbn in R; [injection R as <- <-; constructor|].
  destruct (qnode_step b0 c0 j ev) as [[j1 p]|] eqn:S; [|discriminate]. destruct (qnode_run b0 c0 j1 evs) as [[j2 t2]|] eqn:R'; [|discriminate]. injection R as <- <-.
  econstructor; [exact S|]. apply IH. exact R'.
Qed.
Lemma steps_go j l j' : qn_steps b0 c0 j l j' -> Forall qn_quiet l -> FairSpec.goes_to (qn_goes b0 c0) j l j'.
Proof. induction 1 as [|j ev p j1 tr j2 S _ IH]; intros F; [constructor|]. inversion F; subst. econstructor; [|apply IH; assumption]. split; assumption. Qed.

(** Three calls are made.  The first is dropped while its command waits, the second has returned a
    stub, and the endpoint is busy with the third, which is for a proxy, when a datagram of a new peer
    arrives for the stub. *)
Definition ex_m : msg := mkS 2 2 3 4 1 1 StRequest ScOk [7%N].
Definition ex_before : list qnevent :=
  map ByCalls [QCall (1%N, 1%N) None; QCall (2%N, 1%N) None; QCall (3%N, 1%N) (Some 9%N);
    QEnter (FCall 1); QEnter (FCall 0); QEnter (FCall 2); QTake; QDrop (FCall 0); QGo true; QGo true; QGo true; QGo true;
    QTake; QGo true; QGo true; QReturn 1; QGo true; QGo true; QTake; QGo true; QGo true] ++ [BySocket (NDatagram 5%N (s_form ex_m))].
Definition ex_after : list qnevent :=
  repeat (BySocket NTask) 4 ++ map ByCalls [QRun (EListener 0); QRun (EListener 0); QGo true; QGo true; QReturn 2; QRun (ESender 0)] ++
  [BySocket (NAccept 0); ByCalls (QRun (EAcceptShare 0)); BySocket (NRecv 1); ByCalls (QRun (ERoute 1)); ByCalls (QRun (ERoute 1)); ByCalls (QRun (ERecvFrom 0))].
Ltac ex_pick n X := repeat (destruct n as [|n]; cbn in X; [try discriminate X; injection X as <-|]; try discriminate X).
Ltac ex_idle := constructor;
  [split; reflexivity
  |let n := fresh in let X := fresh in let P := fresh in intros n (? & X & P); ex_pick n X; exact (P eq_refl)
  |let c := fresh in intros c; do 6 (destruct c as [|c]; [reflexivity|]); reflexivity
  |let n := fresh in let X := fresh in intros n (? & X & _); ex_pick n X; reflexivity
  |let n := fresh in let X := fresh in intros n (? & X & _); ex_pick n X; reflexivity
  |let c := fresh in let X := fresh in intros c ? X; ex_pick c X; split; reflexivity
  |let c := fresh in let X := fresh in intros c ? X; ex_pick c X; split; reflexivity].
Ltac ex_caught := constructor;
  [ left; reflexivity
  | intros c x k ch X A K C; ex_pick c K; cbn in C; injection C as <-; reflexivity
  | intros l x k q X A K Q; ex_pick l K; cbn in Q; injection Q as <-; reflexivity
  | intros c x k X A K; ex_pick c K; reflexivity
  | intros l x k X A K; ex_pick l K; reflexivity
  | intros c x k ch X A K C; ex_pick c X; discriminate A
  | intros l x k q X A K Q; ex_pick l X; discriminate A
  | discriminate ].
Ltac ex_rest := constructor;
  [ constructor; [ex_idle|split; reflexivity|cbn; intuition (subst; reflexivity)]
  | constructor; [ex_idle|let X := fresh in intros ? ? X; discriminate X|let c := fresh in let X := fresh in intros c ? ? X; do 6 (destruct c as [|c]; [discriminate X|]); cbn in X; destruct c; discriminate X]
  | ex_caught ].
Example C92_example : exists tr j tr' j', qn_history b0 c0 tr j /\ ~ all_answered tr /\ qn_steps b0 c0 j tr' j' /\ Forall qn_on tr' /\
  qn_history b0 c0 (tr ++ tr') j' /\ qn_rest b0 c0 j' /\ In (MReturned (OProxy 0 (3%N, 1%N) 9%N)) (life 2 (calls_in (tr ++ tr'))) /\
  In (MDropped) (life 0 (calls_in (tr ++ tr'))) /\ map it_msg (stub_got 0 (runtime_trace (node_in (tr ++ tr')))) = [ex_m].
Proof.
  destruct (qnode_run b0 c0 qnode_init ex_before) as [[j tr]|] eqn:R; [|vm_compute in R; discriminate R].
  pose proof (run_history _ [] _ _ _ (qn_start _ _) R) as H. cbn [app] in H. vm_compute in R. injection R as <- <-.
  match type of H with qn_history _ _ ?t ?s => destruct (qnode_run b0 c0 s ex_after) as [[j' tr']|] eqn:R; [|vm_compute in R; discriminate R]; exists t, s, tr', j' end.
  pose proof (run_history _ _ _ _ _ H R) as H'. pose proof (run_steps _ _ _ _ R) as S. split; [exact H|]. split.
  { intros A. destruct (A 2 (3%N, 1%N) (Some 9%N)) as (o & K & _); [cbn; tauto|cbn; intuition discriminate|]. cbn in K. intuition discriminate. }
  split; [exact S|]. vm_compute in R. injection R as <- <-. split; [repeat constructor; cbn; try discriminate|]. split; [exact H'|]. split; [ex_rest|].
  split; [cbn; tauto|]. split; [cbn; tauto|]. reflexivity.
Qed.
(** The same in a fair run. *)
Example C92_fair_example : exists f t, qn_fair b0 c0 f t /\ qn_history b0 c0 (t 0) (f 0) /\ ~ all_answered (t 0) /\
  exists n, qn_rest b0 c0 (f n) /\ all_answered (t n) /\ In (MReturned (OProxy 0 (3%N, 1%N) 9%N)) (life 2 (calls_in (t n))).
Proof.
  destruct (qnode_run b0 c0 qnode_init ex_before) as [[j tr]|] eqn:R; [|vm_compute in R; discriminate R].
  pose proof (run_history _ [] _ _ _ (qn_start _ _) R) as H. cbn [app] in H. vm_compute in R. injection R as <- <-.
  match type of H with qn_history _ _ ?t ?s => destruct (qnode_run b0 c0 s ex_after) as [[j' tr']|] eqn:R; [|vm_compute in R; discriminate R] end.
  pose proof (run_history _ _ _ _ _ H R) as H'. pose proof (run_steps _ _ _ _ R) as S. vm_compute in R. injection R as <- <-.
  pose proof (steps_go _ _ _ S ltac:(repeat constructor)) as G. destruct (qn_fair_exists _ _ _ _ _ _ G H') as (f & t & F & F0 & T0 & E); [ex_rest|].
  exists f, t. split; [exact F|]. rewrite F0, T0. split; [exact H|]. split.
  { intros A. destruct (A 2 (3%N, 1%N) (Some 9%N)) as (o & K & _); [cbn; tauto|cbn; intuition discriminate|]. cbn in K. intuition discriminate. }
  eexists. edestruct E as [F1 T1]; [apply Nat.le_refl|]. rewrite F1, T1. split; [ex_rest|]. split; [|cbn; tauto]. eapply rest_answered; [exact H'|]. constructor; [ex_idle|split; reflexivity|cbn; intuition (subst; reflexivity)].
Qed.
(** Everybody drops the endpoint: its task returns, and then the socket goes. *)
Definition ex_closed : list qnevent := map ByCalls [QCall (1%N, 1%N) (Some 9%N); QEnter (FCall 0); QTake; QGo true; QGo true; QGo true; QGo true; QReturn 0; QClose].
Example C92_socket_example : exists tr j tr' j', qn_history b0 c0 tr j /\ qnode_step b0 c0 j (BySocket NDropSocket) = None /\
  UdpModel.u_open (n_udp (qn_node j)) = true /\ qn_steps b0 c0 j tr' j' /\ Forall qn_on tr' /\ UdpModel.u_open (n_udp (qn_node j')) = false.
Proof.
  destruct (qnode_run b0 c0 qnode_init ex_closed) as [[j tr]|] eqn:R; [|vm_compute in R; discriminate R].
  pose proof (run_history _ [] _ _ _ (qn_start _ _) R) as H. cbn [app] in H. vm_compute in R. injection R as <- <-.
  match type of H with qn_history _ _ ?t ?s => destruct (qnode_run b0 c0 s [ByCalls QStop; BySocket NDropSocket]) as [[j' tr']|] eqn:R; [|vm_compute in R; discriminate R]; exists t, s, tr', j' end.
  pose proof (run_steps _ _ _ _ R) as S. split; [exact H|]. split; [reflexivity|]. split; [reflexivity|]. split; [exact S|]. vm_compute in R. injection R as <- <-.
  split; [repeat constructor|reflexivity].
Qed.
