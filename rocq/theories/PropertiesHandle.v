(** Property theorems C88: the handles of a v1 endpoint. *)
From Coq Require Import List NArith Bool PeanoNat.
From Verif Require Import BytesModel SomeipModel RuntimeModel RuntimeSpec RuntimeTheorems HandleSpec HandleTheorems.
Import ListNotations.
Open Scope nat_scope.

(** C88.  [WeakEndpoint::upgrade] gives an [Endpoint] if and only if a caller has one or a stub is
    opening a connection. *)
Theorem C88_upgrade : forall bk cbk dg tr s, history bk cbk dg tr s ->
  (held tr = true \/ (exists n, stub_connecting s n) -> exists s', step bk cbk s EUpgrade = Some (s', OUnit)) /\
  (held tr = false /\ ~ (exists n, stub_connecting s n) -> step bk cbk s EUpgrade = Some (s, OError)).
Proof. exact @upgrade_iff. Qed.
Print Assumptions C88_upgrade.
(** While a caller has one, that changes nothing. *)
Theorem C88_same : forall bk cbk dg tr s, history bk cbk dg tr s -> held tr = true -> step bk cbk s EUpgrade = Some (s, OUnit).
Proof. exact @upgrade_same. Qed.
Print Assumptions C88_same.
(** Once all were dropped and no [send_to] is under way, it gives none. *)
Theorem C88_dropped : forall bk cbk dg tr s, history bk cbk dg tr s -> held tr = false -> (forall n, ~ busy s n) ->
  step bk cbk s EUpgrade = Some (s, OError).
Proof. exact @dropped_when_quiet. Qed.
Print Assumptions C88_dropped.
(** Once it gave none it never gives one again; no call of [serve] or [proxy] is made any more, and no
    stub opens a connection. *)
Theorem C88_for_good : forall bk cbk dg tr1 tr2 s, history bk cbk dg (tr1 ++ [(EUpgrade, OError)] ++ tr2) s ->
  forall e o, In (e, o) tr2 ->
  (e = EUpgrade -> o = OError) /\ ~ of_endpoint e /\ (forall n ok c a, e = EStub n ok -> o <> OSpawned c a).
Proof. exact @upgrade_fails_for_good. Qed.
Print Assumptions C88_for_good.

Definition b0 (_ : iid) : N := 0.
Definition c0 (_ : N) : N := 0.
Definition ex_m (v : N) : msg := mkS 1 2 3 4 1 1 StNotification ScOk [v].
Lemma ex_history es s tr : run b0 c0 (rt_init true) es = Some (s, tr) -> history b0 c0 true tr s.
Proof. intros R. exact (run_history _ _ _ es [] _ (h_start _ _ _) _ _ R). Qed.
Definition ex_setup : list event := [EServe (1%N, 1%N); EEp true; EEp true; EEp true; EEp true; EUpgrade].
(** The only [Endpoint] is dropped: nothing upgrades any more, and [send_to] fails for an address that
    is not connected. *)
Example C88_example : exists s tr, run b0 c0 (rt_init true) (ex_setup ++ [EClose; EUpgrade; ESendTo 0 5%N (ex_m 7); EStub 0 true; EUpgrade]) = Some (s, tr) /\
  history b0 c0 true tr s /\ held tr = false /\ (forall n, ~ busy s n) /\
  skipn 5 tr = [(EUpgrade, OUnit); (EClose, OUnit); (EUpgrade, OError); (ESendTo 0 5%N (ex_m 7), OUnit); (EStub 0 true, OError); (EUpgrade, OError)].
Proof.
  eexists. eexists. split; [vm_compute; reflexivity|]. split; [apply (ex_history (ex_setup ++ [EClose; EUpgrade; ESendTo 0 5%N (ex_m 7); EStub 0 true; EUpgrade])); vm_compute; reflexivity|].
  split; [reflexivity|]. split; [|reflexivity]. intros [|[|n]] (t & T & B); cbn in T; try discriminate T. injection T as <-. apply B. reflexivity.
Qed.
(** That all were dropped does not mean that none can be had: while a stub opens a connection a weak
    one upgrades, and the endpoint goes on to serve. *)
Theorem C88_dropped_refuted : exists tr s, history b0 c0 true tr s /\ held (firstn 9 tr) = false /\
  skipn 8 tr = [(EClose, OUnit); (EUpgrade, OUnit); (EStub 0 true, OSpawned 0 5%N); (EServe (2%N, 1%N), OUnit); (EEp true, OUnit); (EEp true, OUnit); (EEp true, OUnit); (EEp true, OStub 1 (2%N, 1%N))].
Proof.
  eexists. eexists. split; [apply (ex_history (ex_setup ++ [ESendTo 0 5%N (ex_m 7); EStub 0 true; EClose; EUpgrade; EStub 0 true; EServe (2%N, 1%N); EEp true; EEp true; EEp true; EEp true])); vm_compute; reflexivity|].
  split; reflexivity.
Qed.
Print Assumptions C88_dropped_refuted.
