(** Theorems about calls in runs without end. *)
From Coq Require Import List NArith Bool PeanoNat Lia Wf_nat.
From Verif Require Import BytesModel MapModel RuntimeModel RuntimeSpec QueueModel QueueSpec QueueTheorems QueueProgressTheorems QueueFairSpec.
From Verif Require FairSpec FairTheorems ExchangeRestTheorems.
Import ListNotations.
Open Scope nat_scope.

Section Locks.
Context (bk : iid -> N) (cbk : N -> N) (dg : bool).
Notation step := (step bk cbk).
Notation qstep := (qstep bk cbk).
Notation qhistory := (qhistory bk cbk dg).

Lemma ease_stays tr q p q' : qhistory tr q -> at_ease q -> q_goes bk cbk q p q' -> at_ease q'.
Proof.
  intros H [ID [CH NOW] CA] [Q S]. destruct p as [[x o] l]. cbn [fst snd] in S. apply qstepped in S.
  assert (NC : forall t k, nth_error (q_calls q) t = Some k -> k_stat k = COver) by (intros t k T; apply CA; eapply nth_error_In; exact T).
  assert (RUN : forall e s' o', brings e = None -> step (q_rt q) e = Some (s', o') -> idle s').
  { intros e s' o' B ST. eapply FairTheorems.idle_stays; eassumption. }
  destruct S; cbn in Q; try contradiction; try congruence; try (match goal with T : nth_error (q_calls _) _ = Some _ |- _ => specialize (NC _ _ T); discriminate NC end).
  - exfalso. apply (no_send _ ID n). exists st. split; [assumption|congruence].
  - exfalso. apply (no_send _ ID n). exists st. split; [assumption|congruence].
  - exfalso. cbn in H0. destruct (nth_error (r_stubs (q_rt q)) n) as [st|] eqn:X; [|discriminate]. destruct (st_alive st); [|discriminate].
    destruct (st_pc st) eqn:P; try discriminate; apply (no_send _ ID n); exists st; (split; [exact X|congruence]).
  - constructor; cbn; [eapply RUN; [|exact H1]; reflexivity|auto|exact CA].
  - constructor; cbn; [exact ID|auto|exact CA].
  - constructor; cbn; [eapply RUN; [|exact H1]; exact Q|auto|exact CA].
Qed.
Lemma ease_done tr q : qhistory tr q -> at_ease q -> ~ q_can bk cbk q.
Proof.
  intros H [ID [CH NOW] CA] (x & q' & o & l & S & G). apply qstepped in S.
  assert (NC : forall t k, nth_error (q_calls q) t = Some k -> k_stat k = COver) by (intros t k T; apply CA; eapply nth_error_In; exact T).
  destruct S; cbn in G; try contradiction; try congruence; try (match goal with T : nth_error (q_calls _) _ = Some _ |- _ => specialize (NC _ _ T); discriminate NC end).
  - apply (no_send _ ID n). exists st. split; [assumption|congruence].
  - apply (no_send _ ID n). exists st. split; [assumption|congruence].
  - destruct G as [C A]. destruct (FairTheorems.idle_stays bk cbk _ _ _ _ ID (ExchangeRestTheorems.coop_brings _ C) H1) as [_ K]. destruct (K C); subst o; discriminate A.
Qed.
Theorem calls_fair f t : q_fair bk cbk f t -> qhistory (t 0) (f 0) -> forall k, exists n, k <= n /\ qhistory (t n) (f n) /\
  ((forall m, n <= m -> at_ease (f m) /\ forall u id to, In (MMade id to) (life u (t m)) -> ~ In MDropped (life u (t m)) -> exists o, In (MReturned o) (life u (t m)) /\ fits id to o) \/
   exists c i, jammed bk (rt_trace (t n)) (q_rt (f n)) c i).
Proof.
  intros R P k.
  assert (PG : forall tr q p q', qhistory tr q -> q_goes bk cbk q p q' -> qhistory (tr ++ [p]) q').
  { intros tr q [[x o] l] q' H [_ S]. econstructor; eassumption. }
  destruct (FairTheorems.fair_rest (q_goes bk cbk) (q_can bk cbk) (fun _ p _ => goes_on p) qhistory (fun tr q => at_ease q \/ exists c i, jammed bk (rt_trace tr) (q_rt q) c i)
    (fun _ q => calls_left q) lt lt_wf PG) with (f := f) (t := t) (k := k) as (n & L & Q); try assumption.
  - intros tr q [[x o] l] q' H [QU S]. cbn [fst snd] in S. pose proof (calls_less _ _ _ _ _ _ _ _ _ H S QU). destruct (acts (x, o, l)); lia.
  - intros tr q [[x o] l] q' H [QU S] G. cbn [fst snd] in S. pose proof (calls_less _ _ _ _ _ _ _ _ _ H S QU) as D. rewrite (on_acts _ G) in D. lia.
  - intros tr q H. destruct (calls_progress _ _ _ _ _ H) as [C|C]; [left; exact C|right; exact C].
  - pose proof (FairTheorems.fair_past _ _ _ _ PG _ _ R P) as PN. exists n. split; [exact L|]. split; [apply PN|]. destruct Q as [Q|Q]; [left|right; exact Q].
    assert (AE : forall m, n <= m -> at_ease (f m)).
    { intros m LM. apply (FairTheorems.fair_keeps _ _ _ _ PG (fun _ q => at_ease q) _ _ R P) with (n := n) (m := m); [|exact Q|exact LM]. intros tr q x q' H E G. eapply ease_stays; eassumption. }
    intros m LM. split; [exact (AE m LM)|]. intros u id to M D. eapply calls_answered; [apply PN|exact (AE m LM)|exact M|exact D].
Qed.
Theorem calls_run_exists tr q l q' : FairSpec.goes_to (q_goes bk cbk) q l q' -> qhistory (tr ++ l) q' -> at_ease q' ->
  exists f t, q_fair bk cbk f t /\ f 0 = q /\ t 0 = tr /\ forall m, length l <= m -> f m = q' /\ t m = tr ++ l.
Proof. intros G H E. apply FairTheorems.fair_exists; [exact G|]. eapply ease_done; eassumption. Qed.
End Locks.
