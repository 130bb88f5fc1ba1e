(** Theorems about endpoints over TCP under load. *)
From Coq Require Import List NArith Bool PeanoNat Lia Wf_nat.
From Verif Require Import BytesModel SomeipModel MapModel RuntimeModel RuntimeSpec RuntimeProofs RuntimeProgressTheorems RuntimeWorkTheorems RuntimeSendTheorems
  TcpModel TcpSpec TcpTheorems TcpNodeModel TcpNodeSpec TcpNodeTheorems TcpRestSpec TcpRestTheorems
  QueueModel QueueSpec QueueTheorems QueueProgressTheorems QueueTcpModel QueueTcpSpec QueueTcpTheorems LoadSpec LoadTheorems LoadTcpSpec.
Import ListNotations.
Open Scope nat_scope.

Section Locks.
Context (bk : iid -> N) (cbk : N -> N).
Notation step := (step bk cbk).
Notation steps := (steps bk cbk).
Notation tnode_step := (tnode_step bk cbk).
Notation thistory := (thistory bk cbk).
Notation qstep := (qstep bk cbk).
Notation qhistory := (qhistory bk cbk false).
Notation tnode_does := (tnode_does bk cbk).
Notation qtnode_step := (qtnode_step bk cbk).
Notation qt_history := (qt_history bk cbk).
Notation can_act := (can_act bk cbk).
Notation can_over := (can_over bk cbk).

(** ** Who can go on can go on with the streams below *)
Lemma inner tr q k x q' o l : qhistory tr q -> qstep q x = Some (q', o, l) -> acts_as k x ->
  Forall (fun e => tcp_internal e = true) (map fst l) \/ exists c ok, x = QRun (ESocket c ok).
Proof.
  intros H S G. pose proof (invariant _ _ _ _ _ H) as V. apply qstepped in S. pose proof (not_refused _ _ _ _ _ _ _ _ V S) as NR.
  destruct S; try congruence; try (destruct k; contradiction G); cbn [map fst]; try (left; constructor; fail); try (left; repeat constructor; fail).
  - left. constructor; [|constructor]. unfold begins. destruct (e_gone e); [reflexivity|]. destruct to; reflexivity.
  - left. constructor; [|constructor]. unfold connects in *. destruct (e_gone e); [subst b; reflexivity|].
    match goal with K : exists n, _ |- _ => destruct K as (n & _ & ->) end. reflexivity.
  - left. constructor; [reflexivity|]. match goal with K : dropped_answer _ _ _ _ _ _ |- _ => unfold dropped_answer in K; destruct o; cbn in K;
      first [destruct K as (? & _ & ->); repeat constructor|destruct K as [_ ->]; constructor] end.
  - destruct e; try (destruct k; contradiction G); try (left; repeat constructor; fail). right. eauto.
Qed.
Lemma can_below tr j k : qt_history tr j -> can_act k (qt_calls j) -> can_over (Own k) j.
Proof.
  intros H (x & [[q o] l] & A & Q). destruct (halves _ _ _ _ H) as (HQ & HN & R & _).
  destruct (inner _ _ _ _ _ _ _ HQ Q A) as [F|(c & ok & ->)].
  - pose proof (below _ _ _ _ _ _ _ (qstepped _ _ _ _ _ _ _ Q)) as B. rewrite R in B. destruct (follow _ _ _ _ _ F B) as (s & xs & D).
    exists (AtCalls x), (mkQT q s), (mkQTL (Some (x, o, l)) xs). split; [|exact A]. apply qtstep_of. constructor; assumption.
  - destruct k; try contradiction A. cbn in A. subst. cbn [QueueModel.qstep elsewhere] in Q. unfold at_rt in Q. destruct (step (q_rt (qt_calls j)) (ESocket c0 ok)) as [[r o']|] eqn:S; [|discriminate].
    clear Q. rewrite R in S. cbn in S. destruct (nth_error (r_conns (t_rt (qt_node j))) c0) as [y|] eqn:Y; [|discriminate]. destruct (c_alive y) eqn:AL; [|discriminate]. destruct (c_out y) as [bs|] eqn:O; [|discriminate].
    pose proof (has_link _ _ _ _ _ _ HN Y) as K.
    destruct (step (t_rt (qt_node j)) (ESocket c0 false)) as [[r2 o2]|] eqn:S2; [|cbn in S2; rewrite Y, AL, O in S2; discriminate].
    assert (S3 : exists r, qstep (qt_calls j) (QRun (ESocket c0 false)) = Some r) by (cbn [QueueModel.qstep elsewhere]; unfold at_rt; rewrite R, S2; eauto).
    destruct S3 as [[[q' o3] l3] S3].
    eexists (AtStream (TWrite c0 (Broken, None))), _, _. split; [apply qtstep_of; eapply qg_answer; [exact I| | |exact S3]|].
    + cbn [TcpNodeModel.tnode_step]. rewrite Y, K, O. cbn [tcp_send]. unfold tcp_answer. rewrite S2. reflexivity.
    + reflexivity.
    + split; [reflexivity|]. intros E. apply (f_equal qt_node) in E. apply (f_equal t_rt) in E. cbn in E. cbn in S2. rewrite Y, AL, O in S2. injection S2 as <- _.
      apply (f_equal r_conns) in E. cbn in E. apply (f_equal (fun l => nth_error l c0)) in E. rewrite nth_upd_same, Y in E. cbn in E. injection E as E. apply (f_equal c_alive) in E. cbn in E. congruence.
Qed.

(** ** What a connection still has to hand to its stream *)
Definition to_send (c : nat) (s : tnode) : nat :=
  match nth_error (r_conns (t_rt s)) c with Some x => match c_out x with Some bs => length bs - k_sent (lk s c) | None => 0 end | None => 0 end.
Lemma out_stays s e s' o c x' bs : step s e = Some (s', o) -> e <> ESender c -> nth_error (r_conns s') c = Some x' -> c_out x' = Some bs ->
  exists x, nth_error (r_conns s) c = Some x /\ c_out x = Some bs.
Proof.
  intros ST NE X' O. destruct (step_cchange _ _ false _ _ _ _ c ST) as
      [Y Z|a L Z _|y z Y Z _ _ _ E _ _|y z q Y Z _ _ _ _ _ E _ _|y z q r Y Z _ _ _ E _ _ _ _ _|y z b Y Z _ _ _ _ _ _ E _|y Y Z _ _]; rewrite X' in Z; try discriminate Z; try (injection Z as ->).
  - discriminate O.
  - exists y. split; [exact Y|congruence].
  - exists y. split; [exact Y|congruence].
  - contradiction.
  - congruence.
  - discriminate O.
Qed.
Lemma outs_stay l : forall s s' c x' bs, steps s l s' -> Forall (fun e => e <> ESender c) (map fst l) -> nth_error (r_conns s') c = Some x' -> c_out x' = Some bs ->
  exists x, nth_error (r_conns s) c = Some x /\ c_out x = Some bs.
Proof.
  induction l as [|[e o] l IH]; intros s s' c x' bs S F X O; inversion S as [|? ? ? r1 ? ? S1 S2]; subst; [eauto|]. cbn in F. inversion F; subst.
  destruct (IH _ _ _ _ _ S2 H2 X O) as (y & Y & OY). eapply out_stays; eassumption.
Qed.
Lemma less_to_send c s s' : (forall x' bs, nth_error (r_conns (t_rt s')) c = Some x' -> c_out x' = Some bs -> exists x, nth_error (r_conns (t_rt s)) c = Some x /\ c_out x = Some bs) ->
  k_sent (lk s c) <= k_sent (lk s' c) -> to_send c s' <= to_send c s.
Proof.
  intros E K. unfold to_send. destruct (nth_error (r_conns (t_rt s')) c) as [x'|]; [|lia]. destruct (c_out x') as [bs|] eqn:O; [|lia]. destruct (E _ _ eq_refl O) as (x & -> & ->). lia.
Qed.
Lemma does_links es : forall s s' xs c, tnode_does s es = Some (s', xs) -> lk s' c = lk s c.
Proof.
  induction es as [|e es IH]; intros s s' xs c D; cbn [QueueTcpModel.tnode_does] in D; [injection D as <- <-; auto|].
  destruct (tnode_step s (TRun e)) as [[s1 x]|] eqn:S; [|discriminate D]. destruct (tnode_does s1 es) as [[s2 ys]|] eqn:D'; [|discriminate D]. cbn in D. injection D as <- <-.
  rewrite (IH _ _ _ _ D'). destruct (run_is _ _ _ _ _ _ S) as (_ & o & _ & _ & L). unfold lk. rewrite L. apply nth_grow.
Qed.
(** Only its own sender has something new to write. *)
Lemma own_sender q x q' o l c : qstep q x = Some (q', o, l) -> ~ acts_as (Sender c) x -> Forall (fun e => e <> ESender c) (map fst l).
Proof.
  intros S N. apply qstepped in S. destruct S; cbn [map fst]; try (repeat constructor; discriminate).
  - constructor; [|constructor]. unfold begins. destruct (e_gone e); [discriminate|]. destruct to; discriminate.
  - constructor; [|constructor]. unfold connects in *. destruct (e_gone e); [subst; discriminate|].
    match goal with K : exists n, _ |- _ => destruct K as (n & _ & ->) end. discriminate.
  - constructor; [discriminate|]. match goal with K : dropped_answer _ _ _ _ _ _ |- _ => unfold dropped_answer in K; destruct o; cbn in K;
      first [destruct K as (? & _ & ->); repeat constructor; discriminate|destruct K as [_ ->]; constructor] end.
  - match goal with K : dropped_answer _ _ _ _ _ _ |- _ => unfold dropped_answer in K; destruct o; cbn in K;
      first [destruct K as (? & _ & ->); repeat constructor; discriminate|destruct K as [_ ->]; constructor] end.
  - constructor; [|constructor]. intros ->. apply N. reflexivity.
Qed.
Lemma sends_on tr j ev j' p c : qt_history tr j -> qtnode_step j ev = Some (j', p) ->
  (exists x o l, qtl_call p = Some (x, o, l) /\ acts_as (Sender c) x) \/
  (to_send c (qt_node j') <= to_send c (qt_node j) /\ (acts_over (Own (Sender c)) j ev j' -> to_send c (qt_node j') < to_send c (qt_node j))).
Proof.
  intros H S. destruct (halves _ _ _ _ H) as (HQ & HN & R & _). pose proof (writing _ _ _ _ HN c) as WR. apply qtstepped in S.
  assert (DEC : forall x, acts_as (Sender c) x \/ ~ acts_as (Sender c) x).
  { intros x. destruct x as [| | | | | | | |e]; try (right; intros []; fail). destruct e; try (right; intros []; fail); cbn; destruct (Nat.eq_dec c0 c); auto. }
  destruct S as [x q o l s xs Q D|e s x N S E|e s x e' o' q o l N S E Q]; cbn [qtl_call qt_node].
  - destruct (DEC x) as [A|NA]; [left; eauto 6|right]. split; [|intros A; contradiction].
    pose proof (below _ _ _ _ _ _ _ (qstepped _ _ _ _ _ _ _ Q)) as B. rewrite R in B. destruct (does_is _ _ _ _ _ _ D) as (l' & E & L & _). destruct (steps_det _ _ _ _ _ _ _ B L (eq_sym E)) as [<- ER].
    apply less_to_send; [|rewrite (does_links _ _ _ _ c D); reflexivity]. intros x' bs X' O. eapply outs_stay; [exact L|exact (own_sender _ _ _ _ _ _ Q NA)|exact X'|exact O].
  - right. destruct (tnode_stepped _ _ _ _ _ _ S); try contradiction N; try discriminate E.
    + split; [|intros []]. apply less_to_send; [cbn [t_rt]; eauto|]. unfold lk. cbn [t_links]. erewrite nth_upd_link by eassumption. destruct (Nat.eqb_spec c c0) as [->|]; [|reflexivity]. fold (lk (qt_node j) c0). rewrite (lk_is _ _ _ H0). reflexivity.
    + split; [|intros []]. apply less_to_send; [cbn [t_rt]; eauto|]. unfold lk. cbn [t_links]. erewrite nth_upd_link by eassumption. destruct (Nat.eqb_spec c c0) as [->|]; [|reflexivity]. fold (lk (qt_node j) c0). rewrite (lk_is _ _ _ H0). reflexivity.
    + destruct (Nat.eq_dec c c0) as [->|NC].
      * unfold wrote in WR. rewrite H0, H2, (lk_is _ _ _ H1) in WR. destruct (c_alive x); [|destruct WR; discriminate]. destruct WR as [LE _]. destruct (write_one _ _ _ _ _ _ LE H3) as (LE' & _).
        unfold to_send. cbn [t_rt]. rewrite H0, H2, (lk_is _ _ _ H1). unfold lk. cbn [t_links]. erewrite nth_upd_link by eassumption. rewrite Nat.eqb_refl. cbn [k_sent k_with_sent].
        split; [lia|]. intros [_ NE]. destruct w as [|b w]; [|cbn [length] in *; lia]. exfalso. apply NE. destruct j as [qc [nr nl]]. cbn in *. f_equal. f_equal.
        apply upd_same with (x := k); [exact H1|]. cbn. rewrite Nat.add_0_r. destruct k; reflexivity.
      * split; [|intros [K _]; injection K; congruence]. apply less_to_send; [cbn [t_rt]; eauto|]. unfold lk. cbn [t_links]. erewrite nth_upd_link by eassumption. apply Nat.eqb_neq in NC. rewrite NC. reflexivity.
  - pose proof (entry_answers _ _ _ _ _ _ _ _ N S E) as AN. destruct (DEC (QRun e')) as [A|NA]; [left; eauto 6|right]. pose proof (rt_of_entry _ _ _ _ _ _ S) as K. rewrite E in K.
    assert (NS : e' <> ESender c) by (destruct e'; discriminate).
    destruct (tnode_stepped _ _ _ _ _ _ S); try contradiction N; try discriminate E; injection E as <- <-.
    all: split; [apply less_to_send; [intros x' bs0 X' O'; eapply out_stays; eassumption|]|].
    all: try (intros [K' _]; try discriminate K'; injection K' as ->; exfalso; apply NA; reflexivity).
    all: unfold lk; cbn [t_links]; rewrite nth_grow; erewrite nth_upd_link by eassumption; destruct (Nat.eqb_spec c c0) as [->|]; try reflexivity.
    all: try (exfalso; apply NA; reflexivity).
    all: fold (lk (qt_node j) c0); rewrite (lk_is _ _ _ H0); reflexivity.
Qed.

(** ** What arrived is read *)
Definition ready_to_read (c : nat) (s : tnode) : Prop :=
  (exists x, nth_error (r_conns (t_rt s)) c = Some x /\ c_alive x = true /\ c_recv x = RWait []) /\ t_avail (k_in (lk s c)) <> [].
Lemma can_read tr j c : qt_history tr j -> ready_to_read c (qt_node j) -> can_over (Reading c) j.
Proof.
  intros H ((x & X & A & W) & AV). destruct (halves _ _ _ _ H) as (_ & HN & R & _). pose proof (has_link _ _ _ _ _ _ HN X) as K.
  remember (lk (qt_node j) c) as k eqn:EK. destruct (t_avail (k_in k)) as [|b rest] eqn:V; [congruence|].
  assert (P : step (t_rt (qt_node j)) (EPacket c [b]) <> None) by (cbn; rewrite X, A, W; destruct (decode [b]); discriminate).
  destruct (step (t_rt (qt_node j)) (EPacket c [b])) as [[r o]|] eqn:ST; [clear P|congruence].
  assert (Q : exists p, qstep (qt_calls j) (QRun (EPacket c [b])) = Some p) by (cbn [QueueModel.qstep elsewhere]; unfold at_rt; rewrite R, ST; eauto). destruct Q as [[[q o1] l] Q].
  assert (TR : tcp_recv (@cons round (Ready, Some 1) (@nil round)) (k_in k) = (ROk [b], mkT rest (t_fin (k_in k)))) by (cbn; rewrite V; reflexivity).
  eexists (AtStream (TRead c (Ready, Some 1))), _, _. split; [apply qtstep_of; eapply qg_answer; [exact I| | |exact Q]|].
  - cbn [TcpNodeModel.tnode_step]. rewrite K. cbv beta iota. rewrite TR. unfold tcp_answer. rewrite ST. reflexivity.
  - reflexivity.
  - split; [reflexivity|]. split; [exists k; split; [exact K|congruence]|]. intros E. apply (f_equal qt_node) in E. cbn [qt_node] in E. apply (f_equal (fun s => t_avail (k_in (lk s c)))) in E. unfold lk in E at 1. cbn [t_links] in E.
    rewrite nth_grow in E. erewrite nth_upd_link in E by exact K. rewrite Nat.eqb_refl, <- EK, V in E. cbn in E. apply (f_equal (@length _)) in E. cbn in E. lia.
Qed.
Lemma wait_stay_all l : forall s s' c x x', steps s l s' -> Forall (fun e => forall bs, e <> EPacket c bs) (map fst l) -> nth_error (r_conns s) c = Some x -> c_recv x = RWait [] ->
  nth_error (r_conns s') c = Some x' -> c_recv x' = RWait [].
Proof.
  induction l as [|[e o] l IH]; intros s s' c x x' S F X W X'; inversion S as [|? ? ? r1 ? ? S1 S2]; subst; [congruence|]. cbn in F. inversion F; subst.
  destruct (conn_kept _ _ _ _ _ _ _ _ S1 X) as (y & Y). apply (IH r1 s' c y x'); [exact S2|assumption|exact Y| |exact X']. eapply wait_stays; eassumption.
Qed.
Lemma reads_app c tr tr' : reads c (tr ++ tr') = reads c tr ++ reads c tr'.
Proof. unfold reads. rewrite run_app. apply flat_map_app. Qed.
(** A step of [recv] that returns bytes, or one that leaves the connection ready to read, or ends it. *)
Lemma reads_on tr j ev j' p c : qt_history tr j -> qtnode_step j ev = Some (j', p) -> ready_to_read c (qt_node j) ->
  ~ conn_runs (t_rt (qt_node j')) c \/ 0 < length (concat (reads c (qtl_node p))) \/ (ready_to_read c (qt_node j') /\ ~ acts_over (Reading c) j ev j').
Proof.
  intros H S ((x0 & X & A & W) & AV). destruct (halves _ _ _ _ H) as (HQ & HN & R & _). apply qtstepped in S.
  assert (RUN : forall j1, {conn_runs (t_rt (qt_node j1)) c} + {~ conn_runs (t_rt (qt_node j1)) c}).
  { intros j1. unfold conn_runs. destruct (nth_error (r_conns (t_rt (qt_node j1))) c) as [y|]; [|right; intros (z & Z & _); discriminate Z].
    destruct (c_alive y) eqn:AY; [left; eauto|right; intros (z & Z & B); congruence]. }
  destruct (RUN j') as [RU|NR]; [right|left; exact NR]. destruct RU as (x' & X' & A').
  destruct S as [x q o l s xs Q D|e s x N S E|e s x e' o' q o l N S E Q]; cbn [qtl_node qt_node] in *.
  - right. split; [|intros []]. destruct (does_is _ _ _ _ _ _ D) as (l' & E & L & _). split; [|rewrite (does_links _ _ _ _ c D); exact AV]. exists x'. split; [exact X'|]. split; [exact A'|].
    eapply wait_stay_all; [exact L| |exact X|exact W|exact X']. rewrite E. clear - D. revert s xs D. generalize (qt_node j). induction (map fst l) as [|e es IH]; intros s0 s xs D; [constructor|].
    cbn [QueueTcpModel.tnode_does] in D. destruct (tnode_step s0 (TRun e)) as [[s1 y]|] eqn:S; [|discriminate D]. destruct (tnode_does s1 es) as [[s2 ys]|] eqn:D'; [|discriminate D].
    constructor; [|eapply IH; exact D']. intros bs ->. discriminate S.
  - right. pose proof (rt_of_entry _ _ _ _ _ _ S) as K. rewrite E in K. rewrite K in X'. assert (x' = x0) by congruence. subst x'. clear X'. split.
    + split; [exists x0; rewrite K; auto|]. destruct (tnode_stepped _ _ _ _ _ _ S); try contradiction N; try discriminate E; unfold lk in *; cbn [t_links]; erewrite nth_upd_link by eassumption; destruct (Nat.eqb_spec c c0) as [->|]; try exact AV.
      all: match goal with L : nth_error (t_links _) _ = Some _ |- _ => rewrite (nth_error_nth _ _ new_link L) in AV end; cbn; try exact AV.
      destruct (t_avail (k_in k)); [congruence|discriminate].
    + intros AC. destruct (tnode_stepped _ _ _ _ _ _ S); try contradiction N; try discriminate E; try contradiction AC. destruct AC as [AC _]. discriminate AC.
  - pose proof (rt_of_entry _ _ _ _ _ _ S) as K. rewrite E in K. destruct (tnode_stepped _ _ _ _ _ _ S) as
      [| | |d q0 bs tt k r o1 n L RV ST NN|d q0 tt k r o1 n L RV ST NN|d q0 y k bs w z r o1 n Y L O WR ST NN|d q0 y k bs w z r o1 n Y L O WR ST NN|]; try contradiction N; try discriminate E; injection E as <- <-; cbn [t_rt] in *.
    + destruct (Nat.eq_dec d c) as [->|ND].
      * destruct bs as [|b0 bs]; [|left; unfold reads; cbn; rewrite Nat.eqb_refl; cbn; lia]. exfalso.
        unfold lk in AV. rewrite (nth_error_nth _ _ new_link L) in AV. destruct q0 as [[] [m|]]; cbn -[Nat.min Nat.max] in RV; try discriminate RV. destruct (t_avail (k_in k)) as [|b1 l1] eqn:V; [congruence|].
        injection RV as RV _. apply (f_equal (@length _)) in RV. rewrite firstn_length in RV. cbn [length] in RV. destruct m; lia.
      * right. split; [|intros [AC _]; congruence]. split; [|unfold lk in *; cbn [t_links]; rewrite nth_grow; erewrite nth_upd_link by eassumption; destruct (Nat.eqb_spec c d) as [->|]; [congruence|exact AV]].
        exists x'. split; [exact X'|]. split; [exact A'|]. eapply wait_stays; [exact ST|exact X|exact W|congruence|exact X'].
    + destruct (Nat.eq_dec d c) as [->|ND].
      * exfalso. cbn in ST. rewrite X, A, W in ST. injection ST as <- _. cbn in X'. rewrite nth_upd_same, X in X'. injection X' as <-. discriminate A'.
      * right. split; [|intros [AC _]; congruence]. split; [|unfold lk in *; cbn [t_links]; rewrite nth_grow; erewrite nth_upd_link by eassumption; destruct (Nat.eqb_spec c d) as [->|]; [congruence|exact AV]].
        exists x'. split; [exact X'|]. split; [exact A'|]. eapply wait_stays; [exact ST|exact X|exact W|discriminate|exact X'].
    + right. split; [|intros [AC _]; discriminate AC]. split; [|unfold lk in *; cbn [t_links]; rewrite nth_grow; erewrite nth_upd_link by eassumption; destruct (Nat.eqb_spec c d) as [->|]; [rewrite (nth_error_nth _ _ new_link L) in AV; exact AV|exact AV]].
      exists x'. split; [exact X'|]. split; [exact A'|]. eapply wait_stays; [exact ST|exact X|exact W|discriminate|exact X'].
    + right. split; [|intros [AC _]; discriminate AC]. split; [|unfold lk in *; cbn [t_links]; rewrite nth_grow; erewrite nth_upd_link by eassumption; destruct (Nat.eqb_spec c d) as [->|]; [rewrite (nth_error_nth _ _ new_link L) in AV; exact AV|exact AV]].
      exists x'. split; [exact X'|]. split; [exact A'|]. eapply wait_stays; [exact ST|exact X|exact W|discriminate|exact X'].
Qed.

(** ** Seen without the streams, it is a run under load *)
Section Run.
Context (f : nat -> qtnode) (t : nat -> list (qtevent * qtlog)) (R : tcp_load bk cbk f t) (H : qt_history (t 0) (f 0)).
Notation F := (fun n => qt_calls (f n)).
Notation T := (fun n => calls_at (t n)).
Lemma t_hist n : qt_history (t n) (f n).
Proof. induction n as [|n IH]; [exact H|]. destruct (tl_goes _ _ _ _ R n) as [[-> ->]|(ev & p & S & ->)]; [exact IH|]. econstructor; eassumption. Qed.
Lemma t_once m p : t (S m) = t m ++ [p] -> qtnode_step (f m) (fst p) = Some (f (S m), snd p).
Proof.
  intros E. destruct (tl_goes _ _ _ _ R m) as [[_ E']|(ev & q & S & E')]; rewrite E in E'.
  - apply (f_equal (@length _)) in E'. rewrite app_length in E'. cbn in E'. lia.
  - apply app_inj_tail in E'. destruct E' as [_ ->]. exact S.
Qed.
Lemma t_seen m ev p x o l : t (S m) = t m ++ [(ev, p)] -> qtl_call p = Some (x, o, l) -> T (S m) = T m ++ [(x, o, l)].
Proof. intros E P. cbn. rewrite E, calls_snoc. cbn. rewrite P. reflexivity. Qed.
Lemma sender_seen c : forall w n, to_send c (qt_node (f n)) = w -> exists m, n <= m /\
  ((exists x o l, acts_as (Sender c) x /\ T (S m) = T m ++ [(x, o, l)]) \/ forall m', m <= m' -> ~ can_act (Sender c) (F m')).
Proof.
  intros w. induction w as [w IH] using lt_wf_ind. intros n W. destruct (tl_fair _ _ _ _ R (Own (Sender c)) n) as (m & L & [(ev & p & A & E)|NV]).
  - assert (K : (exists m', n <= m' /\ exists x o l, acts_as (Sender c) x /\ T (S m') = T m' ++ [(x, o, l)]) \/ to_send c (qt_node (f m)) <= w).
    { clear A E. induction L as [|m L IHm]; [right; lia|]. destruct IHm as [K|K]; [left; exact K|]. destruct (tl_goes _ _ _ _ R m) as [[-> _]|(ev' & p' & S & E)]; [right; exact K|].
      destruct (sends_on _ _ _ _ _ c (t_hist m) S) as [(x & o & l & P & A)|[LE _]]; [left|right; lia]. exists m. split; [exact L|]. exists x, o, l. split; [exact A|]. exact (t_seen _ _ _ _ _ _ E P). }
    destruct K as [(m' & L' & K)|K]; [exists m'; split; [exact L'|left; exact K]|].
    destruct (sends_on _ _ _ _ _ c (t_hist m) (t_once _ _ E)) as [(x & o & l & P & A')|[_ LT]].
    + exists m. split; [exact L|left]. exists x, o, l. split; [exact A'|]. exact (t_seen _ _ _ _ _ _ E P).
    + destruct (IH _ (Nat.lt_le_trans _ _ _ (LT A) K) (S m) eq_refl) as (m' & L' & C). exists m'. split; [lia|exact C].
  - exists m. split; [exact L|right]. intros m' L' C. exact (NV m' L' (can_below _ _ _ (t_hist m') C)).
Qed.
Theorem seen_run : load_run bk cbk F T.
Proof.
  constructor.
  - intros n. destruct (tl_goes _ _ _ _ R n) as [[-> ->]|(ev & p & S & E)]; [left; split; reflexivity|]. pose proof (qtstepped _ _ _ _ _ _ S) as G. remember (f (Datatypes.S n)) as j'.
    destruct G as [x q o l s xs Q D|e s x N ST X|e s x e' o' q o l N ST X Q].
    + right. exists x, o, l. split; [exact Q|]. rewrite E, calls_snoc. reflexivity.
    + left. split; [reflexivity|]. rewrite E, calls_snoc. apply app_nil_r.
    + right. exists (QRun e'), o, l. split; [exact Q|]. rewrite E, calls_snoc. reflexivity.
  - intros k n. assert (D : (exists c, k = Sender c) \/ forall c, k <> Sender c) by (destruct k; try (right; discriminate); left; eauto). destruct D as [[c ->]|NS].
    + exact (sender_seen c _ n eq_refl).
    + destruct (tl_fair _ _ _ _ R (Own k) n) as (m & L & [(ev & p & A & E)|NV]); exists m; (split; [exact L|]).
      * left. pose proof (qtstepped _ _ _ _ _ _ (t_once _ _ E)) as G. cbn [fst snd] in G. destruct ev as [x|e].
        -- inversion G; subst. exists x, o, l. split; [exact A|]. rewrite E, calls_snoc. reflexivity.
        -- destruct e; try contradiction A; destruct A as [A _]; try discriminate A. injection A as ->. destruct (NS c eq_refl).
      * right. intros m' L' C. exact (NV m' L' (can_below _ _ _ (t_hist m') C)).
Qed.
Theorem tcp_written_on c N : exists m, N <= m /\ (~ conn_runs (t_rt (qt_node (f m))) c \/
  exists rest, bytes_out c (node_at (t m)) = concat (map encode (accepted c (tcp_trace (node_at (t N))))) ++ rest).
Proof.
  destruct (halves _ _ _ _ H) as (HQ & _). destruct (written bk cbk false F T seen_run HQ c N) as (m & L & C). exists m. split; [exact L|].
  destruct (halves _ _ _ _ (t_hist m)) as (_ & HN & RT & TR). destruct (halves _ _ _ _ (t_hist N)) as (_ & _ & _ & TR0). cbn in C. rewrite RT, TR, TR0 in C.
  destruct C as [C|(rest & C)]; [left; exact C|]. destruct (written_facts _ _ _ _ c HN) as (part & lost & W & _).
  right. exists (concat rest ++ part). rewrite W, C, concat_app, app_assoc. reflexivity.
Qed.
Notation nread c n := (length (concat (reads c (node_at (t n))))).
Notation narrived c n := (length (bytes_in c (node_at (t n)))).
Lemma t_grows n m : n <= m -> exists more, t m = t n ++ more.
Proof.
  induction 1 as [|m L (more & E)]; [exists []; rewrite app_nil_r; reflexivity|]. destruct (tl_goes _ _ _ _ R m) as [[_ ->]|(ev & p & _ & ->)]; [eauto|]. exists (more ++ [(ev, p)]). rewrite E, app_assoc. reflexivity.
Qed.
Lemma node_app tr tr' : node_at (tr ++ tr') = node_at tr ++ node_at tr'.
Proof. apply flat_map_app. Qed.
Lemma read_grows c n m : n <= m -> nread c n <= nread c m.
Proof. intros L. destruct (t_grows n m L) as [more ->]. rewrite node_app, reads_app, concat_app, app_length. lia. Qed.
Lemma arrived_grows c n m : n <= m -> narrived c n <= narrived c m.
Proof. intros L. destruct (t_grows n m L) as [more ->]. rewrite node_app. unfold bytes_in. rewrite flat_map_app, app_length. lia. Qed.
Lemma to_read c m : nread c m < narrived c m -> t_avail (k_in (lk (qt_node (f m)) c)) <> [].
Proof.
  intros L E. destruct (halves _ _ _ _ (t_hist m)) as (_ & HN & _). destruct (reading _ _ _ _ HN c) as (B & _). rewrite E, app_nil_r in B. rewrite B in L. lia.
Qed.
Lemma read_more c N M : N <= M -> nread c M < narrived c N ->
  (exists m, M <= m /\ nread c M < nread c m) \/ (exists m, N <= m /\ ~ conn_runs (t_rt (qt_node (f m))) c) \/ tcp_unread_while f t c.
Proof.
  intros LN LR. destruct (halves _ _ _ _ H) as (HQ & _).
  assert (RT : forall m, q_rt (qt_calls (f m)) = t_rt (qt_node (f m))) by (intros m; apply (halves _ _ _ _ (t_hist m))).
  destruct (emptied bk cbk false F T seen_run HQ c N M LN) as [(m0 & x & L0 & X & A & W)|[(m & L & NR)|U]]; [|right; left; exists m; rewrite <- RT; auto|right; right; exact U].
  cbn in X. rewrite RT in X.
  set (done := (exists m, M <= m /\ nread c M < nread c m) \/ (exists m, N <= m /\ ~ conn_runs (t_rt (qt_node (f m))) c)).
  assert (D : done -> (exists m, M <= m /\ nread c M < nread c m) \/ (exists m, N <= m /\ ~ conn_runs (t_rt (qt_node (f m))) c) \/ tcp_unread_while f t c) by (intros [K|K]; auto).
  assert (P0 : done \/ ready_to_read c (qt_node (f m0))).
  { destruct (Nat.lt_ge_cases (nread c M) (nread c m0)) as [G|G]; [left; left; exists m0; auto|right]. split; [exists x; auto|]. apply to_read. pose proof (arrived_grows c N m0 ltac:(lia)). lia. }
  assert (STEP : forall m ev p, m0 <= m -> t (S m) = t m ++ [(ev, p)] -> ready_to_read c (qt_node (f m)) -> done \/ (ready_to_read c (qt_node (f (S m))) /\ ~ acts_over (Reading c) (f m) ev (f (S m)))).
  { intros m ev p L E P. destruct (reads_on _ _ _ _ _ c (t_hist m) (t_once _ _ E) P) as [NR|[G|P']]; [left; right; exists (S m); split; [lia|exact NR]|left; left|right; exact P'].
    exists (S m). split; [lia|]. cbn [snd] in G. rewrite E, node_snoc, reads_app, concat_app, app_length. cbn [snd]. pose proof (read_grows c M m ltac:(lia)). lia. }
  assert (ALL : forall m, m0 <= m -> done \/ ready_to_read c (qt_node (f m))).
  { intros m L. induction L as [|m L IH]; [exact P0|]. destruct IH as [K|P]; [left; exact K|]. destruct (tl_goes _ _ _ _ R m) as [[-> _]|(ev & p & _ & E)]; [right; exact P|].
    destruct (STEP m ev p L E P) as [K|[P' _]]; auto. }
  apply D. destruct (tl_fair _ _ _ _ R (Reading c) m0) as (m & L & [(ev & p & AC & E)|NV]); destruct (ALL m L) as [K|P]; try exact K.
  - destruct (STEP m ev p L E P) as [K|[_ NA]]; [exact K|contradiction].
  - destruct (NV m (le_n _) (can_read _ _ _ (t_hist m) P)).
Qed.
(** What arrived is read, unless the connection ends or nobody reads from a stub or proxy. *)
Theorem all_read_on c N : (exists m, N <= m /\ exists rest, concat (reads c (node_at (t m))) = bytes_in c (node_at (t N)) ++ rest) \/
  (exists m, N <= m /\ ~ conn_runs (t_rt (qt_node (f m))) c) \/ tcp_unread_while f t c.
Proof.
  assert (K : forall k M, N <= M -> narrived c N - nread c M = k -> (exists m, N <= m /\ narrived c N <= nread c m) \/ (exists m, N <= m /\ ~ conn_runs (t_rt (qt_node (f m))) c) \/ tcp_unread_while f t c).
  { intros k. induction k as [k IH] using lt_wf_ind. intros M L E. destruct (Nat.lt_ge_cases (nread c M) (narrived c N)) as [G|G]; [|left; exists M; auto].
    destruct (read_more c N M L G) as [(m & LM & D)|D]; [|right; exact D]. exact (IH (narrived c N - nread c m) ltac:(lia) m ltac:(lia) eq_refl). }
  destruct (K _ N (le_n _) eq_refl) as [(m & L & G)|D]; [left|right; exact D]. exists m. split; [exact L|].
  destruct (halves _ _ _ _ (t_hist m)) as (_ & HN & _). destruct (reading _ _ _ _ HN c) as (B & _). destruct (t_grows N m L) as [more E]. rewrite E, node_app in B. unfold bytes_in in B. rewrite flat_map_app in B.
  fold (bytes_in c (node_at (t N))) in B. rewrite <- node_app, <- E in B. set (rd := concat (reads c (node_at (t m)))) in *. set (b0 := bytes_in c (node_at (t N))) in *.
  exists (skipn (length b0) rd). rewrite <- (firstn_skipn (length b0) rd) at 1. f_equal. apply (f_equal (firstn (length b0))) in B. rewrite !firstn_app, Nat.sub_diag in B. cbn [firstn] in B. rewrite app_nil_r, firstn_all in B.
  replace (length b0 - length rd) with 0 in B by lia. cbn [firstn] in B. rewrite app_nil_r in B. symmetry. exact B.
Qed.
End Run.
End Locks.
