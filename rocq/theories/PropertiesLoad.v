(** An endpoint under load that does not end: C97. *)
From Coq Require Import List NArith Bool PeanoNat Lia.
From Verif Require Import BytesModel WireSpec SomeipModel SomeipSpec MapModel RuntimeModel RuntimeSpec QueueModel QueueSpec QueueTheorems LoadSpec LoadTheorems.
Import ListNotations.
Open Scope nat_scope.

(** ** C97: calls are answered however much goes on *)
Theorem C97_returns : forall bk cbk dg f t u n id to, load_run bk cbk f t -> qhistory bk cbk dg (t 0) (f 0) -> In (MMade id to) (life u (t n)) ->
  (exists m, n <= m /\ (In MDropped (life u (t m)) \/ exists o, In (MReturned o) (life u (t m)) /\ fits id to o)) \/ left_unread f t.
Proof. intros bk cbk dg f t u n id to R H. exact (returns bk cbk dg f t R H u n id to). Qed.
Print Assumptions C97_returns.

(** An endpoint serves an id, and is asked for ever to serve it again. *)
Definition b0 : iid -> N := fun _ => 0%N.
Definition c0 : N -> N := fun _ => 0%N.
Lemma qrun_history datagram tr q xs q' tr' : qhistory b0 c0 datagram tr q -> qrun b0 c0 q xs = Some (q', tr') -> qhistory b0 c0 datagram (tr ++ tr') q'.
Proof.
  revert tr q tr'. induction xs as [|x xs IH]; intros tr q tr' H R; cbn in R; [injection R as <- <-; rewrite app_nil_r; exact H|].
  destruct (qstep b0 c0 q x) as [[[q1 o] l]|] eqn:S; [|discriminate]. destruct (qrun b0 c0 q1 xs) as [[q2 t2]|] eqn:R'; [|discriminate]. injection R as <- <-.
  change ((x, o, l) :: t2) with ([(x, o, l)] ++ t2). rewrite app_assoc. eapply IH; [|exact R']. econstructor; eassumption.
Qed.
Definition lid : iid := (1%N, 1%N).
Definition over_call : qcall := mkK lid None COver.
Definition serving (ep : epc) : rt :=
  mkR true true ep (Some 0) [(lid, 0)] [] [mkI lid [] 0 true] [] [mkL true [] [(lid, 0)] [] AWait] [mkSt 0 0 [] SFree true] [] [].
Definition ex_start : list qevent :=
  [QCall lid None; QEnter (FCall 0); QTake; QGo true; QGo true; QGo true; QGo true; QReturn 0; QRun (EListener 0)].
Definition started : list qlog := match qrun b0 c0 (q_init true) ex_start with Some (_, tr) => tr | None => [] end.
(** Round [j], after its first [r] steps, and step [r] of it. *)
Definition at_round (p : nat * nat) : qst :=
  let (j, r) := p in
  let calls x := repeat over_call (S j) ++ x in
  match r with
  | 0 => mkQ (serving EpWait) (calls []) [] None false
  | 1 => mkQ (serving EpWait) (calls [mkK lid None CNew]) [] None false
  | 2 => mkQ (serving EpWait) (calls [mkK lid None CIn]) [mkE (FCall (S j)) (KCall lid None) false] None false
  | 3 => mkQ (serving (EpCheck lid None)) (calls [mkK lid None CIn]) [] (Some (mkE (FCall (S j)) (KCall lid None) false)) false
  | _ => mkQ (serving EpWait) (calls [mkK lid None (CAnswered OExists)]) [] None false
  end.
Definition in_round (p : nat * nat) : qlog :=
  let (j, r) := p in
  match r with
  | 0 => (QCall lid None, QMade (S j), [])
  | 1 => (QEnter (FCall (S j)), QEntered (FCall (S j)) (KCall lid None), [])
  | 2 => (QTake, QTaken (FCall (S j)) (KCall lid None), [(EServe lid, OUnit)])
  | 3 => (QGo true, QDone (FCall (S j)) (KCall lid None) OExists, [(EEp true, OExists)])
  | _ => (QReturn (S j), QReturned (S j) OExists, [])
  end.
Fixpoint clock (n : nat) : nat * nat :=
  match n with 0 => (0, 0) | S n' => let (j, r) := clock n' in if r =? 4 then (S j, 0) else (j, S r) end.
Definition load_f (n : nat) : qst := at_round (clock n).
Fixpoint load_t (n : nat) : list qlog := match n with 0 => started | S n' => load_t n' ++ [in_round (clock n')] end.

Lemma last_call j x : nth_error (repeat over_call (S j) ++ [x]) (S j) = Some x.
Proof. rewrite nth_error_app2; rewrite repeat_length; [rewrite Nat.sub_diag; reflexivity|lia]. Qed.
Lemma last_upd j x g : upd (S j) g (repeat over_call (S j) ++ [x]) = repeat over_call (S j) ++ [g x].
Proof. induction (S j) as [|k IH]; [reflexivity|]. cbn. rewrite IH. reflexivity. Qed.
Lemma clock_small n : snd (clock n) <= 4.
Proof. induction n as [|n IH]; cbn; [lia|]. destruct (clock n) as [j r]. cbn in IH. destruct (Nat.eqb_spec r 4); cbn; lia. Qed.
Lemma clock_is j : clock (5 * j) = (j, 0).
Proof. induction j as [|j IH]; [reflexivity|]. replace (5 * S j) with (S (S (S (S (S (5 * j)))))) by lia. cbn [clock]. rewrite IH. reflexivity. Qed.
Lemma clock_at j r : r <= 4 -> clock (r + 5 * j) = (j, r).
Proof. intros L. do 5 (destruct r as [|r]; [cbn [clock Nat.add]; rewrite clock_is; reflexivity|]). lia. Qed.
Lemma clock_of n : n = snd (clock n) + 5 * fst (clock n).
Proof.
  induction n as [|n IH]; [reflexivity|]. cbn [clock]. pose proof (clock_small n). destruct (clock n) as [j r]. cbn in IH, H. destruct (Nat.eqb_spec r 4); cbn; lia.
Qed.
Lemma round_step n : qstep b0 c0 (load_f n) (fst (fst (in_round (clock n)))) = Some (load_f (S n), snd (fst (in_round (clock n))), snd (in_round (clock n))).
Proof.
  unfold load_f. cbn [clock]. pose proof (clock_small n) as L. destruct (clock n) as [j r]. cbn in L.
  destruct r as [|[|[|[|[|r]]]]]; [| | | | |lia]; cbn [Nat.eqb in_round fst snd].
  - unfold at_round. cbn -[repeat]. rewrite app_nil_r, repeat_length. reflexivity.
  - unfold at_round. cbn -[repeat nth_error upd]. rewrite last_call. cbn -[repeat nth_error upd]. unfold set_call, with_calls, with_chan, with_now, with_rt; cbn [q_rt q_calls q_chan q_now q_over]; rewrite last_upd; reflexivity.
  - reflexivity.
  - unfold at_round. cbn -[repeat upd]. unfold set_call, with_calls, with_chan, with_now, with_rt; cbn [q_rt q_calls q_chan q_now q_over]; rewrite last_upd; reflexivity.
  - unfold at_round. cbn -[repeat nth_error upd]. rewrite last_call. unfold set_call, with_calls; cbn [q_rt q_calls q_chan q_now q_over]; rewrite last_upd.
    rewrite app_nil_r. change [k_now COver (mkK lid None (CAnswered OExists))] with (repeat over_call 1). rewrite <- repeat_app. replace (S j + 1) with (S (S j)) by lia. reflexivity.
Qed.
Lemma old_call n u k : 5 * u <= n -> nth_error (q_calls (load_f n)) u = Some k -> k = over_call.
Proof.
  intros L. pose proof (clock_of n) as C. pose proof (clock_small n) as M. unfold load_f. destruct (clock n) as [j r]. cbn in C, M. assert (U : u < S j) by lia.
  assert (E : forall x, nth_error (repeat over_call (S j) ++ x) u = Some k -> k = over_call).
  { intros x. rewrite nth_error_app1 by (rewrite repeat_length; exact U). intros E. apply nth_error_In in E. exact (repeat_spec _ _ _ E). }
  destruct r as [|[|[|[|r]]]]; apply E.
Qed.
Lemma rt_round n : exists ep, q_rt (load_f n) = serving ep.
Proof. unfold load_f. destruct (clock n) as [j r]. destruct r as [|[|[|[|r]]]]; eexists; reflexivity. Qed.

Lemma started_is : qhistory b0 c0 true started (load_f 0).
Proof.
  assert (E : qrun b0 c0 (q_init true) ex_start = Some (load_f 0, started)) by (vm_compute; reflexivity).
  rewrite <- (app_nil_l started). exact (qrun_history true [] (q_init true) ex_start (load_f 0) started (q_start _ _ _) E).
Qed.
Lemma load_runs : load_run b0 c0 load_f load_t.
Proof.
  constructor.
    + intros n. right. pose proof (round_step n) as S. destruct (in_round (clock n)) as [[x o] l] eqn:E. exists x, o, l. split; [exact S|]. cbn. rewrite E. reflexivity.
    + intros k n.
      assert (NEVER : (forall m, n <= m -> ~ can_act b0 c0 k (load_f m)) -> exists m, n <= m /\
        ((exists x o l, acts_as k x /\ load_t (S m) = load_t m ++ [(x, o, l)]) \/ forall m', m <= m' -> ~ can_act b0 c0 k (load_f m'))).
      { intros K. exists n. split; [reflexivity|right; exact K]. }
      assert (RUN : forall m e r, qstep b0 c0 (load_f m) (QRun e) = Some r -> exists ep p, step b0 c0 (serving ep) e = Some p).
      { intros m e r Q. destruct (rt_round m) as [ep E]. exists ep. cbn in Q. destruct (elsewhere e (load_f m)); [|discriminate]. unfold at_rt in Q. rewrite E in Q.
        destruct (step b0 c0 (serving ep) e) as [p|]; [eauto|discriminate]. }
      destruct k as [|c|c|l|i|u].
      * exists (2 + 5 * n). split; [lia|left]. exists QTake, (QTaken (FCall (S n)) (KCall lid None)), [(EServe lid, OUnit)]. split; [exact I|].
        cbn [load_t Nat.add]. change (S (S (5 * n))) with (2 + 5 * n). rewrite clock_at by lia. reflexivity.
      * apply NEVER. intros m _ (x & r & A & Q). destruct x as [| | | | | | | |[]]; try contradiction A. destruct (RUN _ _ _ Q) as (ep & p & S). cbn in S. destruct c1; discriminate S.
      * apply NEVER. intros m _ (x & r & A & Q). destruct x as [| | | | | | | |[]]; try contradiction A; destruct (RUN _ _ _ Q) as (ep & p & S); cbn in S; destruct c1; discriminate S.
      * apply NEVER. intros m _ (x & r & A & Q). destruct x as [| | | | | | | |[]]; try contradiction A. destruct (RUN _ _ _ Q) as (ep & p & S). cbn in S. destruct l0 as [|[]]; discriminate S.
      * apply NEVER. intros m _ (x & r & A & Q). destruct x as [|[]| | | | | | |[]]; try contradiction A.
        -- cbn in Q. destruct (rt_round m) as [ep E]. rewrite E in Q. destruct n0 as [|[]]; discriminate Q.
        -- destruct (RUN _ _ _ Q) as (ep & p & S). cbn in S. destruct n0 as [|[]]; discriminate S.
      * assert (OVER : forall m', 5 * u <= m' -> ~ can_act b0 c0 (Caller u) (load_f m')).
        { intros m' L (x & r & A & Q). destruct x as [|[]| | |v| | | |]; try contradiction A; cbn in A; subst; cbn in Q;
            destruct (nth_error (q_calls (load_f m')) u) as [k|] eqn:K; try discriminate Q; rewrite (old_call _ _ _ L K) in Q; discriminate Q. }
        destruct u as [|j]; [apply NEVER; intros m L; apply OVER; lia|].
        destruct (Nat.le_gt_cases n (4 + 5 * j)) as [L|L]; [|apply NEVER; intros m LM; apply OVER; lia].
        exists (4 + 5 * j). split; [exact L|left]. exists (QReturn (S j)), (QReturned (S j) OExists), []. split; [reflexivity|].
        cbn [load_t Nat.add]. change (S (S (S (S (5 * j))))) with (4 + 5 * j). rewrite clock_at by lia. reflexivity.
Qed.
Lemma made_all u : exists n, In (MMade lid None) (life u (load_t n)).
Proof.
  destruct u as [|j]; [exists 0; vm_compute; auto|]. exists (S (5 * j)). cbn [load_t]. rewrite clock_is. unfold life. rewrite flat_map_app. apply in_app_iff. right. cbn. rewrite Nat.eqb_refl. left. reflexivity.
Qed.
Lemma all_read : ~ left_unread load_f load_t.
Proof.
  intros (N & c & n & [U|U]); destruct (U N (le_n _)) as [(x & st & it & todo & X & _) _]; destruct (rt_round N) as [ep E]; rewrite E in X; destruct c; discriminate X.
Qed.
Example C97_example : load_run b0 c0 load_f load_t /\ qhistory b0 c0 true (load_t 0) (load_f 0) /\
  ~ left_unread load_f load_t /\ forall u, exists n, In (MMade lid None) (life u (load_t n)).
Proof. exact (conj load_runs (conj started_is (conj all_read made_all))). Qed.
(** Every call of it returns. *)
Example C97_example_returns : forall u, exists n o, In (MReturned o) (life u (load_t n)) \/ In MDropped (life u (load_t n)).
Proof.
  destruct C97_example as (R & H & NU & M). intros u. destruct (M u) as [n I]. destruct (C97_returns _ _ _ _ _ _ _ _ _ R H I) as [(m & _ & [D|(o & D & _)])|U]; [| |destruct (NU U)].
  - exists m, OUnit. right. exact D.
  - exists m, o. left. exact D.
Qed.

(** The exception exists: a stub is not read from, its queue is full and a message waits for room, and a
    call for another id that shares the lock waits for ever. *)
Definition ex_unread : list qevent :=
  ex_start ++ map QRun ([EAccept 0 5%N; EAcceptShare 0] ++ concat (repeat [EPacket 0 (s_form (mkS 1 2 3 4 1 1 StNotification ScOk [7%N])); ERoute 0; ERoute 0] 16) ++
    [EPacket 0 (s_form (mkS 1 2 3 4 1 1 StNotification ScOk [8%N])); ERoute 0]) ++ [QCall (2%N, 1%N) None; QEnter (FCall 1); QTake].
Definition unread_q : qst := Eval vm_compute in match qrun b0 c0 (q_init true) ex_unread with Some (q, _) => q | None => q_init true end.
Definition unread_t : list qlog := Eval vm_compute in match qrun b0 c0 (q_init true) ex_unread with Some (_, tr) => tr | None => [] end.
Lemma unread_still k : ~ can_act b0 c0 k unread_q.
Proof.
  intros (x & r & A & Q). destruct k as [|c|c|l|n|u]; destruct x as [|[v|v]| | |v| | | |[]]; try contradiction A; cbn in A; subst; cbn in Q; unfold at_rt in Q; cbn in Q; try discriminate Q;
    repeat match type of Q with context [nth_error _ ?n] => destruct n; cbn in Q; try discriminate Q end.
Qed.
Example C97_example_unread : load_run b0 c0 (fun _ => unread_q) (fun _ => unread_t) /\ qhistory b0 c0 true unread_t unread_q /\
  life 1 unread_t = [MMade (2%N, 1%N) None; MEntered; MTaken] /\ unread_stub (fun _ => unread_q) (fun _ => unread_t) 0 0 0.
Proof.
  split; [|split; [|split]].
  - constructor; [intros n; left; split; reflexivity|]. intros k n. exists n. split; [reflexivity|right]. intros m _. apply unread_still.
  - assert (E : qrun b0 c0 (q_init true) ex_unread = Some (unread_q, unread_t)) by (vm_compute; reflexivity).
    rewrite <- (app_nil_l unread_t). exact (qrun_history true [] (q_init true) ex_unread unread_q unread_t (q_start _ _ _) E).
  - vm_compute. reflexivity.
  - intros m _. split; [|exists []; split; [rewrite app_nil_r; reflexivity|intros o []]].
    do 4 eexists. split; [reflexivity|]. split; [reflexivity|]. split; [reflexivity|]. split; [reflexivity|]. split; [eexists; split; reflexivity|vm_compute; reflexivity].
Qed.

(** ** Sends end, and connections have room again and again *)
Theorem C97_sends : forall bk cbk dg f t N n, load_run bk cbk f t -> qhistory bk cbk dg (t 0) (f 0) ->
  (exists m, N <= m /\ ~ busy (q_rt (f m)) n) \/ left_unread f t.
Proof. intros bk cbk dg f t N n R H. exact (sends_end bk cbk dg f t R H n N). Qed.
Print Assumptions C97_sends.

Theorem C97_room : forall bk cbk f t N c x, load_run bk cbk f t -> nth_error (r_conns (q_rt (f N))) c = Some x ->
  exists m y, N <= m /\ nth_error (r_conns (q_rt (f m))) c = Some y /\ (c_alive y = false \/ c_cmds y = []).
Proof. intros bk cbk f t N c x R. exact (room bk cbk f t R c x N). Qed.
Print Assumptions C97_room.

(** What was accepted for a connection is written to it, in order, unless it ends. *)
Theorem C97_written : forall bk cbk dg f t N c, load_run bk cbk f t -> qhistory bk cbk dg (t 0) (f 0) ->
  exists m, N <= m /\ (~ conn_runs (q_rt (f m)) c \/ exists rest, sent c (rt_trace (t m)) = map encode (accepted c (rt_trace (t N))) ++ rest).
Proof. intros bk cbk dg f t N c R H. exact (written bk cbk dg f t R H c N). Qed.
Print Assumptions C97_written.

(** A message that waits at a connection is routed to its queue or dropped, unless the connection ends. *)
Theorem C97_routed : forall bk cbk dg f t N c it, load_run bk cbk f t -> qhistory bk cbk dg (t 0) (f 0) -> In it (waiting (q_rt (f N)) c) ->
  (exists m, N <= m /\ (In (ERoute c, ORouted it) (rt_trace (t m)) \/ In (ERoute c, ODropped it) (rt_trace (t m)))) \/
  (exists m, N <= m /\ ~ conn_runs (q_rt (f m)) c) \/ left_unread_while f t c.
Proof. intros bk cbk dg f t N c it R H. exact (routed bk cbk dg f t R H c N it). Qed.
Print Assumptions C97_routed.

(** A stub sends to an address the endpoint has no connection to. *)
Definition ex_sending : list qevent := ex_start ++ [QRun (ESendTo 0 5%N (mkS 1 2 3 4 1 1 StNotification ScOk [7%N]))].
Definition ex_rest : list qevent :=
  [QRun (EStub 0 true); QEnter (FSend 0); QTake; QGo true; QRun (EStub 0 true); QRun (EStub 0 true); QRun (EStub 0 true); QRun (ESender 0); QRun (ESocket 0 true)].
Definition send_q : qst := Eval vm_compute in match qrun b0 c0 (q_init true) ex_sending with Some (q, _) => q | None => q_init true end.
Definition send_t : list qlog := Eval vm_compute in match qrun b0 c0 (q_init true) ex_sending with Some (_, tr) => tr | None => [] end.
(** A schedule, and then nothing happens. *)
Definition fin_f (q : qst) (xs : list qevent) (n : nat) : qst := match qrun b0 c0 q (firstn n xs) with Some (q', _) => q' | None => q end.
Definition fin_t (q : qst) (tr : list qlog) (xs : list qevent) (n : nat) : list qlog := tr ++ match qrun b0 c0 q (firstn n xs) with Some (_, tr') => tr' | None => [] end.
Definition send_f : nat -> qst := fin_f send_q ex_rest.
Definition send_tr : nat -> list qlog := fin_t send_q send_t ex_rest.
Definition sent_q : qst := Eval vm_compute in send_f 9.
Lemma sent_still k : ~ can_act b0 c0 k sent_q.
Proof.
  intros (x & r & A & Q). destruct k as [|c|c|l|n|u]; destruct x as [|[v|v]| | |v| | | |[]]; try contradiction A; cbn in A; subst; cbn in Q; unfold at_rt in Q; cbn in Q; try discriminate Q;
    repeat match type of Q with context [nth_error _ ?n] => destruct n; cbn in Q; try discriminate Q end.
Qed.
Lemma qrun_upto q xs r n : qrun b0 c0 q xs = Some r -> n < length xs ->
  exists x q1 t1 q2 o l, qrun b0 c0 q (firstn n xs) = Some (q1, t1) /\ qstep b0 c0 q1 x = Some (q2, o, l) /\ qrun b0 c0 q (firstn (S n) xs) = Some (q2, t1 ++ [(x, o, l)]).
Proof.
  revert q r n. induction xs as [|x xs IH]; intros q r n R L; [cbn in L; lia|]. cbn [qrun] in R. destruct (qstep b0 c0 q x) as [[[q' o] l]|] eqn:S; [|discriminate].
  destruct (qrun b0 c0 q' xs) as [[q2 t2]|] eqn:R'; [|discriminate]. destruct n as [|n].
  - exists x, q, [], q', o, l. split; [reflexivity|]. split; [exact S|]. change (firstn 1 (x :: xs)) with [x]. cbn [qrun]. rewrite S. reflexivity.
  - cbn [length] in L. destruct (IH q' _ n R' ltac:(lia)) as (x' & q1 & t1 & q3 & o' & l' & A & B & C). exists x', q1, ((x, o, l) :: t1), q3, o', l'.
    change (firstn (Datatypes.S n) (x :: xs)) with (x :: firstn n xs). change (firstn (Datatypes.S (Datatypes.S n)) (x :: xs)) with (x :: firstn (Datatypes.S n) xs).
    cbn [qrun]. rewrite S, A, C. split; [reflexivity|]. split; [exact B|reflexivity].
Qed.
Lemma fin_after q tr xs q' tr' n : qrun b0 c0 q xs = Some (q', tr') -> length xs <= n -> fin_f q xs n = q' /\ fin_t q tr xs n = tr ++ tr'.
Proof. intros E L. unfold fin_f, fin_t. rewrite (firstn_all2 xs L), E. split; reflexivity. Qed.
Lemma fin_runs q tr xs q' tr' : qrun b0 c0 q xs = Some (q', tr') -> (forall k, ~ can_act b0 c0 k q') -> load_run b0 c0 (fin_f q xs) (fin_t q tr xs).
Proof.
  intros E ST. constructor.
  - intros n. destruct (Nat.lt_ge_cases n (length xs)) as [L|L]; [right|left].
    + destruct (qrun_upto _ _ _ n E L) as (x & q1 & t1 & q2 & o & l & A & B & C). exists x, o, l. unfold fin_f, fin_t. rewrite A, C, app_assoc. split; [exact B|reflexivity].
    + destruct (fin_after q tr xs q' tr' n E L) as [A B]. destruct (fin_after q tr xs q' tr' (S n) E (le_S _ _ L)) as [A' B']. rewrite A, A', B, B'. split; reflexivity.
  - intros k n. exists (length xs + n). split; [lia|right]. intros m L. destruct (fin_after q tr xs q' tr' m E ltac:(lia)) as [-> _]. apply ST.
Qed.
Lemma rest_runs : exists tr, qrun b0 c0 send_q ex_rest = Some (sent_q, tr).
Proof. eexists. vm_compute. reflexivity. Qed.
Lemma after_rest n : 9 <= n -> send_f n = sent_q.
Proof. intros L. destruct rest_runs as [tr E]. exact (proj1 (fin_after send_q send_t ex_rest sent_q tr n E L)). Qed.
Example C97_example_sends : load_run b0 c0 send_f send_tr /\ qhistory b0 c0 true (send_tr 0) (send_f 0) /\ busy (q_rt (send_f 0)) 0 /\
  ~ left_unread send_f send_tr /\ exists x, nth_error (r_conns (q_rt (send_f 7))) 0 = Some x /\ c_alive x = true /\ c_cmds x <> [].
Proof.
  split; [|split; [|split; [|split]]].
  - destruct rest_runs as [tr E]. exact (fin_runs send_q send_t ex_rest sent_q tr E sent_still).
  - assert (E : qrun b0 c0 (q_init true) ex_sending = Some (send_q, send_t)) by (vm_compute; reflexivity).
    assert (T : send_tr 0 = send_t) by apply app_nil_r. rewrite T. change (send_f 0) with send_q.
    rewrite <- (app_nil_l send_t). exact (qrun_history true [] (q_init true) ex_sending send_q send_t (q_start _ _ _) E).
  - eexists. split; [reflexivity|discriminate].
  - intros (N & c & n & [U|U]); destruct (U (9 + N) ltac:(lia)) as [(x & st & it & todo & X & _ & _ & XR & _) _]; rewrite (after_rest (9 + N) ltac:(lia)) in X; destruct c as [|[]]; try discriminate X;
      injection X as <-; discriminate XR.
  - eexists. split; [vm_compute; reflexivity|]. split; [reflexivity|discriminate].
Qed.
(** Its message is accepted before time 7 and not written yet; the connection never ends. *)
Example C97_example_written : accepted 0 (rt_trace (send_tr 7)) = [mkS 1 2 3 4 1 1 StNotification ScOk [7%N]] /\ sent 0 (rt_trace (send_tr 7)) = [] /\
  forall m, 7 <= m -> conn_runs (q_rt (send_f m)) 0.
Proof.
  split; [vm_compute; reflexivity|]. split; [vm_compute; reflexivity|]. intros m L.
  destruct (Nat.le_gt_cases 9 m) as [G|G]; [rewrite (after_rest m G); eexists; split; reflexivity|].
  assert (E : m = 7 \/ m = 8) by lia. destruct E as [-> | ->]; eexists; (split; [vm_compute; reflexivity|reflexivity]).
Qed.

(** A message that arrived waits at a connection that does not end, for a stub whose queue is empty. *)
Definition ex_arrived : list qevent :=
  ex_start ++ map QRun [EAccept 0 5%N; EAcceptShare 0; EPacket 0 (s_form (mkS 1 2 3 4 1 1 StNotification ScOk [7%N]))].
Definition ex_route : list qevent := map QRun [ERoute 0; ERoute 0].
Definition arr_q : qst := Eval vm_compute in match qrun b0 c0 (q_init true) ex_arrived with Some (q, _) => q | None => q_init true end.
Definition arr_t : list qlog := Eval vm_compute in match qrun b0 c0 (q_init true) ex_arrived with Some (_, tr) => tr | None => [] end.
Definition arr_end : qst := Eval vm_compute in fin_f arr_q ex_route 2.
Lemma arr_still k : ~ can_act b0 c0 k arr_end.
Proof.
  intros (x & r & A & Q). destruct k as [|c|c|l|n|u]; destruct x as [|[v|v]| | |v| | | |[]]; try contradiction A; cbn in A; subst; cbn in Q; unfold at_rt in Q; cbn in Q; try discriminate Q;
    repeat match type of Q with context [nth_error _ ?n] => destruct n; cbn in Q; try discriminate Q end.
Qed.
Example C97_example_routed : load_run b0 c0 (fin_f arr_q ex_route) (fin_t arr_q arr_t ex_route) /\ qhistory b0 c0 true (fin_t arr_q arr_t ex_route 0) (fin_f arr_q ex_route 0) /\
  (exists it, waiting (q_rt (fin_f arr_q ex_route 0)) 0 = [it]) /\ (forall m, conn_runs (q_rt (fin_f arr_q ex_route m)) 0) /\
  ~ left_unread_while (fin_f arr_q ex_route) (fin_t arr_q arr_t ex_route) 0.
Proof.
  assert (RR : exists tr, qrun b0 c0 arr_q ex_route = Some (arr_end, tr)) by (eexists; vm_compute; reflexivity). destruct RR as [tr E].
  assert (RU : forall m, conn_runs (q_rt (fin_f arr_q ex_route m)) 0).
  { intros m. destruct (Nat.le_gt_cases 2 m) as [G|G]; [rewrite (proj1 (fin_after arr_q arr_t ex_route arr_end tr m E G)); eexists; split; reflexivity|].
    assert (M : m = 0 \/ m = 1) by lia. destruct M as [-> | ->]; eexists; (split; [vm_compute; reflexivity|reflexivity]). }
  split; [exact (fin_runs arr_q arr_t ex_route arr_end tr E arr_still)|]. split; [|split; [|split; [exact RU|]]].
  - assert (EA : qrun b0 c0 (q_init true) ex_arrived = Some (arr_q, arr_t)) by (vm_compute; reflexivity).
    assert (T : fin_t arr_q arr_t ex_route 0 = arr_t) by apply app_nil_r. rewrite T. change (fin_f arr_q ex_route 0) with arr_q.
    rewrite <- (app_nil_l arr_t). exact (qrun_history true [] (q_init true) ex_arrived arr_q arr_t (q_start _ _ _) EA).
  - eexists. vm_compute. reflexivity.
  - intros (N & c & n & [U|U]); destruct (U (2 + N) ltac:(lia) (RU _)) as [(x & st & it & todo & X & _ & _ & XR & _) _];
      rewrite (proj1 (fin_after arr_q arr_t ex_route arr_end tr (2 + N) E ltac:(cbn; lia))) in X; destruct c as [|[]]; try discriminate X; injection X as <-; discriminate XR.
Qed.
