(** Theorems about when the calls of an endpoint are answered. *)
From Coq Require Import Permutation List NArith Bool PeanoNat Lia Wf_nat.
From Verif Require Import BytesModel SomeipModel MapModel RuntimeModel RuntimeSpec RuntimeProofs RuntimeWorkTheorems ExchangeRestTheorems
  QueueModel QueueSpec QueueTheorems.
Import ListNotations.
Open Scope nat_scope.

Section Locks.
Context (bk : iid -> N) (cbk : N -> N) (dg : bool).
Notation history := (history bk cbk dg).
Notation step := (step bk cbk).
Notation qstep := (qstep bk cbk).
Notation qsteps := (qsteps bk cbk).
Notation qhistory := (qhistory bk cbk dg).

Definition qcan (q : qst) : Prop := exists x q' o l, qstep q x = Some (q', o, l) /\ goes_on (x, o, l).

Ltac done_by H := eexists _, _, _, _; split; [exact H|exact Logic.I].

(** The endpoint task has something to do and nothing in its way. *)
Lemma entry_left tr q e : qinv tr q -> In e (q_chan q) -> e_gone e = true -> nth_error (r_left (q_rt q)) (place (e_cmd e) (r_left (q_rt q))) = Some (e_cmd e).
Proof.
  intros V I G. apply place_in. rewrite (v_left _ _ V). unfold gone_cmds. apply in_app_iff. left. apply in_flat_map. exists e. split; [exact I|].
  unfold gone_part. rewrite G. left. reflexivity.
Qed.
Lemma idle_ep tr q : qhistory tr q -> r_ep (q_rt q) = EpWait -> q_chan q <> [] \/ q_now q <> None ->
  exists x r, (x = QTake \/ x = QGo true) /\ qstep q x = Some r.
Proof.
  intros H EW N. pose proof (invariant _ _ _ _ _ H) as V. destruct (q_now q) as [e|] eqn:NOW.
  - pose proof (v_ep _ _ V) as EP. unfold ep_with in EP. rewrite NOW in EP. destruct (e_cmd e) as [a|id to] eqn:C; [|rewrite EW in EP; discriminate EP].
    assert (SO : sorted_cmd e).
    { pose proof (v_sort _ _ V) as SO. unfold entries, now_list in SO. rewrite NOW in SO. apply Forall_app in SO. destruct SO as [_ SO]. apply Forall_inv in SO. exact SO. }
    unfold sorted_cmd in SO. rewrite C in SO. destruct (e_from e) as [t|n] eqn:F; [contradiction|]. destruct (e_gone e) eqn:G.
    + assert (X : nth_error (r_left (q_rt q)) (place (KConnect a) (r_left (q_rt q))) = Some (KConnect a)).
      { apply place_in. rewrite (v_left _ _ V). unfold gone_cmds, now_list. rewrite NOW. apply in_app_iff. right. cbn. unfold gone_now, gone_part. rewrite C, G. left. reflexivity. }
      assert (S : exists r, qstep q (QGo true) = Some r).
      { cbn. rewrite NOW, C, G. unfold at_rt. cbn. unfold step_take. rewrite EW, X. destruct (r_datagram (q_rt q) && true); eauto. }
      destruct S as [r S]. eexists _, _. split; [|exact S]. auto.
    + assert (CN : connecting_at (q_rt q) n a).
      { pose proof (v_send _ _ V n) as SN. unfold sends_at, entries, now_list in SN. rewrite NOW, filter_app in SN. cbn [filter] in SN.
        assert (W : waits (FSend n) e = true) by (unfold waits; rewrite G, F, qfrom_refl; reflexivity). rewrite W in SN.
        destruct SN as [SN|(b & SN & CN)]; [destruct (app_cons_not_nil _ _ _ (eq_sym SN))|].
        destruct (filter (waits (FSend n)) (q_chan q)) as [|y z]; [|injection SN as _ SN; destruct (app_cons_not_nil _ _ _ (eq_sym SN))].
        injection SN as ->. cbn in C. injection C as ->. exact CN. }
      destruct CN as (st & m & X & A & P).
      assert (S : exists r, qstep q (QGo true) = Some r).
      { cbn. rewrite NOW, C, G, F. unfold at_rt. cbn. rewrite X, A. unfold step_stub. rewrite P, EW. destruct (r_datagram (q_rt q) && true); eauto. }
      destruct S as [r S]. eexists _, _. split; [|exact S]. auto.
  - destruct N as [N|N]; [|congruence]. destruct (q_chan q) as [|e rest] eqn:CH; [congruence|]. clear N.
    assert (OV : q_over q = false). { destruct (q_over q) eqn:O; [|reflexivity]. destruct (v_over _ _ V O) as (E & _). congruence. }
    assert (S : exists r, qstep q QTake = Some r).
    { cbn. rewrite OV, NOW, CH. destruct (e_cmd e) as [a|id to] eqn:C; [eauto|]. unfold at_rt, begins. cbn. destruct (e_gone e) eqn:G.
      - pose proof (entry_left _ _ e V) as X. rewrite CH, C in X. specialize (X (or_introl eq_refl) G). rewrite C. cbn. unfold step_take. rewrite EW, X. eauto.
      - assert (SO : sorted_cmd e).
        { pose proof (v_sort _ _ V) as SO. unfold entries in SO. rewrite CH in SO. inversion SO. assumption. }
        unfold sorted_cmd in SO. rewrite C in SO. destruct (e_from e) as [t|n] eqn:F; [|contradiction].
        assert (O : r_open (q_rt q) = true).
        { pose proof (v_call _ _ V t) as L. unfold lives in L. rewrite CH in L. cbn in L. rewrite F, qfrom_refl in L. destruct e as [ef ec eg]. cbn in *. subst.
          destruct (nth_error (q_calls q) t) as [k|] eqn:T; inversion L; subst. eapply (v_open _ _ V); [eapply nth_error_In; exact T|discriminate]. }
        destruct to; cbn; rewrite O, EW; eauto. }
    destruct S as [r S]. eexists _, _. split; [|exact S]. auto.
Qed.
Lemma idle_task tr q : qhistory tr q -> r_ep (q_rt q) = EpWait -> q_chan q <> [] \/ q_now q <> None -> qcan q.
Proof.
  intros H E N. destruct (idle_ep _ _ H E N) as (x & [[q' o] l] & [-> | ->] & S); done_by S.
Qed.
(** ... is at work on a call. *)
Lemma busy_task tr q ok s' o : qhistory tr q -> step (q_rt q) (EEp ok) = Some (s', o) -> exists r, qstep q (QGo ok) = Some r.
Proof.
  intros H S. pose proof (invariant _ _ _ _ _ H) as V. destruct (ep_goes _ _ _ _ _ _ S) as (id & to & C & R).
  pose proof (v_ep _ _ V) as EP. unfold ep_with in EP. destruct (q_now q) as [e|] eqn:NOW; [|rewrite EP in C; discriminate C].
  destruct (e_cmd e) as [a|id' to'] eqn:K; [rewrite EP in C; discriminate C|]. unfold QueueModel.qstep. rewrite NOW, K. unfold at_rt at 1. rewrite S.
  destruct (is_answer o) eqn:A; [|eauto]. destruct (e_gone e) eqn:G.
  - destruct o; try discriminate A; cbn [drop_answer]; eauto.
    + assert (T : there false n s' = true).
      { cbn in S. unfold step_ep in S. destruct (r_ep (q_rt q)) as [|? ?|? [?|]|[?|? ?] ?|[?|? ?] ? ?]; try discriminate S;
          repeat match type of S with context [match ?x with _ => _ end] => lazymatch x with context [match _ with _ => _ end] => fail | _ => destruct x end end; try discriminate S;
          injection S as <- <- <-; unfold there; cbn; rewrite nth_error_app2, Nat.sub_diag by lia; reflexivity. }
      unfold at_rt. cbn. unfold there in T. destruct (nth_error (r_stubs s') n) as [st|]; [|discriminate]. rewrite T. eauto.
    + assert (T : there true n s' = true).
      { cbn in S. unfold step_ep in S. destruct (r_ep (q_rt q)) as [|? ?|? [?|]|[?|? ?] ?|[?|? ?] ? ?]; try discriminate S;
          repeat match type of S with context [match ?x with _ => _ end] => lazymatch x with context [match _ with _ => _ end] => fail | _ => destruct x end end; try discriminate S;
          injection S as <- <- <- <-; unfold there; cbn; rewrite nth_error_app2, Nat.sub_diag by lia; reflexivity. }
      unfold at_rt. cbn. unfold there in T. destruct (nth_error (r_proxies s') n) as [st|]; [|discriminate]. rewrite T. eauto.
  - assert (SO : sorted_cmd e).
    { pose proof (v_sort _ _ V) as SO. unfold entries, now_list in SO. rewrite NOW in SO. apply Forall_app in SO. destruct SO as [_ SO]. apply Forall_inv in SO. exact SO. }
    unfold sorted_cmd in SO. rewrite K in SO. destruct (e_from e) as [t|n]; [|contradiction]. eauto.
Qed.
Definition answered (k : qcall) : bool := match k_stat k with CAnswered _ => true | _ => false end.
Lemma all_out q n : (forall t k, nth_error (q_calls q) t = Some k -> answered k = false) -> stub_out n q = true /\ proxy_out n q = true.
Proof.
  intros N. unfold stub_out, proxy_out. split; apply negb_true_iff.
  - destruct (existsb (holds_stub n) (q_calls q)) eqn:E; [|reflexivity]. apply existsb_nth in E. destruct E as (t & k & T & E). specialize (N _ _ T). unfold answered, holds_stub in *. destruct (k_stat k); discriminate.
  - destruct (existsb (holds_proxy n) (q_calls q)) eqn:E; [|reflexivity]. apply existsb_nth in E. destruct E as (t & k & T & E). specialize (N _ _ T). unfold answered, holds_proxy in *. destruct (k_stat k); discriminate.
Qed.
Lemma run_on q e s' o : elsewhere e q = true -> cooperative e -> step (q_rt q) e = Some (s', o) -> o <> OPending -> o <> OClosed -> qcan q.
Proof.
  intros E C S N1 N2. exists (QRun e), (with_rt s' q), QUnit, [(e, o)]. split.
  - cbn. rewrite E. unfold at_rt. rewrite S. reflexivity.
  - cbn. split; [exact C|]. destruct o; congruence.
Qed.
Lemma calls_progress tr q : qhistory tr q -> qcan q \/ at_ease q \/ exists c n, jammed bk (rt_trace tr) (q_rt q) c n.
Proof.
  intros H. pose proof (invariant _ _ _ _ _ H) as V.
  destruct (search answered (q_calls q)) as [(t & k & T & A)|NA].
  { left. unfold answered in A. destruct (k_stat k) as [| |o|] eqn:K; try discriminate A.
    assert (S : qstep q (QReturn t) = Some (set_call t COver q, QReturned t o, [])) by (cbn; rewrite T, K; reflexivity). done_by S. }
  assert (OUT : forall n, stub_out n q = true /\ proxy_out n q = true) by (intros n; apply all_out; exact NA).
  destruct (progress _ _ _ _ _ (refines _ _ _ _ _ H)) as [(e & s' & o & C & S & N1 & N2)|[ID|J]]; [left| |auto].
  - destruct e; try (exfalso; exact C); try (destruct ok; [|exfalso; exact C]).
    all: try (eapply run_on with (3 := S); [|exact Logic.I|exact N1|exact N2]; cbn; first [apply OUT|reflexivity]).
    + destruct (busy_task _ _ _ _ _ H S) as [[[q' p] l] Q]. done_by Q.
    + assert (X := S). cbn in X. unfold step_take in X. destruct (r_ep (q_rt q)) eqn:EW; try discriminate X. destruct (nth_error (r_left (q_rt q)) k) as [c|] eqn:L; [|discriminate X].
      eapply idle_task; [exact H|exact EW|]. apply nth_error_In in L. rewrite (v_left _ _ V) in L. destruct (q_chan q) eqn:CH; [|left; discriminate].
      destruct (q_now q) eqn:NOW; [right; discriminate|]. unfold gone_cmds, now_list in L. rewrite CH, NOW in L. destruct L.
    + destruct (is_connecting (stub_pc n (q_rt q))) eqn:IC; [|eapply run_on with (3 := S); [|exact Logic.I|exact N1|exact N2]; cbn; rewrite IC; reflexivity].
      assert (X := S). cbn in X. unfold stub_pc in IC. destruct (nth_error (r_stubs (q_rt q)) n) as [st|] eqn:T; [|discriminate]. destruct (st_alive st) eqn:A; [|discriminate].
      unfold step_stub in X. destruct (st_pc st) as [| |a m| | |] eqn:P; try discriminate IC. destruct (r_ep (q_rt q)) eqn:EW; try discriminate X. clear X.
      destruct (q_chan q) eqn:CH; [|eapply idle_task; [exact H|exact EW|left; rewrite CH; discriminate]].
      destruct (q_now q) eqn:NOW; [eapply idle_task; [exact H|exact EW|right; rewrite NOW; discriminate]|].
      assert (OV : q_over q = false).
      { destruct (q_over q) eqn:O; [|reflexivity]. destruct (v_over _ _ V O) as (_ & _ & (ST & _)). unfold ep_strong in ST. apply orb_false_iff in ST. destruct ST as [_ ST].
        pose proof (existsb_at _ _ _ _ ST T) as K. cbn in K. rewrite P, A in K. discriminate. }
      assert (Q : exists r, qstep q (QEnter (FSend n)) = Some r).
      { cbn -[Nat.ltb]. rewrite T, A, P. unfold in_channel. rewrite CH, NOW, OV. cbn. eauto. }
      destruct Q as [[[q' p] l] Q]. done_by Q.
  - destruct (no_call _ ID) as [EW _].
    destruct (q_chan q) eqn:CH; [|left; eapply idle_task; [exact H|exact EW|left; rewrite CH; discriminate]].
    destruct (q_now q) eqn:NOW; [left; eapply idle_task; [exact H|exact EW|right; rewrite NOW; discriminate]|].
    destruct (search (fun k => match k_stat k with CNew => true | _ => false end) (q_calls q)) as [(t & k & T & A)|NN].
    + left. destruct (k_stat k) eqn:K; try discriminate A.
      assert (OV : q_over q = false).
      { destruct (q_over q) eqn:O; [|reflexivity]. destruct (v_over _ _ V O) as (_ & _ & (ST & _)). unfold ep_strong in ST. apply orb_false_iff in ST. destruct ST as [ST _].
        rewrite (v_open _ _ V k) in ST; [discriminate|eapply nth_error_In; exact T|congruence]. }
      assert (Q : exists r, qstep q (QEnter (FCall t)) = Some r).
      { cbn -[Nat.ltb]. rewrite T, K, OV, CH. cbn. eauto. }
      destruct Q as [[[q' p] l] Q]. done_by Q.
    + right. left. constructor; [exact ID|auto|]. intros k I. apply In_nth_error in I. destruct I as [t T]. specialize (NA _ _ T). specialize (NN _ _ T). unfold answered in NA. cbn in NN.
      pose proof (v_call _ _ V t) as L. unfold lives, now_list in L. rewrite CH, NOW, T in L. cbn in L. inversion L; subst; try reflexivity; discriminate.
Qed.

(** ** How much is left to do *)
Definition call_w (k : qcall) : nat := match k_stat k with CNew => 28 | CIn => 1 | CAnswered _ => 1 | COver => 0 end.
Definition entry_w (e : qentry) : nat := match e_cmd e with KCall _ _ => if e_gone e then 0 else 27 | KConnect _ => 0 end.
Definition calls_left (q : qst) : nat :=
  3 * left_to_do (q_rt q) + (8 - length (q_chan q)) + 2 * (match q_now q with None => 1 | Some _ => 0 end) + total call_w (q_calls q) + total entry_w (q_chan q) +
  (if q_over q then 0 else 1).
Lemma does s e s' o : step s e = Some (s', o) -> brings e = None -> o <> OPending -> o <> OClosed -> left_to_do s' + 1 <= left_to_do s.
Proof.
  intros S C N1 N2. pose proof (work_step _ _ _ _ _ _ S) as W. unfold works in W. cbn [fst snd] in W. rewrite C in W. destruct o; try congruence; lia.
Qed.
Lemma begins_w s e s' o id to : step s e = Some (s', o) -> e = match to with None => EServe id | Some a => EProxy id a end -> left_to_do s' <= left_to_do s + 8.
Proof. intros S E. pose proof (work_step _ _ _ _ _ _ S) as W. destruct to; subst e; cbn [brings] in W; lia. Qed.
Lemma dropped_w s o l s' : dropped_answer bk cbk s o l s' -> left_to_do s' <= left_to_do s.
Proof.
  unfold dropped_answer. destruct (drop_answer o) as [d|] eqn:D; [|intros [-> _]; lia]. intros (o' & S & _). pose proof (work_step _ _ _ _ _ _ S) as W.
  destruct o; try discriminate D; injection D as <-; cbn [brings] in W; lia.
Qed.
Lemma not_reading s e s' o : step s e = Some (s', o) -> match e with EEp _ | ETake _ _ | EStub _ _ | ECancel _ _ | EClose => True | _ => False end -> o <> OPending /\ o <> OClosed.
Proof.
  intros S T. destruct e; try contradiction; unfold RuntimeModel.step, step_ep, step_take, step_stub, push_cmd in S;
  repeat (match type of S with context [match ?x with _ => _ end] => lazymatch x with context [match _ with _ => _ end] => fail | _ => destruct x end end; try discriminate S);
  injection S as <- <-; split; discriminate.
Qed.
Lemma lose_w f l : total entry_w (map (lose f) l) <= total entry_w l.
Proof. induction l as [|e l IH]; [cbn; lia|]. cbn. unfold lose at 1. destruct (waits f e); [|lia]. unfold entry_w at 1. cbn. destruct (e_cmd e); lia. Qed.
Lemma lose_call_w t l : Forall sorted_cmd l -> existsb (waits (FCall t)) l = true -> 27 + total entry_w (map (lose (FCall t)) l) <= total entry_w l.
Proof.
  induction l as [|e l IH]; intros S E; [discriminate|]. inversion S as [|? ? S1 S2]; subst. cbn [existsb map total] in *. unfold lose at 1. destruct (waits (FCall t) e) eqn:W.
  - pose proof (lose_w (FCall t) l). destruct (waits_is _ _ W) as [G F]. unfold sorted_cmd in S1. rewrite F in S1. unfold entry_w at 1 3. cbn. rewrite G. destruct (e_cmd e); [contradiction|]. lia.
  - specialize (IH S2 E). lia.
Qed.
Lemma calls_less tr q x q' o l : qhistory tr q -> qstep q x = Some (q', o, l) -> quiet (x, o, l) -> calls_left q' + (if acts (x, o, l) then 1 else 0) <= calls_left q.
Proof.
  intros H S GO. pose proof (invariant _ _ _ _ _ H) as V. apply qstepped in S. pose proof (not_refused _ _ _ _ _ _ _ _ V S) as NR.
  pose proof (proj2 (proj2 (order _ _ _ _ _ H))) as LE.
  destruct S; try congruence; try (exfalso; exact GO); unfold calls_left; cbn [acts q_chan q_now q_calls q_rt q_over with_rt with_chan with_now with_calls with_over set_call unwatch].
  - pose proof (total_upd call_w _ (k_now CIn) _ _ H0) as T. rewrite app_length, total_snoc. unfold call_w, entry_w in *. cbn [length e_cmd e_gone k_stat k_now] in *. lia.
  - rewrite app_length, total_snoc. unfold entry_w at 2. cbn [length e_cmd e_gone]. lia.
  - rewrite H1, H2 in *. cbn [length total] in *. lia.
  - rewrite H1, H2 in *. cbn [length total] in *. unfold entry_w at 2. rewrite H3. unfold begins in H4. destruct (e_gone e) eqn:G.
    + destruct (not_reading _ _ _ _ H4 Logic.I) as [N1 N2]. pose proof (does _ _ _ _ H4 eq_refl N1 N2). lia.
    + pose proof (begins_w _ _ _ _ _ _ H4 eq_refl). lia.
  - rewrite H0. assert (D : left_to_do s' + 1 <= left_to_do (q_rt q)); [|lia].
    unfold connects in H2. destruct (e_gone e); [subst b|destruct H2 as (n & _ & ->)]; destruct (not_reading _ _ _ _ H3 Logic.I) as [N1 N2]; exact (does _ _ _ _ H3 eq_refl N1 N2).
  - rewrite H0. destruct (not_reading _ _ _ _ H2 Logic.I) as [N1 N2]. pose proof (does _ _ _ _ H2 eq_refl N1 N2). lia.
  - rewrite H0. destruct (not_reading _ _ _ _ H2 Logic.I) as [N1 N2]. pose proof (does _ _ _ _ H2 eq_refl N1 N2). pose proof (dropped_w _ _ _ _ H5). lia.
  - rewrite H0. destruct (not_reading _ _ _ _ H2 Logic.I) as [N1 N2]. pose proof (does _ _ _ _ H2 eq_refl N1 N2).
    destruct (now_call _ _ _ _ V H0 H4 H5) as (i & z & T & _). pose proof (total_upd call_w _ (k_now (CAnswered o)) _ _ T) as TT. unfold call_w in *. cbn [k_stat k_now] in *. lia.
  - pose proof (total_upd call_w _ (k_now COver) _ _ H0) as TT. unfold call_w in *. cbn [k_stat k_now] in *. lia.
  - pose proof (total_upd call_w _ (k_now COver) _ _ H0) as TT. unfold call_w in *. cbn [k_stat k_now] in *. lia.
  - pose proof (total_upd call_w _ (k_now COver) _ _ H0) as TT. pose proof (work_step _ _ _ _ _ _ H2) as W. cbn [brings] in W.
    assert (SO : Forall sorted_cmd (q_chan q)) by (pose proof (v_sort _ _ V) as SO; unfold entries in SO; apply Forall_app in SO; apply SO).
    pose proof (lose_call_w _ _ SO H1). unfold call_w in *. cbn [k_stat k_now] in *. rewrite map_length. destruct (q_now q); cbn [option_map]; lia.
  - pose proof (total_upd call_w _ (k_now COver) _ _ H0) as TT. pose proof (lose_w (FCall t) (q_chan q)). unfold call_w in *. cbn [k_stat k_now] in *. rewrite map_length. destruct (q_now q); cbn [option_map]; lia.
  - pose proof (total_upd call_w _ (k_now COver) _ _ H0) as TT. pose proof (dropped_w _ _ _ _ H1). unfold call_w in *. cbn [k_stat k_now] in *. lia.
  - destruct (not_reading _ _ _ _ H0 Logic.I) as [N1 N2]. pose proof (does _ _ _ _ H0 eq_refl N1 N2). pose proof (lose_w (FSend n) (q_chan q)). rewrite map_length. destruct (q_now q); cbn [option_map]; lia.
  - destruct (not_reading _ _ _ _ H1 Logic.I) as [N1 N2]. pose proof (does _ _ _ _ H1 eq_refl N1 N2). lia.
  - rewrite H0. lia.
  - cbn in GO. pose proof (work_step _ _ _ _ _ _ H1) as W. unfold works in W. cbn [fst snd] in W. rewrite GO in W. destruct o; lia.
Qed.
Lemma on_quiet p : goes_on p -> quiet p.
Proof. destruct p as [[[] ?] ?]; cbn; try tauto. intros [C _]. apply coop_brings. exact C. Qed.
Lemma on_acts p : goes_on p -> acts p = true.
Proof. destruct p as [[x o] l]. destruct x; cbn; try reflexivity. intros [_ A]. exact A. Qed.

(** ** When it stops *)
Lemma qhistory_app tr q tr' q' : qhistory tr q -> qsteps q tr' q' -> qhistory (tr ++ tr') q'.
Proof.
  intros H S. revert tr H. induction S as [q|q x o l q1 tr1 q2 ST S IH]; intros tr H; [rewrite app_nil_r; exact H|].
  change ((x, o, l) :: tr1) with ([(x, o, l)] ++ tr1). rewrite app_assoc. apply IH. econstructor; eassumption.
Qed.
Theorem calls_bound tr q : qhistory tr q -> exists k, forall tr' q', qsteps q tr' q' -> Forall quiet tr' -> length (filter acts tr') <= k.
Proof.
  intros H. exists (calls_left q). intros tr' q' S. revert tr H. induction S as [q|q x o l q1 tr1 q2 ST S IH]; intros tr H F; [cbn; lia|].
  inversion F as [|? ? G F']; subst. pose proof (calls_less _ _ _ _ _ _ H ST G). specialize (IH _ (q_more _ _ _ _ _ _ _ _ _ H ST) F'). cbn [filter]. destruct (acts (x, o, l)); cbn [length]; lia.
Qed.
Theorem calls_at_rest tr q : qhistory tr q -> (forall x q' o l, qstep q x = Some (q', o, l) -> ~ goes_on (x, o, l)) ->
  at_ease q \/ exists c n, jammed bk (rt_trace tr) (q_rt q) c n.
Proof. intros H R. destruct (calls_progress _ _ H) as [(x & q' & o & l & S & G)|K]; [|exact K]. destruct (R _ _ _ _ S G). Qed.
Theorem calls_come_to_rest tr q : qhistory tr q -> exists tr' q', qsteps q tr' q' /\ Forall goes_on tr' /\
  (at_ease q' \/ exists c n, jammed bk (rt_trace (tr ++ tr')) (q_rt q') c n).
Proof.
  remember (calls_left q) as k eqn:Ek. revert tr q Ek. induction k as [k IH] using lt_wf_ind. intros tr q -> H.
  destruct (calls_progress _ _ H) as [(x & q1 & o & l & S & G)|K].
  - assert (D : calls_left q1 < calls_left q) by (pose proof (calls_less _ _ _ _ _ _ H S (on_quiet _ G)) as D; rewrite (on_acts _ G) in D; lia). destruct (IH _ D _ _ eq_refl (q_more _ _ _ _ _ _ _ _ _ H S)) as (tr' & q' & S' & F & K).
    exists ((x, o, l) :: tr'), q'. split; [econstructor; eassumption|]. split; [constructor; assumption|]. rewrite <- app_assoc in K. exact K.
  - exists [], q. rewrite app_nil_r. split; [constructor|]. split; [constructor|exact K].
Qed.
Theorem calls_answered tr q t id to : qhistory tr q -> at_ease q -> In (MMade id to) (life t tr) -> ~ In MDropped (life t tr) ->
  exists o, In (MReturned o) (life t tr) /\ fits id to o.
Proof.
  intros H [_ [C N] K] M D. pose proof (v_call _ _ (invariant _ _ _ _ _ H) t) as L. unfold lives, now_list in L. rewrite C, N in L. cbn in L.
  revert M D L. generalize (life t tr). intros lf M D L. destruct (nth_error (q_calls q) t) as [k|] eqn:T; [|inversion L; subst; destruct M].
  specialize (K _ (nth_error_In _ _ T)). inversion L; subst; try discriminate K.
  - destruct D. right. left. reflexivity.
  - match goal with W : whole_life _ _ _ _ |- _ => unfold whole_life in W; destruct W as [W|[W|[W|[W|W]]]]; rewrite W in M, D |- *; cbn in M, D end; try (exfalso; apply D; tauto).
    exists o. split; [cbn; tauto|]. destruct M as [M|M]; [injection M as <- <-; assumption|intuition discriminate].
Qed.
Lemma sort_of tr q : qinv tr q -> forall e, q_now q = Some e -> sorted_cmd e.
Proof.
  intros V e E. pose proof (v_sort _ _ V) as SO. unfold entries, now_list in SO. rewrite E in SO. apply Forall_app in SO. destruct SO as [_ SO]. apply Forall_inv in SO. exact SO.
Qed.
Theorem calls_finished tr q : qhistory tr q -> at_ease q -> finished tr = entered tr.
Proof. intros H [_ [C N] _]. destruct (order _ _ _ _ _ H) as (A & B & _). unfold now_list in B. rewrite C in A. rewrite N in B. cbn in A, B. rewrite app_nil_r in A, B. congruence. Qed.
Theorem in_order tr q : qhistory tr q -> exists now rest, entered tr = finished tr ++ now ++ rest /\ taken tr = finished tr ++ now /\ length now <= 1 /\ length rest <= 8.
Proof.
  intros H. destruct (order _ _ _ _ _ H) as (A & B & C). exists (map whose (now_list q)), (map whose (q_chan q)). rewrite A, B, <- app_assoc. rewrite !map_length.
  repeat split; [|exact C]. unfold now_list. destruct (q_now q); cbn; lia.
Qed.
Theorem executed tr q t o : qhistory tr q -> In (MDone o) (life t tr) -> exists ok, In (EEp ok, o) (rt_trace tr).
Proof.
  intros H. induction H as [|tr q x q' p l H IH S]; [intros []|]. rewrite life_snoc. unfold rt_trace in *. rewrite flat_map_app. cbn [flat_map snd]. rewrite app_nil_r.
  intros I. apply in_app_iff in I. destruct I as [I|I]; [destruct (IH I) as [ok J]; exists ok; apply in_app_iff; auto|].
  apply done_mark in I. destruct I as [c E]. pose proof (invariant _ _ _ _ _ H) as V. apply qstepped in S. pose proof (sort_of tr q V) as SO.
  destruct S; try discriminate E.
  - exfalso. specialize (SO _ H0). unfold sorted_cmd in SO. injection E as F _ _. rewrite F, H1 in SO. exact SO.
  - injection E as _ _ <-. exists ok. apply in_app_iff. right. left. reflexivity.
  - injection E as _ _ <-. exists ok. apply in_app_iff. right. left. reflexivity.
  - assumption.
  - assumption.
Qed.

(** ** How long a call waits for others *)
Lemma entered_mark t p : In MEntered (mark_of t p) -> exists c, seen p = QEntered (FCall t) c.
Proof.
  destruct p as [[x o] l]. unfold mark_of, seen. destruct x as [| | | | |[?|?]| | |], o as [|?|[?|?] ?| |[?|?] ?|[?|?] ? ?|? ?]; cbn; try tauto;
    repeat match goal with |- context [?a =? ?b] => destruct (Nat.eqb_spec a b) end; cbn; intuition (try discriminate); subst; eexists; reflexivity.
Qed.
Lemma entered_life t tr : In MEntered (life t tr) -> exists c, In (FCall t, c) (entered tr).
Proof.
  intros I. apply in_flat_map in I. destruct I as (p & P & I). apply entered_mark in I. destruct I as [c E]. exists c. apply in_flat_map. exists p. split; [exact P|]. rewrite E. left. reflexivity.
Qed.
Lemma finished_life t c tr : In (FCall t, c) (finished tr) -> exists o, In (MDone o) (life t tr).
Proof.
  intros I. apply in_flat_map in I. destruct I as (p & P & I). destruct p as [[x o] l]. unfold seen in I. cbn in I. destruct o as [| | | | |f d o|]; cbn in I; try contradiction.
  destruct I as [E|N]; [|contradiction]. injection E as -> ->. exists o. apply in_flat_map. exists (x, QDone (FCall t) c o, l). split; [exact P|]. apply (done_mark bk cbk). eauto.
Qed.
Theorem bypass tr1 q1 tr2 q2 t : qhistory tr1 q1 -> qsteps q1 tr2 q2 -> In MEntered (life t tr1) -> (forall o, ~ In (MDone o) (life t (tr1 ++ tr2))) ->
  length (finished tr2) <= 8.
Proof.
  intros H S I N. destruct (entered_life _ _ I) as [c E]. destruct (in_order _ _ H) as (now & rest & E1 & _ & L1 & L2).
  destruct (in_order _ _ (qhistory_app _ _ _ _ H S)) as (now' & rest' & E2 & _). 
  assert (A : entered (tr1 ++ tr2) = entered tr1 ++ entered tr2) by apply flat_map_app. assert (B : finished (tr1 ++ tr2) = finished tr1 ++ finished tr2) by apply flat_map_app.
  apply In_nth_error in E. destruct E as [i X]. assert (LI : i < length (entered tr1)) by (apply nth_error_Some; congruence).
  assert (LF : length (finished (tr1 ++ tr2)) <= i).
  { destruct (Nat.lt_ge_cases i (length (finished (tr1 ++ tr2)))) as [LT|GE]; [exfalso|exact GE]. assert (Y : nth_error (finished (tr1 ++ tr2)) i = Some (FCall t, c)).
    { rewrite <- (nth_error_app1 _ (now' ++ rest') LT), <- E2, A, nth_error_app1 by exact LI. exact X. }
    destruct (finished_life _ _ _ (nth_error_In _ _ Y)) as [o D]. exact (N _ D). }
  rewrite B, app_length in LF. rewrite E1, !app_length in LI. lia.
Qed.
End Locks.
