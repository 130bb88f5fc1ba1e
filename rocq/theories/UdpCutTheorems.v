(** A receiver, made or accepted, whose peer is connected to again: it reads what was left and then
    [Closed], and never waits again. *)
From Coq Require Import List NArith Bool PeanoNat Sorted Lia.
From Verif Require Import MapModel EndpointProofs UdpModel UdpSpec UdpProofs UdpInv UdpTheorems UdpAgainTheorems UdpListenTheorems.
Import ListNotations.
Open Scope nat_scope.

(** A connection that was made or accepted and whose receiver is not dropped can be read. *)
Lemma opened_readable tr s : history tr s -> forall a c, In (c, a) (opened tr) -> (forall o, ~ In (EDropReceiver c, o) tr) ->
  (forall b, ~ In (c, b) (queued s)) /\ exists ch, nth_error (u_chans s) c = Some ch /\ c_rx ch = true.
Proof.
  intros H a c Hi Nd. assert (I := inv_history _ _ H). split.
  { intros b Hq. assert (D := i_ids _ _ I). rewrite map_app in D.
    apply (in_map fst) in Hi, Hq. cbn in Hi, Hq. revert Hi Hq D. generalize (map fst (opened tr)) (map fst (queued s)). intros u v Hu Hv D.
    induction u as [|x u IH]; [destruct Hu|]. cbn in D. inversion D as [|? ? N1 N2]; subst. destruct Hu as [->|Hu]; [|exact (IH Hu N2)].
    apply N1. apply in_app_iff. right. exact Hv. }
  clear I. revert a c Hi Nd. induction H as [|tr s e s' o H IH St]; intros a c Hi Nd; [destruct Hi|].
  assert (I := inv_history _ _ H). assert (Q : forall b, In (c, b) (queued s) -> In (c, a) (opened tr) -> False).
  { intros b Hq Ho. assert (D := i_ids _ _ I). rewrite map_app in D.
    apply (in_map fst) in Ho, Hq. cbn in Ho, Hq. revert Ho Hq D. generalize (map fst (opened tr)) (map fst (queued s)). intros u v Hu Hv D.
    induction u as [|x u IHu]; [destruct Hu|]. cbn in D. inversion D as [|? ? N1 N2]; subst. destruct Hu as [->|Hu]; [|exact (IHu Hu N2)].
    apply N1. apply in_app_iff. right. exact Hv. }
  apply step_inv in St.
  assert (Nd1 : e <> EDropReceiver c) by (intros ->; apply (Nd o); apply in_app_iff; right; left; reflexivity).
  assert (Nd2 : forall o', ~ In (EDropReceiver c, o') tr) by (intros o' K; apply (Nd o'); apply in_app_iff; left; exact K).
  rewrite opened_app in Hi. apply in_app_iff in Hi as [Hi|Hi].
  - destruct (IH _ _ Hi Nd2) as (ch & Hc & Rx). assert (Hl := nth_lt _ _ _ Hc).
    destruct St; fields; try (exists ch; split; [exact Hc|exact Rx]); try (exists ch; split; [apply nth_app_old; exact Hc|exact Rx]).
    + destruct (Nat.eq_dec c0 c) as [->|Hd]; [|exists ch; rewrite set_nth_other by congruence; auto].
      eexists. rewrite set_nth_same by exact Hl. split; [reflexivity|]. cbn. congruence.
    + destruct (Nat.eq_dec c0 c) as [->|Hd]; [|exists ch; rewrite set_nth_other by congruence; auto].
      eexists. rewrite set_nth_same by exact Hl. split; [reflexivity|]. cbn. congruence.
    + destruct (Nat.eq_dec c0 c) as [->|Hd]; [|exists ch; rewrite set_nth_other by congruence; auto].
      destruct (i_chan _ _ I _ _ H0) as (_ & _ & _ & D & _). destruct (recv_cases _ _ _ _ H3 D) as (_ & _ & _ & E4 & _).
      exists ch'. rewrite set_nth_same by exact Hl. split; [reflexivity|congruence].
    + exists ch. rewrite set_nth_other by congruence. auto.
    + exists ch. rewrite (drop_all_chan (l_queue x) (set_lst s l (mkL (l_cap x) [] false)) c ch Hc).
      destruct (existsb (fun e => fst e =? c) (l_queue x)) eqn:EX; [exfalso|auto].
      apply existsb_queue in EX as (b & EX). apply (Q b); [|exact Hi]. apply in_flat_map. exists x. split; [eapply nth_error_In; eassumption|exact EX].
  - destruct St; cbn in Hi; try (destruct Hi; fail); try (destruct o; destruct Hi; fail).
    + destruct Hi as [[= <- <-]|[]]. fields. eexists. split; [apply nth_app_last|reflexivity].
    + destruct Hi as [[= <- <-]|[]]. fields.
      assert (Hq : In (c0, a0) (queued s)) by (apply in_flat_map; exists x; split; [eapply nth_error_In; eassumption|rewrite H2; left; reflexivity]).
      destruct (i_queue _ _ I _ _ Hq) as (ch & Hc & _). exists ch. split; [exact Hc|]. exact (i_alive _ _ I _ _ _ Hq Hc).
    + destruct H3 as [->| ->]; destruct Hi.
    + destruct (i_chan _ _ I _ _ H0) as (_ & _ & _ & D & _). destruct (recv_cases _ _ _ _ H3 D) as (_ & _ & _ & _ & _ & _ & _ & E). destruct o; try contradiction; destruct Hi.
Qed.

(** Connecting again, while the task is not handling a datagram of the peer or if the first was made by
    connecting, takes the first out of the map for good. *)
Lemma taken_over t1 s1 c1 a c2 tr2 s : history t1 s1 -> In (c1, a) (opened t1) ->
  In (EConnect a, OConnected c1) t1 \/ quiet s1 a ->
  history (t1 ++ (EConnect a, OConnected c2) :: tr2) s -> superseded (length (arrivals t1)) c1 s.
Proof.
  intros H1 Ho Q H. change ((EConnect a, OConnected c2) :: tr2) with ([(EConnect a, OConnected c2)] ++ tr2) in H. rewrite app_assoc in H.
  destruct (history_split _ _ _ H) as (s2 & H2 & X). destruct (history_snoc _ _ _ _ H2) as (s1' & H1' & St).
  rewrite (history_fun _ _ _ H1' H1) in St. clear s1' H1'.
  assert (I1 := inv_history _ _ H1). assert (K1 := caps_history _ _ H1).
  assert (Sup : superseded (length (arrivals t1)) c1 s2).
  { destruct (i_opened _ _ I1 _ _ Ho) as (ch & Hc & A). assert (Hl := nth_lt _ _ _ Hc).
    apply step_inv in St. inversion St as [| | | | | | | | | | | | | |a0 Hop E1 E2 E3| | | | | | | |]. subst. unfold superseded. fields.
    split.
    { intros b Hi. apply in_map_insert in Hi as [[_ Hi]|[Hi Hb]]; [lia|]. destruct (i_map _ _ I1 _ _ Hi) as (x & Hx & Ax). congruence. }
    split.
    { assert (KT := k_task _ _ K1). assert (IT := i_task _ _ I1). unfold quiet in Q. destruct (u_task s1); try exact Logic.I.
      - intros ->. destruct IT as [IT _]. exact (arrived_lt _ _ _ IT).
      - intros ->. destruct Q as [Q|Q]; [destruct KT as (x & Hx & Ex); destruct (k_connect _ _ K1 _ _ Q) as (y & Hy & Ey); congruence|].
        apply Q. destruct IT as [_ (x & Hx & Ax)]. congruence.
      - intros ->. destruct Q as [Q|Q]; [destruct KT as (x & Hx & Ex); destruct (k_connect _ _ K1 _ _ Q) as (y & Hy & Ey); congruence|].
        apply Q. destruct IT as (x & Hx & Ax). congruence. }
    exists ch. split; [apply nth_app_old; exact Hc|].
    destruct (i_chan _ _ I1 _ _ Hc) as (F & _). eapply Forall_impl; [|exact F]. intros p Hp. exact (arrived_lt _ _ _ Hp). }
  exact (exec_ind_inv (fun _ s => superseded (length (arrivals t1)) c1 s) _ _ H2 Sup
    (fun tr s e o s' I S P => superseded_step _ _ _ _ _ _ _ I S P) _ _ X).
Qed.
Lemma taken_over_before t1 s1 c1 a c2 tr2 s : history t1 s1 -> In (c1, a) (opened t1) ->
  In (EConnect a, OConnected c1) t1 \/ quiet s1 a ->
  history (t1 ++ (EConnect a, OConnected c2) :: tr2) s ->
  forall p, In (ERecv c1, OData p) (t1 ++ (EConnect a, OConnected c2) :: tr2) -> p_no p < length (arrivals t1).
Proof.
  intros H1 Ho Q H p Hp. destruct (taken_over _ _ _ _ _ _ _ H1 Ho Q H) as (M & T & ch & Hc & F). assert (I := inv_history _ _ H).
  apply received_in in Hp. destruct (i_chan _ _ I _ _ Hc) as (_ & _ & R & _). rewrite Forall_forall in F. apply F. eapply reads_in; eassumption.
Qed.

(** What a receiver nobody sends to can still read before [Closed]. *)
Definition left_to_read (ch : chan) : nat := Nat.min (length (c_sent ch) - c_next ch) (S (c_cap ch)).
Definition something (o : obs) : bool := match o with OClosed => false | _ => true end.
Lemma orphan_reads tr1 s1 c ch tr s : history tr1 s1 -> has_sender s1 c = false -> nth_error (u_chans s1) c = Some ch -> exec s1 tr s ->
  has_sender s c = false /\ length (filter something (received c tr)) <= left_to_read ch.
Proof.
  intros H Hs Hc X.
  refine ((fun P => _) (exec_ind_inv (fun tr s => has_sender s c = false /\ exists ch', nth_error (u_chans s) c = Some ch' /\ c_cap ch' = c_cap ch /\
    c_next ch' <= length (c_sent ch') /\ length (filter something (received c tr)) + left_to_read ch' <= left_to_read ch) _ _ H _ _ _ _ X)).
  - destruct P as (A & ch' & _ & _ & _ & L). split; [exact A|lia].
  - split; [exact Hs|]. exists ch. destruct (i_chan _ _ (inv_history _ _ H) _ _ Hc) as (_ & _ & _ & D & _). repeat split; try assumption. cbn. lia.
  - clear tr s X. intros tr s e o s' I S (A & ch' & C & K & D & L). split; [eapply orphan_step; [exact S|exact (nth_lt _ _ _ C)|exact A]|].
    assert (same : forall y, nth_error (u_chans s') c = Some y -> c_sent y = c_sent ch' -> c_next ch' <= c_next y <= length (c_sent ch') -> c_cap y = c_cap ch' ->
      received c [(e, o)] = [] ->
      exists y, nth_error (u_chans s') c = Some y /\ c_cap y = c_cap ch /\ c_next y <= length (c_sent y) /\ length (filter something (received c (tr ++ [(e, o)]))) + left_to_read y <= left_to_read ch).
    { intros y Y1 Y2 Y3 Y4 Y5. exists y. repeat split; try congruence; [rewrite Y2; lia|]. rewrite received_app, Y5, app_nil_r. unfold left_to_read in *. rewrite Y2, Y4. lia. }
    destruct (orphan_sent _ _ _ _ _ _ _ I S A C) as (y & Y1 & Y2 & Y3).
    assert (G := inv_grows _ _ _ _ _ I S). destruct (G _ _ C) as (y' & Y1' & _ & Y4). rewrite Y1 in Y1'. injection Y1' as <-.
    destruct S; try (apply (same _ Y1 Y2 Y3); [exact Y4|reflexivity]).
    destruct (Nat.eq_dec c0 c) as [->|Hd]; [|apply (same _ Y1 Y2 Y3); [exact Y4|cbn; apply Nat.eqb_neq in Hd; rewrite Hd; reflexivity]].
    exists y. split; [exact Y1|]. split; [congruence|]. split; [rewrite Y2; lia|]. rewrite received_app. cbn [received]. rewrite Nat.eqb_refl.
    rewrite C in H0. injection H0 as <-. fields. rewrite set_nth_same in Y1 by (exact (nth_lt _ _ _ C)). injection Y1 as <-.
    rewrite filter_app, app_length. clear same. unfold chan_recv in H3. rewrite A in H3. cbn [negb] in H3. unfold left_to_read in *.
    destruct (Nat.ltb_spec (c_next ch' + c_cap ch') (length (c_sent ch'))) as [Lg|Fits].
    + injection H3 as <- <-. cbn. cbn in Y2. lia.
    + destruct (nth_error (c_sent ch') (c_next ch')) eqn:E; injection H3 as <- <-; cbn; [apply nth_lt in E|]; lia.
Qed.
Lemma cut_reads t1 s1 c1 a c2 tr2 s tr3 s' : history t1 s1 -> In (c1, a) (opened t1) ->
  In (EConnect a, OConnected c1) t1 \/ quiet s1 a ->
  history (t1 ++ (EConnect a, OConnected c2) :: tr2) s -> u_task s = Idle ->
  history ((t1 ++ (EConnect a, OConnected c2) :: tr2) ++ tr3) s' ->
  has_sender s' c1 = false /\ exists ch, nth_error (u_chans s) c1 = Some ch /\ length (filter something (received c1 tr3)) <= S (c_cap ch).
Proof.
  intros H1 Ho Q H Ti H'. pose proof (taken_over _ _ _ _ _ _ _ H1 Ho Q H) as Sup. pose proof (superseded_alone _ _ _ Sup Ti) as Hs.
  destruct Sup as (_ & _ & ch & Hc & _). destruct (history_split _ _ _ H') as (s0 & H0 & X). rewrite (history_fun _ _ _ H0 H) in X. clear s0 H0.
  destruct (orphan_reads _ _ _ _ _ _ H Hs Hc X) as [A B]. split; [exact A|]. exists ch. split; [exact Hc|]. unfold left_to_read in B. lia.
Qed.
(** Such a receiver can be read without waiting. *)
Lemma orphan_told tr s a c : history tr s -> In (c, a) (opened tr) -> (forall o, ~ In (EDropReceiver c, o) tr) -> has_sender s c = false ->
  exists s' o, step s (ERecv c) = Some (s', o) /\ (o = OClosed \/ (exists k, o = OLagged k) \/ exists p, o = OData p).
Proof.
  intros H Ho Nd Hs. destruct (opened_readable _ _ H _ _ Ho Nd) as (Q & ch & Hc & Rx). cbn [step]. rewrite Hc, Rx, (waiting_not _ _ Q), Hs. cbn [andb negb].
  unfold chan_recv. destruct (_ <? _); [eexists; eexists; split; [reflexivity|]; eauto|].
  destruct (nth_error (c_sent ch) (c_next ch)); eexists; eexists; (split; [reflexivity|]); eauto.
Qed.
