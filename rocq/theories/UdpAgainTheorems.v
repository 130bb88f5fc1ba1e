(** Connecting again to the same peer: what happens to the first receiver. *)
From Coq Require Import List NArith Bool PeanoNat Sorted Lia.
From Verif Require Import MapModel EndpointProofs UdpModel UdpSpec UdpProofs UdpInv UdpTheorems.
Import ListNotations.
Open Scope nat_scope.

(** A connection that was made and whose receiver is not dropped can be read. *)
Lemma readable tr s : history tr s -> forall a c, In (EConnect a, OConnected c) tr -> (forall o, ~ In (EDropReceiver c, o) tr) ->
  (forall b, ~ In (c, b) (queued s)) /\ exists ch, nth_error (u_chans s) c = Some ch /\ c_rx ch = true.
Proof.
  intros H. induction H as [|tr s e s' o H IH St]; intros a c Hi Nd; [destruct Hi|].
  assert (I := inv_history _ _ H). apply step_inv in St.
  assert (Nd1 : e <> EDropReceiver c) by (intros ->; apply (Nd o); apply in_app_iff; right; left; reflexivity).
  assert (Nd2 : forall o', ~ In (EDropReceiver c, o') tr) by (intros o' K; apply (Nd o'); apply in_app_iff; left; exact K).
  apply in_app_iff in Hi as [Hi|[Hi|[]]].
  - destruct (IH _ _ Hi Nd2) as (Q & ch & Hc & Rx). assert (Hl := nth_lt _ _ _ Hc). split.
    + intros b Hb. apply (queued_step_new _ _ _ _ _ _ _ I St) in Hb as [Hb|Hb]; [exact (Q _ Hb)|lia].
    + destruct St; fields; try (exists ch; split; [exact Hc|exact Rx]); try (exists ch; split; [apply nth_app_old; exact Hc|exact Rx]).
      * destruct (Nat.eq_dec c0 c) as [->|Hd]; [|exists ch; rewrite set_nth_other by congruence; auto].
        eexists. rewrite set_nth_same by exact Hl. split; [reflexivity|]. cbn. congruence.
      * destruct (Nat.eq_dec c0 c) as [->|Hd]; [|exists ch; rewrite set_nth_other by congruence; auto].
        eexists. rewrite set_nth_same by exact Hl. split; [reflexivity|]. cbn. congruence.
      * destruct (Nat.eq_dec c0 c) as [->|Hd]; [|exists ch; rewrite set_nth_other by congruence; auto].
        destruct (i_chan _ _ I _ _ H0) as (_ & _ & _ & D & _). destruct (recv_cases _ _ _ _ H3 D) as (_ & _ & _ & E4 & _).
        exists ch'. rewrite set_nth_same by exact Hl. split; [reflexivity|congruence].
      * exists ch. rewrite set_nth_other by congruence. auto.
      * exists ch. rewrite (drop_all_chan (l_queue x) (set_lst s l (mkL (l_cap x) [] false)) c ch Hc).
        destruct (existsb (fun e => fst e =? c) (l_queue x)) eqn:EX; [exfalso|auto].
        apply existsb_queue in EX as (b & EX). apply (Q b). apply in_flat_map. exists x. split; [eapply nth_error_In; eassumption|exact EX].
  - injection Hi as -> ->. inversion St; subst. fields. split.
    + intros b Hi. destruct (i_queue _ _ I _ b Hi) as (x & Hx & _). apply nth_lt in Hx. lia.
    + eexists. split; [apply nth_app_last|reflexivity].
Qed.
Lemma second_connect_told tr1 c1 a tr2 c2 tr3 s :
  history (tr1 ++ (EConnect a, OConnected c1) :: tr2 ++ (EConnect a, OConnected c2) :: tr3) s ->
  (forall o, ~ In (EDropReceiver c1, o) (tr1 ++ (EConnect a, OConnected c1) :: tr2 ++ (EConnect a, OConnected c2) :: tr3)) -> u_task s = Idle ->
  exists s' o, step s (ERecv c1) = Some (s', o) /\ o <> OPending /\
    (o = OClosed \/ (exists k, o = OLagged k) \/ exists p, o = OData p).
Proof.
  intros H Nd Ti. destruct (readable _ _ H a c1) as (Q & ch & Hc & Rx); [apply in_app_iff; right; left; reflexivity|exact Nd|].
  destruct (second_connect _ _ _ _ _ _ _ H) as [_ K].
  destruct (step s (ERecv c1)) as [[s' o]|] eqn:E.
  - specialize (K _ _ Ti eq_refl). exists s', o. split; [reflexivity|]. split; [exact K|].
    cbn [step] in E. rewrite Hc, Rx, (waiting_not _ _ Q) in E. cbn [andb negb] in E.
    destruct (chan_recv (negb (has_sender s c1)) ch) as [ch' o'] eqn:CR. injection E as _ <-.
    unfold chan_recv in CR. repeat match type of CR with context [match ?x with _ => _ end] => destruct x end; injection CR as _ <-; eauto. congruence.
  - exfalso. cbn [step] in E. rewrite Hc, Rx, (waiting_not _ _ Q) in E. cbn in E. destruct (chan_recv (negb (has_sender s c1)) ch); discriminate E.
Qed.

(** Reading a receiver nobody sends to any more. *)
Lemma drains k : forall s c ch, nth_error (u_chans s) c = Some ch -> c_rx ch = true -> waiting s c = false -> has_sender s c = false ->
  length (c_sent ch) - c_next ch = k -> k <= c_cap ch ->
  exists os s', length os = k /\ run s (repeat (ERecv c) (S (length os))) = Some (s', map (pair (ERecv c)) (os ++ [OClosed])) /\ ~ In OPending os.
Proof.
  induction k as [|k IH]; intros s c ch Hc Rx W Hs K L.
  - exists [], (set_chan s c ch). split; [reflexivity|]. split; [|intros []]. cbn [length repeat run step app map]. rewrite Hc, Rx, W, Hs. cbn [andb negb].
    unfold chan_recv. destruct (Nat.ltb_spec (c_next ch + c_cap ch) (length (c_sent ch))); [lia|].
    destruct (nth_error (c_sent ch) (c_next ch)) eqn:E; [apply nth_lt in E; lia|]. reflexivity.
  - destruct (nth_error (c_sent ch) (c_next ch)) as [p|] eqn:E; [|apply nth_error_None in E; lia].
    set (ch' := mkC (c_addr ch) (c_cap ch) (c_sent ch) (S (c_next ch)) (c_rx ch)).
    destruct (IH (set_chan s c ch') c ch') as (os & s' & El & R & Np).
    + cbn. apply set_nth_same. exact (nth_lt _ _ _ Hc).
    + exact Rx.
    + exact W.
    + exact Hs.
    + cbn. lia.
    + cbn. lia.
    + exists (OData p :: os), s'. split; [cbn; lia|]. split.
      * cbn [length]. remember (S (length os)) as n. cbn [repeat run step]. rewrite Hc, Rx, W, Hs. cbn [andb negb].
        unfold chan_recv. destruct (Nat.ltb_spec (c_next ch + c_cap ch) (length (c_sent ch))); [lia|]. rewrite E. fold ch'. rewrite R. reflexivity.
      * intros [X|X]; [discriminate|exact (Np X)].
Qed.
Lemma told_within_ten tr1 c1 a tr2 c2 tr3 s :
  history (tr1 ++ (EConnect a, OConnected c1) :: tr2 ++ (EConnect a, OConnected c2) :: tr3) s ->
  (forall o, ~ In (EDropReceiver c1, o) (tr1 ++ (EConnect a, OConnected c1) :: tr2 ++ (EConnect a, OConnected c2) :: tr3)) -> u_task s = Idle ->
  exists os s', length os <= 9 /\ run s (repeat (ERecv c1) (S (length os))) = Some (s', map (pair (ERecv c1)) (os ++ [OClosed])) /\ ~ In OPending os.
Proof.
  intros H Nd Ti. destruct (readable _ _ H a c1) as (Q & ch & Hc & Rx); [apply in_app_iff; right; left; reflexivity|exact Nd|].
  pose proof (superseded_alone _ _ _ (supersedes _ _ _ _ _ _ _ H) Ti) as Hs. apply waiting_not in Q.
  assert (Cap : c_cap ch = 8).
  { destruct (k_connect _ _ (caps_history _ _ H) a c1) as (x & Hx & Cx); [apply in_app_iff; right; left; reflexivity|]. congruence. }
  destruct (Nat.ltb_spec (c_next ch + c_cap ch) (length (c_sent ch))) as [Lag|Fits].
  - set (ch' := mkC (c_addr ch) (c_cap ch) (c_sent ch) (length (c_sent ch) - c_cap ch) (c_rx ch)).
    destruct (drains 8 (set_chan s c1 ch') c1 ch') as (os & s' & El & R & Np); try assumption.
    + cbn. apply set_nth_same. exact (nth_lt _ _ _ Hc).
    + cbn. lia.
    + cbn. lia.
    + exists (OLagged (length (c_sent ch) - c_cap ch - c_next ch) :: os), s'. split; [cbn; lia|]. split.
      * cbn [length]. remember (S (length os)) as n. cbn [repeat run step]. rewrite Hc, Rx, Q, Hs. cbn [andb negb].
        unfold chan_recv. apply Nat.ltb_lt in Lag. rewrite Lag. fold ch'. rewrite R. reflexivity.
      * intros [X|X]; [discriminate|exact (Np X)].
  - destruct (drains _ s c1 ch Hc Rx Q Hs eq_refl) as (os & s' & El & R & Np); [lia|].
    exists os, s'. split; [lia|]. split; assumption.
Qed.
