(** What a socket gives of a peer that made contact first (for C80). *)
From Coq Require Import List NArith Bool PeanoNat Lia.
From Verif Require Import MapModel EndpointProofs UdpModel UdpSpec UdpProofs UdpInv UdpTheorems.
From Verif Require Import ExchangeSpec.
Import ListNotations.
Open Scope nat_scope.

Section Contact.
Context (a : N).

Lemma chan_back tr s e o s' c b : inv tr s -> stepped s e o s' -> is_chan s' c b ->
  is_chan s c b \/ (c = length (u_chans s) /\ ((e = EConnect b /\ o = OConnected c) \/ exists p, u_task s = NewConn p b)).
Proof.
  intros I S (ch & Hc & Ad). destruct S; try (left; exists ch; split; [exact Hc|exact Ad]); fields; cbn [u_chans set_chan set_task] in Hc.
  - apply set_nth_cases in Hc. destruct Hc as [[-> ->]|[_ Hc]]; left; eexists; split; try eassumption; cbn in Ad; exact Ad.
  - apply nth_app_cases in Hc. destruct Hc as [Hc|[-> ->]]; [left; exists ch; split; assumption|]. right. cbn in Ad. subst. eauto.
  - apply set_nth_cases in Hc. destruct Hc as [[-> ->]|[_ Hc]]; left; eexists; split; try eassumption; cbn in Ad; exact Ad.
  - apply nth_app_cases in Hc. destruct Hc as [Hc|[-> ->]]; [left; exists ch; split; assumption|]. right. cbn in Ad. subst. eauto.
  - apply set_nth_cases in Hc. destruct Hc as [[-> ->]|[_ Hc]]; left; [|eexists; split; eassumption].
    exists ch0. split; [assumption|]. destruct (i_chan _ _ I _ _ H) as (_ & _ & _ & D & _).
    destruct (recv_cases _ _ _ _ H2 D) as (E1 & _). congruence.
  - apply set_nth_cases in Hc. destruct Hc as [[-> ->]|[_ Hc]]; left; eexists; split; try eassumption; cbn in Ad; exact Ad.
  - apply drop_all_cases in Hc. destruct Hc as (ch1 & Hc & ->). left. exists ch1. split; [exact Hc|]. destruct (existsb _ _); exact Ad.
Qed.

Definition nochan (s : udp) : Prop := forall c, ~ is_chan s c a.
Definition contact_of (P : list packet) (s : udp) : Prop :=
  let M := map_get N.eqb a (u_receivers s) in
  (P = [] /\ nochan s /\ M = None /\ quiet s a) \/
  (exists p, P = [p] /\ nochan s /\ M = None /\ (u_task s = Arrived p a \/ u_task s = NewConn p a)) \/
  (exists c ch, nth_error (u_chans s) c = Some ch /\ c_addr ch = a /\ (forall c', is_chan s c' a -> c' = c) /\ c_rx ch = true /\ c_cap ch = 32 /\
    ((quiet s a /\ M = Some c /\ c_sent ch = P) \/
     (exists p, (u_task s = Arrived p a \/ u_task s = Got p a c) /\ M = Some c /\ c_sent ch ++ [p] = P) \/
     (exists p, u_task s = Queued p a c /\ M = None /\ c_sent ch = [] /\ P = [p]) \/
     (u_task s = Sent a c /\ M = None /\ c_sent ch = P))).
Definition contact (tr : list (event * obs)) (s : udp) : Prop := contact_of (packets_from a 0 tr) s.

Lemma contact_step tr s e o s' : inv tr s -> stepped s e o s' -> length (arrivals tr) = u_count s ->
  (forall c', (e, o) <> (EConnect a, OConnected c')) -> (forall c, e = EDropReceiver c -> ~ is_chan s c a) -> ~ turned_away s e a ->
  contact tr s -> contact (tr ++ [(e, o)]) s'.
Proof.
  intros I S Hn Hne Hnd NT J. assert (B := fun c => chan_back _ _ _ _ _ c a I S). assert (G := inv_grows _ _ _ _ _ I S).
  assert (BN : ~ (exists p, u_task s = NewConn p a) -> forall c, is_chan s' c a -> is_chan s c a).
  { intros N c H. destruct (B c H) as [H'|[_ [[-> ->]|H']]]; [exact H'|exfalso; exact (Hne _ eq_refl)|contradiction]. }
  assert (PA : packets_from a 0 (tr ++ [(e, o)]) = packets_from a 0 tr ++ packets_from a (u_count s) [(e, o)]).
  { rewrite packets_from_app, Hn. reflexivity. }
  unfold contact. rewrite PA. clear PA.
  destruct J as [(P & NC & M & Q)|[(p & P & NC & M & T)|(c & ch & Hc & Ad & U & Rx & Cap & J)]].
  - (* no contact yet *)
    assert (NN : ~ (exists p, u_task s = NewConn p a)).
    { intros [p E]. unfold quiet in Q. rewrite E in Q. exact (Q eq_refl). }
    assert (NC' : nochan s') by (intros c H; exact (NC c (BN NN c H))).
    assert (K : packets_from a (u_count s) [(e, o)] = [] -> map_get N.eqb a (u_receivers s') = None -> quiet s' a ->
      contact_of (packets_from a 0 tr ++ packets_from a (u_count s) [(e, o)]) s').
    { intros E1 E2 E3. left. rewrite P, E1. repeat split; assumption. }
    assert (MI : forall b c, b <> a -> map_get N.eqb a (map_insert N.eqb b c (u_receivers s)) = None).
    { intros b c Hb. rewrite get_insert_other; [exact M|apply N.eqb_eq|congruence]. }
    unfold quiet in Q, K. destruct S; try (rewrite H in Q); try (apply K; fields; [reflexivity|exact M|try exact Q; try exact Logic.I]; fail).
    + destruct (N.eqb_spec a a0) as [<-|Hd].
      * right. left. eexists. cbn [packets_from]. rewrite P, N.eqb_refl. split; [reflexivity|]. split; [exact NC'|]. split; [exact M|]. left. reflexivity.
      * apply K; fields; [cbn; rewrite (proj2 (N.eqb_neq _ _) Hd); reflexivity|exact M|congruence].
    + apply K; fields; [reflexivity| |exact Q]. rewrite get_remove_other; [exact M|apply N.eqb_eq|congruence].
    + apply K; fields; [reflexivity|apply MI; exact Q|exact Logic.I].
    + apply K; fields; [reflexivity|apply MI; intros ->; exact (Hne _ eq_refl)|exact Q].
    + destruct (drop_all_other (l_queue x) (set_lst s l (mkL (l_cap x) [] false))) as (_ & E1 & _ & E2 & _). fields.
      apply K; [reflexivity|rewrite E1; exact M|rewrite E2; exact Q].
  - (* one datagram *)
    assert (MI : forall b c, b <> a -> map_get N.eqb a (map_insert N.eqb b c (u_receivers s)) = None).
    { intros b c Hb. rewrite get_insert_other; [exact M|apply N.eqb_eq|congruence]. }
    assert (K : nochan s' -> packets_from a (u_count s) [(e, o)] = [] -> map_get N.eqb a (u_receivers s') = None ->
      u_task s' = Arrived p a \/ u_task s' = NewConn p a ->
      contact_of (packets_from a 0 tr ++ packets_from a (u_count s) [(e, o)]) s').
    { intros E0 E1 E2 E3. right. left. exists p. rewrite P, E1. repeat split; assumption. }
    assert (NS : forall c, is_chan s' c a -> c = length (u_chans s) /\ (exists q, u_task s = NewConn q a) ).
    { intros c H. destruct (B c H) as [H'|[-> [[-> ->]|H']]]; [exfalso; exact (NC _ H')|exfalso; exact (Hne _ eq_refl)|split; [reflexivity|exact H']]. }
    destruct S; try (destruct T as [T|T]; congruence);
      try (apply K; fields; [exact NC|reflexivity|exact M|exact T]; fail).
    + (* not found *) destruct T as [T|T]; [|congruence]. rewrite T in H. injection H as <- <-. apply K; fields; [exact NC|reflexivity|exact M|right; reflexivity].
    + (* no listener *) exfalso. apply NT. destruct T as [T|T]; [congruence|]. split; [exists p; exact T|]. intros l x L. congruence.
    + (* queued *)
      destruct T as [T|T]; [congruence|]. rewrite T in H. injection H as <- <-.
      right. right. exists (length (u_chans s)). eexists. fields. split; [apply nth_app_last|]. split; [reflexivity|].
      split; [intros c Hc; apply (NS c Hc)|]. split; [reflexivity|]. split; [reflexivity|]. right. right. left. exists p. rewrite P. repeat split. exact M.
    + (* full *) exfalso. apply NT. destruct T as [T|T]; [congruence|]. split; [exists p; exact T|]. intros l' x' L X. right. replace x' with x by congruence. assumption.
    + (* not listening *) exfalso. apply NT. destruct T as [T|T]; [congruence|]. split; [exists p; exact T|]. intros l' x' L X. left. congruence.
    + (* connect *)
      assert (Ha : a0 <> a) by (intros ->; exact (Hne _ eq_refl)).
      apply K; fields; [|reflexivity|apply MI; exact Ha|exact T]. intros c H'. destruct (B c H') as [H''|[-> [[E _]|_]]]; [exact (NC _ H'')|congruence|].
      destruct H' as (ch' & Hc' & Ad'). fields. rewrite nth_app_last in Hc'. injection Hc' as <-. cbn in Ad'. congruence.
    + (* recv *) apply K; fields; [|reflexivity|exact M|exact T]. intros k H'. destruct (B k H') as [H''|[-> [[E _]|_]]]; [exact (NC _ H'')|discriminate E|].
      destruct H' as (ch0 & Hc' & _). apply nth_lt in Hc'. fields. rewrite set_nth_length in Hc'. lia.
    + apply K; fields; [|reflexivity|exact M|exact T]. intros k H'. destruct (B k H') as [H''|[-> [[E _]|_]]]; [exact (NC _ H'')|discriminate E|].
      destruct H' as (ch0 & Hc' & _). apply nth_lt in Hc'. fields. rewrite set_nth_length in Hc'. lia.
    + destruct (drop_all_other (l_queue x) (set_lst s l (mkL (l_cap x) [] false))) as (_ & E1 & _ & E2 & _ & _ & E3). fields.
      apply K; [|reflexivity|rewrite E1; exact M|rewrite E2; exact T].
      intros k H'. destruct (NS k H') as [-> _]. destruct H' as (ch0 & Hc' & _). apply nth_lt in Hc'. lia.
  - (* in contact *)
    assert (Hl := nth_lt _ _ _ Hc). assert (IC : is_chan s c a) by (exists ch; split; assumption).
    assert (NN : ~ (exists p, u_task s = NewConn p a)).
    { intros [p E]. unfold quiet in J. rewrite E in J. destruct J as [[J _]|[(q & [J|J] & _)|[(q & J & _)|[J _]]]]; try congruence. }
    assert (U' : forall c', is_chan s' c' a -> c' = c) by (intros c' H; exact (U _ (BN NN _ H))).
    assert (MI : forall b k, b <> a -> map_get N.eqb a (map_insert N.eqb b k (u_receivers s)) = map_get N.eqb a (u_receivers s)).
    { intros b k Hb. apply get_insert_other; [apply N.eqb_eq|congruence]. }
    assert (K : forall ch', nth_error (u_chans s') c = Some ch' -> c_addr ch' = c_addr ch -> c_rx ch' = c_rx ch -> c_cap ch' = c_cap ch -> c_sent ch' = c_sent ch ->
      packets_from a (u_count s) [(e, o)] = [] -> map_get N.eqb a (u_receivers s') = map_get N.eqb a (u_receivers s) -> u_task s' = u_task s ->
      contact_of (packets_from a 0 tr ++ packets_from a (u_count s) [(e, o)]) s').
    { intros ch' E0 E1 E2 E3 E4 E5 E6 E7. right. right. exists c, ch'. rewrite E1, E2, E3, E4, E5, E6, E7, app_nil_r. unfold quiet. rewrite E7. repeat split; assumption. }
    assert (KQ : packets_from a (u_count s) [(e, o)] = [] -> forall ch', nth_error (u_chans s') c = Some ch' -> c_addr ch' = c_addr ch -> c_rx ch' = c_rx ch -> c_cap ch' = c_cap ch -> 
      map_get N.eqb a (u_receivers s') = Some c -> quiet s' a -> c_sent ch' = packets_from a 0 tr ->
      contact_of (packets_from a 0 tr ++ packets_from a (u_count s) [(e, o)]) s').
    { intros E0 ch' E1 E2 E3 E4 E5 E6 E7. right. right. exists c, ch'. rewrite E0, app_nil_r. split; [exact E1|]. split; [congruence|]. split; [exact U'|].
      split; [congruence|]. split; [congruence|]. left. repeat split; assumption. }
    destruct S; try (apply (K ch); fields; try reflexivity; exact Hc).
    + (* packet *)
      destruct J as [(Q & M & E)|[(q & [T|T] & _)|[(q & T & _)|(T & _)]]]; try congruence.
      destruct (N.eqb_spec a a0) as [<-|Hd].
      * right. right. exists c, ch. fields. split; [exact Hc|]. split; [exact Ad|]. split; [exact U'|]. split; [exact Rx|]. split; [exact Cap|].
        right. left. eexists. split; [left; reflexivity|]. split; [exact M|]. cbn [packets_from]. rewrite N.eqb_refl, E. reflexivity.
      * apply (KQ ltac:(cbn; rewrite (proj2 (N.eqb_neq _ _) Hd); reflexivity) ch); fields; try assumption; try reflexivity. unfold quiet. fields. congruence.
    + (* error *)
      destruct J as [(Q & M & E)|[(q & [T|T] & _)|[(q & T & _)|(T & _)]]]; try congruence.
      apply (KQ eq_refl ch); fields; try assumption; try reflexivity; exact Logic.I.
    + (* found *)
      destruct J as [(Q & M & E)|[(q & [T|T] & M & E)|[(q & T & _)|(T & _)]]]; try congruence.
      * unfold quiet in Q. rewrite H in Q. apply (KQ eq_refl ch); fields; try assumption; reflexivity.
      * rewrite T in H. injection H as <- <-. rewrite M in H0. injection H0 as <-.
        right. right. exists c, ch. fields. cbn [packets_from]. rewrite app_nil_r. repeat (split; [assumption|]). right. left. exists q. split; [right; reflexivity|]. split; assumption.
    + (* not found *)
      destruct J as [(Q & M & E)|[(q & [T|T] & M & E)|[(q & T & _)|(T & _)]]]; try congruence.
      unfold quiet in Q. rewrite H in Q. apply (KQ eq_refl ch); fields; try assumption; reflexivity.
    + (* deliver *)
      destruct J as [(Q & M & E)|[(q & [T|T] & M & E)|[(q & T & _)|(T & _)]]]; try congruence.
      * unfold quiet in Q. rewrite H in Q. assert (c0 <> c). { intros ->. pose proof (i_task _ _ I) as IT. rewrite H in IT. destruct IT as (_ & ch1 & H3 & H4). congruence. }
        apply (KQ eq_refl ch); fields; try assumption; try reflexivity; try exact Logic.I. rewrite set_nth_other by congruence; exact Hc.
      * rewrite T in H. injection H as <- <- <-. rewrite Hc in H0. injection H0 as <-.
        eapply (KQ eq_refl); fields; [rewrite set_nth_same by exact Hl; reflexivity|..]; cbn; try reflexivity; try assumption.
    + (* fail *)
      destruct J as [(Q & M & E)|[(q & [T|T] & M & E)|[(q & T & _)|(T & _)]]]; try congruence.
      unfold quiet in Q. rewrite H in Q. apply (KQ eq_refl ch); fields; try assumption; reflexivity.
    + (* remove *)
      destruct J as [(Q & M & E)|[(q & [T|T] & M & E)|[(q & T & _)|(T & _)]]]; try congruence.
      unfold quiet in Q. rewrite H in Q. apply (KQ eq_refl ch); fields; try assumption; try reflexivity. rewrite get_remove_other; [exact M|apply N.eqb_eq|congruence].
    + destruct J as [(Q & M & E)|[(q & [T|T] & M & E)|[(q & T & _)|(T & _)]]]; try congruence.
      apply (KQ eq_refl ch); fields; try assumption; reflexivity || exact Logic.I.
    + (* queue *)
      destruct J as [(Q & M & E)|[(q & [T|T] & M & E)|[(q & T & _)|(T & _)]]]; try congruence.
      unfold quiet in Q. rewrite H in Q. apply (KQ eq_refl ch); fields; try assumption; try reflexivity. apply nth_app_old. exact Hc.
    + destruct J as [(Q & M & E)|[(q & [T|T] & M & E)|[(q & T & _)|(T & _)]]]; try congruence.
      apply (KQ eq_refl ch); fields; try assumption; reflexivity || exact Logic.I.
    + destruct J as [(Q & M & E)|[(q & [T|T] & M & E)|[(q & T & _)|(T & _)]]]; try congruence.
      apply (KQ eq_refl ch); fields; try assumption; reflexivity || exact Logic.I.
    + (* first *)
      destruct J as [(Q & M & E)|[(q & [T|T] & M & E)|[(q & T & M & E & EP)|(T & _)]]]; try congruence.
      * unfold quiet in Q. rewrite H in Q. assert (c0 <> c). { intros ->. pose proof (i_task _ _ I) as IT. rewrite H in IT. destruct IT as (_ & ch1 & H3 & H4). congruence. }
        apply (KQ eq_refl ch); fields; try assumption; try reflexivity. rewrite set_nth_other by congruence; exact Hc.
      * rewrite T in H. injection H as <- <- <-. rewrite Hc in H0. injection H0 as <-.
        right. right. exists c. eexists. fields. rewrite set_nth_same by exact Hl. split; [reflexivity|]. cbn. rewrite app_nil_r. repeat (split; [assumption|]).
        right. right. right. rewrite E, EP. repeat split. exact M.
    + (* no first *)
      destruct J as [(Q & M & E)|[(q & [T|T] & M & E)|[(q & T & M & E & EP)|(T & _)]]]; try congruence.
      unfold quiet in Q. rewrite H in Q. apply (KQ eq_refl ch); fields; try assumption; reflexivity.
    + (* register *)
      destruct J as [(Q & M & E)|[(q & [T|T] & M & E)|[(q & T & M & E & EP)|(T & M & E)]]]; try congruence.
      * unfold quiet in Q. rewrite H in Q. apply (KQ eq_refl ch); fields; try assumption; try reflexivity; try exact Logic.I. rewrite MI by exact Q; exact M.
      * rewrite T in H. injection H as <- <-. apply (KQ eq_refl ch); fields; try assumption; try reflexivity; try exact Logic.I. apply get_insert_same; apply N.eqb_eq.
    + (* connect *)
      apply (K ch); fields; try reflexivity; [apply nth_app_old; exact Hc|]. apply MI. intros ->. exact (Hne _ eq_refl).
    + (* recv *)
      destruct (Nat.eq_dec c c0) as [<-|Hd].
      * rewrite Hc in H. injection H as <-. destruct (i_chan _ _ I _ _ Hc) as (_ & _ & _ & D & _).
        destruct (recv_cases _ _ _ _ H2 D) as (E1 & E2 & E3 & E4 & _). apply (K ch'); fields; try assumption; try reflexivity. apply set_nth_same. exact Hl.
      * apply (K ch); fields; try reflexivity. rewrite set_nth_other by exact Hd. exact Hc.
    + (* drop receiver *)
      apply (K ch); fields; try reflexivity. rewrite set_nth_other; [exact Hc|]. intros ->. exact (Hnd _ eq_refl IC).
    + (* drop listener *)
      destruct (drop_all_other (l_queue x) (set_lst s l (mkL (l_cap x) [] false))) as (_ & E1 & _ & E2 & _). fields.
      apply (K ch); try reflexivity; [|rewrite E1; reflexivity|exact E2].
      rewrite (drop_all_chan (l_queue x) (set_lst s l (mkL (l_cap x) [] false)) c ch Hc).
      destruct (existsb (fun e => fst e =? c) (l_queue x)) eqn:EX; [exfalso|reflexivity].
      apply existsb_queue in EX as (b & EX). apply NT. exists x, c. split; [exact H|].
      destruct (i_queue _ _ I c b (queue_listed _ _ _ _ _ H EX)) as (ch1 & H3 & H4). congruence.
Qed.

Lemma contact_always tr s : history tr s ->
  (forall c', ~ In (EConnect a, OConnected c') tr) ->
  (forall c o, In (EDropReceiver c, o) tr -> ~ is_chan s c a) ->
  welcome a tr -> contact tr s.
Proof.
  induction 1 as [|tr s e s' o H IH ST]; intros NC ND NT.
  - left. repeat split. intros c (ch & Hc & _). destruct c; discriminate Hc.
  - assert (I := inv_history _ _ H). apply step_inv in ST. assert (G := inv_grows _ _ _ _ _ I ST).
    eapply contact_step; try eassumption.
    + symmetry. apply (i_count _ _ I).
    + intros c' E. apply (NC c'). apply in_or_app. right. left. exact E.
    + intros c E HC. apply (ND c o); [apply in_or_app; right; left; congruence|]. eapply is_chan_grows; eassumption.
    + exact (NT tr e o [] s eq_refl H).
    + apply IH.
      * intros c' HI. apply (NC c'). apply in_or_app. left. exact HI.
      * intros c o' HI HC. apply (ND c o'); [apply in_or_app; left; exact HI|]. eapply is_chan_grows; eassumption.
      * intros t1 e1 o1 t2 u E. apply (NT t1 e1 o1 (t2 ++ [(e, o)])). rewrite E, <- app_assoc. reflexivity.
Qed.

(** A connection a listener accepted is owed everything from its peer, if nothing was turned away. *)
Lemma first_contact tr s l c :
  history tr s -> In (EAccept l, OAccepted c a) tr ->
  (forall c', ~ In (EConnect a, OConnected c') tr) ->
  (forall c o, In (EDropReceiver c, o) tr -> ~ is_chan s c a) ->
  welcome a tr ->
  exists done pending rest,
    packets_from a 0 tr = done ++ pending /\ length pending <= 1 /\ (quiet s a -> pending = []) /\
    reads done (received c tr) rest /\ exists s', step s (ERecv c) = Some (s', due 32 (negb (shared s)) rest).
Proof.
  intros H Hi NC ND NT. assert (I := inv_history _ _ H). assert (J := contact_always _ _ H NC ND NT).
  assert (IC := i_opened _ _ I _ _ (accepted_in _ _ _ _ Hi)).
  destruct J as [(_ & N & _)|[(p & _ & N & _)|(k & ch & Hc & Ad & U & Rx & Cap & J)]]; [destruct (N _ IC)|destruct (N _ IC)|].
  assert (c = k) by (exact (U _ IC)). subst k.
  assert (Q : forall b, ~ In (c, b) (queued s)).
  { intros b Hb. assert (N := i_ids _ _ I). rewrite map_app in N. apply (nodup_apart _ _ c N); eapply in_fst; [eapply accepted_in; exact Hi|exact Hb]. }
  assert (HS : has_sender s c = shared s).
  { rewrite has_sender_held. destruct J as [(_ & M & _)|[(p & _ & M & _)|[(p & T & _)|(T & _)]]].
    1,2: assert (EX : existsb (fun e => snd e =? c) (u_receivers s) = true) by (apply existsb_receiver; exists a; apply map_get_in; exact M);
      rewrite EX, andb_true_r; destruct (shared s) eqn:Sh; [reflexivity|];
      unfold shared in Sh; apply orb_false_iff in Sh as [_ Sh]; destruct (u_task s); discriminate || reflexivity.
    1,2: unfold shared; rewrite T; cbn [held]; rewrite Nat.eqb_refl, !orb_true_r; reflexivity. }
  destruct (i_chan _ _ I _ _ Hc) as (_ & _ & Rd & D & _).
  assert (NX : exists s', step s (ERecv c) = Some (s', due 32 (negb (shared s)) (skipn (c_next ch) (c_sent ch)))).
  { cbn [step]. rewrite Hc, Rx, (waiting_not _ _ Q). cbn [andb negb].
    destruct (chan_recv (negb (has_sender s c)) ch) as [ch' o] eqn:K.
    destruct (recv_cases _ _ _ _ K D) as (_ & _ & _ & _ & _ & -> & _). exists (set_chan s c ch'). rewrite Cap, HS. reflexivity. }
  destruct J as [(_ & _ & E)|[(p & T & _ & E)|[(p & T & _ & E & EP)|(T & _ & E)]]].
  - exists (c_sent ch), [], (skipn (c_next ch) (c_sent ch)). rewrite app_nil_r, E. rewrite <- E. repeat split; try assumption. cbn. lia.
  - exists (c_sent ch), [p], (skipn (c_next ch) (c_sent ch)). repeat split; try assumption; [symmetry; exact E|cbn; lia|].
    unfold quiet. destruct T as [T|T]; rewrite T; congruence.
  - exists (c_sent ch), [p], (skipn (c_next ch) (c_sent ch)). repeat split; try assumption; [rewrite E; exact EP|cbn; lia|].
    unfold quiet. rewrite T. congruence.
  - exists (c_sent ch), [], (skipn (c_next ch) (c_sent ch)). rewrite app_nil_r. repeat split; try assumption; [symmetry; exact E|cbn; lia].
Qed.

(** As long as nothing came from [a] the task has nothing to do with it, and no connection with it is accepted. *)
Lemma nothing_yet tr s : history tr s -> packets_from a 0 tr = [] -> quiet s a.
Proof.
  induction 1 as [|tr s e s' o H IH ST]; intros P; [exact Logic.I|].
  rewrite packets_from_app in P. apply app_eq_nil in P. destruct P as [P P']. specialize (IH P). apply step_inv in ST.
  unfold quiet in *. destruct ST; fields; try exact IH; try exact Logic.I; try (rewrite H0 in IH; exact IH).
  - cbn in P'. destruct (N.eqb_spec a a0) as [|Hd]; [discriminate P'|congruence].
  - destruct (drop_all_other (l_queue x) (set_lst s l (mkL (l_cap x) [] false))) as (_ & _ & _ & E2 & _). fields. rewrite E2. exact IH.
Qed.
Lemma none_accepted tr s l c : history tr s -> packets_from a 0 tr = [] -> ~ In (EAccept l, OAccepted c a) tr.
Proof.
  induction 1 as [|tr s e s' o H IH ST]; intros P HI; [exact HI|].
  rewrite packets_from_app in P. apply app_eq_nil in P. destruct P as [P _].
  apply in_app_or in HI. destruct HI as [HI|[[= -> ->]|[]]]; [exact (IH P HI)|]. apply step_inv in ST. inversion ST; subst.
  2:{ match goal with K : _ \/ _ |- _ => destruct K; discriminate end. }
  assert (HQ : In (c, a) (queued s)).
  { eapply queue_listed; [eassumption|]. match goal with K : l_queue _ = _ |- _ => rewrite K end. left. reflexivity. }
  destruct (queued_first _ _ H _ _ HQ) as (p & _ & A). unfold arrived in A. apply nth_error_In in A.
  clear -A P. revert P A. generalize 0. induction tr as [|[e o] tr IH]; intros n P A; [exact A|].
  destruct e; cbn in P, A; try (exact (IH _ P A)). destruct (N.eqb_spec a a0) as [|Hd]; [discriminate P|].
  destruct A as [A|A]; [congruence|exact (IH _ P A)].
Qed.

(** Checking [welcome] by running: for examples. *)
Definition turned_awayb (u : udp) (e : event) : bool :=
  match e with
  | ETask => match u_task u with
             | NewConn _ b => N.eqb b a && match u_listener u with
                                           | Some l => match nth_error (u_lsts u) l with
                                                       | Some x => negb (l_rx x) || (l_cap x <=? length (l_queue x))
                                                       | None => true
                                                       end
                                           | None => true
                                           end
             | _ => false
             end
  | EDropListener l => match nth_error (u_lsts u) l with Some x => existsb (fun p => N.eqb (snd p) a) (l_queue x) | None => false end
  | _ => false
  end.
Fixpoint welcomeb (u : udp) (tr : list (event * obs)) : bool :=
  match tr with
  | [] => true
  | (e, _) :: tr' => negb (turned_awayb u e) && match step u e with Some (u', _) => welcomeb u' tr' | None => true end
  end.
Lemma turned_away_b u e : turned_away u e a -> turned_awayb u e = true.
Proof.
  destruct e; cbn; try contradiction.
  - intros [[p ->] L]. rewrite N.eqb_refl. cbn. destruct (u_listener u) as [l|]; [|reflexivity]. destruct (nth_error (u_lsts u) l) as [x|] eqn:E; [|reflexivity].
    destruct (L _ _ eq_refl E) as [->|K]; [reflexivity|]. apply Nat.leb_le in K. rewrite K. apply orb_true_r.
  - intros (x & c & -> & I). apply existsb_exists. exists (c, a). split; [exact I|apply N.eqb_refl].
Qed.
Lemma welcome_run tr : welcomeb udp_init tr = true -> welcome a tr.
Proof.
  intros W t1 e o t2 u E H TA. subst tr.
  assert (K : welcomeb u ((e, o) :: t2) = true).
  { revert W. generalize ((e, o) :: t2) as t. clear TA. induction H as [|tr s e0 s' o0 H IH ST]; intros t W; [exact W|].
    rewrite <- app_assoc in W. specialize (IH _ W). cbn in IH. rewrite ST in IH. apply andb_true_iff in IH. apply IH. }
  cbn in K. rewrite (turned_away_b _ _ TA) in K. discriminate K.
Qed.
End Contact.
