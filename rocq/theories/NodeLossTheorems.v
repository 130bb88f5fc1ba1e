(** An endpoint over UDP: nothing is lost without a report. *)
From Coq Require Import List NArith Bool PeanoNat Lia.
From Verif Require Import BytesModel MapModel RuntimeModel RuntimeSpec RuntimeProofs RuntimeTheorems NodeModel NodeSpec
  NodeProofs NodeTheorems.
From Verif Require UdpModel UdpSpec UdpProofs UdpInv UdpTheorems.
Import ListNotations.
Open Scope nat_scope.

Lemma reads_no_lag q os rest : UdpSpec.reads q os rest -> (forall k, ~ In (UdpModel.OLagged k) os) -> q = UdpSpec.data_of os ++ rest.
Proof.
  induction 1 as [q|p q os r H IH|sk q os r H IH|q os r H IH|q os r H IH]; intros L; cbn; try reflexivity.
  - f_equal. apply IH. intros k I. apply (L k). right. exact I.
  - exfalso. apply (L (length sk)). left. reflexivity.
  - apply IH. intros k I. apply (L k). right. exact I.
  - apply IH. intros k I. apply (L k). right. exact I.
Qed.
Lemma packets_from_data a tr : forall n, map UdpModel.p_data (UdpSpec.packets_from a n tr) = from_peer a (UdpSpec.arrivals tr).
Proof.
  induction tr as [|[e o] tr IH]; intros n; [reflexivity|]. destruct e; cbn; try apply IH.
  unfold from_peer in *. cbn. rewrite N.eqb_sym. destruct (N.eqb a0 a); cbn; rewrite IH; reflexivity.
Qed.
Lemma from_none c its : (forall it, In it its -> it_conn it <> c) -> from_conn c its = [].
Proof.
  induction its as [|it its IH]; intros H; [reflexivity|]. cbn. destruct (Nat.eqb_spec (it_conn it) c) as [E|E].
  - exfalso. exact (H it (or_introl eq_refl) E).
  - apply IH. intros x X. apply H. right. exact X.
Qed.

Section Locks.
Context (bk : iid -> N) (cbk : N -> N).
Local Notation step := (step bk cbk).
Local Notation steps := (steps bk cbk).
Local Notation history := (history bk cbk true).
Local Notation node_step := (node_step bk cbk).
Local Notation nhistory := (nhistory bk cbk).

Lemma runtime_app t1 t2 : runtime_trace (t1 ++ t2) = runtime_trace t1 ++ runtime_trace t2.
Proof. apply flat_map_app. Qed.
Lemma socket_app t1 t2 : socket_trace (t1 ++ t2) = socket_trace t1 ++ socket_trace t2.
Proof. apply flat_map_app. Qed.

Lemma nsplit tr s : nhistory tr s -> forall t1 t2, tr = t1 ++ t2 -> exists s1, nhistory t1 s1 /\ steps (n_rt s1) (runtime_trace t2) (n_rt s) /\
  exists more, n_chan s = n_chan s1 ++ more.
Proof.
  induction 1 as [|tr s e s' x H IH ST]; intros t1 t2 E.
  - symmetry in E. apply app_eq_nil in E. destruct E as [-> ->]. exists node_init. repeat constructor. exists []. reflexivity.
  - destruct t2 as [|y t2 _] using rev_ind.
    + rewrite app_nil_r in E. subst t1. exists s'. split; [econstructor; eassumption|]. split; [constructor|]. exists []. rewrite app_nil_r. reflexivity.
    + rewrite app_assoc in E. apply app_inj_tail in E. destruct E as [E <-]. destruct (IH _ _ E) as (s1 & H1 & S1 & more & M).
      exists s1. split; [exact H1|]. apply node_step_inv in ST. split.
      * rewrite runtime_snoc. pose proof (stepped_runtime _ _ _ _ _ ST) as R. destruct (e_rt x) as [[ev o]|].
        -- eapply steps_snoc; eassumption.
        -- rewrite app_nil_r, R. exact S1.
      * destruct ST; cbn [n_chan] in *; rewrite ?M, <- ?app_assoc; eauto.
Qed.

(** A lag of the socket is a lag reported to the connection. *)
Lemma lags tr s : nhistory tr s -> forall c ch k, nth_error (n_chan s) c = Some ch ->
  In (UdpModel.ERecv ch, UdpModel.OLagged k) (socket_trace tr) -> exists o, In (ELagged c, o) (runtime_trace tr).
Proof.
  induction 1 as [|tr s e s' x H IH ST]; intros c ch k C I; [contradiction|].
  pose proof (n_more _ _ _ _ _ _ _ H ST) as H'. pose proof (chans_distinct _ _ _ _ H') as D. apply node_step_inv in ST.
  rewrite runtime_snoc. rewrite socket_snoc in I. apply in_app_or in I.
  assert (OLD : In (UdpModel.ERecv ch, UdpModel.OLagged k) (socket_trace tr) -> In ch (n_chan s)).
  { intros J. clear -H J.
    induction H as [|tr s e s' x H IH ST]; [contradiction|]. apply node_step_inv in ST. rewrite socket_snoc in J. apply in_app_or in J.
    assert (M : In ch (n_chan s) -> In ch (n_chan s')) by (destruct ST; cbn; intros; try assumption; apply in_or_app; left; assumption).
    destruct J as [J|J]; [auto|]. destruct ST; cbn in *; try contradiction; destruct J as [J|[]]; try discriminate J.
    - injection J as -> ->. discriminate.
    - injection J as -> ->. eapply nth_error_In; eassumption. }
  destruct I as [I|I].
  - assert (G : nth_error (n_chan s) c = Some ch).
    { specialize (OLD I). apply In_nth_error in OLD. destruct OLD as [d OD].
      assert (G : nth_error (n_chan s') d = Some ch) by (destruct ST; cbn; try exact OD; apply nth_snoc_old; exact OD).
      assert (c = d). { apply (proj1 (NoDup_nth_error (n_chan s')) D); [apply nth_lt in C; exact C|congruence]. } congruence. }
    destruct (IH _ _ _ G I) as [o O]. exists o. apply in_or_app. left. exact O.
  - destruct ST; cbn in *; try contradiction; destruct I as [I|[]]; try discriminate I.
    + injection I as -> ->. discriminate.
    + injection I as -> ->. exists o. apply in_or_app. right. left.
      assert (c0 = c) by (apply (proj1 (NoDup_nth_error (n_chan s)) D); [eapply nth_lt; eassumption|congruence]).
      subst c0. reflexivity.
Qed.

(** The receiving half of a connection that runs has not been dropped. *)
Lemma ended_later s e o s' c : step s e = Some (s', o) -> conn_runs s' c -> c < length (r_conns s) -> conn_runs s c.
Proof.
  intros ST (x' & X' & A) L. destruct (nth_error (r_conns s) c) as [x|] eqn:X; [|apply nth_error_None in X; lia].
  exists x. split; [exact X|]. apply step_view in ST.
  change (v_alive (vc x) = true). eapply alive_back; [exact ST|apply nth_vc; exact X|apply nth_vc; exact X'|exact A].
Qed.
Lemma undropped tr s : nhistory tr s -> forall c ch, nth_error (n_chan s) c = Some ch -> conn_runs (n_rt s) c ->
  forall o, ~ In (UdpModel.EDropReceiver ch, o) (socket_trace tr).
Proof.
  induction 1 as [|tr s e s' x H IH ST]; intros c ch C A o I; [contradiction|].
  pose proof (n_more _ _ _ _ _ _ _ H ST) as H'. pose proof (chans_distinct _ _ _ _ H') as D. apply node_step_inv in ST.
  destruct (opens _ _ _ _ H) as [L _]. rewrite socket_snoc in I. apply in_app_or in I.
  assert (OLD : In (UdpModel.EDropReceiver ch, o) (socket_trace tr) -> In ch (n_chan s)).
  { intros J. clear -H J.
    induction H as [|tr s e s' x H IH ST]; [contradiction|]. apply node_step_inv in ST. rewrite socket_snoc in J. apply in_app_or in J.
    assert (M : In ch (n_chan s) -> In ch (n_chan s')) by (destruct ST; cbn; intros; try assumption; apply in_or_app; left; assumption).
    destruct J as [J|J]; [auto|]. destruct ST; cbn in *; try contradiction; destruct J as [J|[]]; try discriminate J.
    injection J as -> ->. destruct (H2 _ eq_refl) as (c & x & C & _). eapply nth_error_In; eassumption. }
  assert (BACK : nth_error (n_chan s) c = Some ch -> conn_runs (n_rt s) c).
  { intros G. pose proof (stepped_runtime _ _ _ _ _ ST) as R. destruct (e_rt x) as [[ev q]|].
    - eapply ended_later; [exact R|exact A|]. apply nth_lt in G. lia.
    - rewrite <- R. exact A. }
  destruct I as [I|I].
  - specialize (OLD I). apply In_nth_error in OLD. destruct OLD as [d OD].
    assert (G : nth_error (n_chan s') d = Some ch) by (destruct ST; cbn; try exact OD; apply nth_snoc_old; exact OD).
    assert (c = d). { apply (proj1 (NoDup_nth_error (n_chan s')) D); [apply nth_lt in C; exact C|congruence]. } subst d.
    exact (IH _ _ OD (BACK OD) _ I).
  - destruct ST; cbn in *; try contradiction; destruct I as [I|[]]; try discriminate I.
    injection I as -> ->. destruct (H2 _ eq_refl) as (d & y & C' & Y & AL).
    assert (d = c) by (apply (proj1 (NoDup_nth_error (n_chan s)) D); [apply nth_lt in C'; exact C'|congruence]). subst d.
    destruct (BACK C) as (z & Z & AZ). congruence.
Qed.

(** What has been read of a connection, and what it is owed. *)
Lemma taken_and_rest tr s c ch done rest : nhistory tr s -> nth_error (n_chan s) c = Some ch -> (forall o, ~ In (ELagged c, o) (runtime_trace tr)) ->
  UdpSpec.reads done (UdpSpec.received ch (socket_trace tr)) rest ->
  map UdpModel.p_data done = packets_on c (runtime_trace tr) ++ map UdpModel.p_data rest.
Proof.
  intros H C NL R. apply reads_no_lag in R.
  - rewrite R, map_app. f_equal. destruct (reading _ _ _ _ H) as (_ & _ & I3). symmetry. apply I3. exact C.
  - intros k I. assert (J : In (UdpModel.ERecv ch, UdpModel.OLagged k) (socket_trace tr)).
    { clear -I. induction (socket_trace tr) as [|[f q] l IH]; [contradiction|]. cbn in I. destruct f; try (right; apply IH; exact I).
      destruct (Nat.eqb_spec c ch) as [->|]; [|right; apply IH; exact I]. destruct I as [->|I]; [left; reflexivity|right; apply IH; exact I]. }
    destruct (lags _ _ H _ _ _ C J) as [o O]. exact (NL _ O).
Qed.

Lemma reads_own tr s : nhistory tr s -> forall ch, ~ In ch (n_chan s) -> UdpSpec.received ch (socket_trace tr) = [].
Proof.
  induction 1 as [|tr s e s' x H IH ST]; intros ch N; [reflexivity|]. apply node_step_inv in ST. rewrite socket_snoc.
  assert (M : ~ In ch (n_chan s)).
  { intros I. apply N. destruct ST; cbn; try exact I; apply in_or_app; left; exact I. }
  destruct (e_udp x) as [[f q]|] eqn:E; [|rewrite app_nil_r; auto].
  rewrite received_snoc, IH by exact M. destruct f; try reflexivity. destruct (Nat.eqb_spec c ch) as [->|]; [|reflexivity].
  exfalso. destruct ST; cbn in E; try discriminate E; injection E as E1 E2; subst; try discriminate; apply M; eapply nth_error_In; eassumption.
Qed.

Lemma due_read tr s c ch k rest u' : nhistory tr s -> nth_error (n_chan s) c = Some ch -> conn_runs (n_rt s) c ->
  UdpModel.step (n_udp s) (UdpModel.ERecv ch) = Some (u', UdpSpec.due k (negb (UdpModel.shared (n_udp s))) rest) ->
  waiting (n_rt s) c = [] ->
  match map UdpModel.p_data rest with
  | [] => forall s' x, node_step s (NRecv c) = Some (s', x) -> e_rt x = Some (EEnd c, OUnit)
  | d :: _ => exists s' x, node_step s (NRecv c) = Some (s', x) /\
              e_rt x = Some (if k <? length (map UdpModel.p_data rest) then ELagged c else EPacket c d, OUnit)
  end.
Proof.
  intros H C (y & Y & A) ST W. cbn [NodeModel.node_step]. rewrite C, ST. unfold UdpSpec.due. rewrite map_length.
  assert (R : c_recv y = RWait []). { unfold waiting in W. rewrite Y in W. destruct (c_recv y); [congruence|discriminate]. }
  destruct rest as [|p rest]; cbn [map].
  - cbn [length]. assert (E : (k <? 0) = false) by (destruct k; reflexivity). rewrite E. intros s' x. clear E.
    destruct (negb (UdpModel.shared (n_udp s))); [|discriminate]. unfold answer, pair_step. cbn. rewrite Y, A, R.
    intros E. injection E as <- <-. reflexivity.
  - destruct (k <? length (p :: rest)); unfold answer, pair_step; cbn; rewrite Y, A, R.
    + eexists. eexists. split; reflexivity.
    + destruct (decode (UdpModel.p_data p)); eexists; eexists; split; reflexivity.
Qed.

(** The split of a history of the socket, seen from the endpoint. *)
Lemma socket_split tr : forall t1 p t2, socket_trace tr = t1 ++ p :: t2 ->
  exists n1 y n2, tr = n1 ++ y :: n2 /\ e_udp y = Some p /\ socket_trace n1 = t1 /\ socket_trace n2 = t2.
Proof.
  induction tr as [|x tr IH]; intros t1 p t2 E.
  - destruct t1; discriminate E.
  - unfold socket_trace in E. cbn [flat_map] in E. fold (socket_trace tr) in E. destruct (e_udp x) as [q|] eqn:X.
    + destruct t1 as [|q' t1]; cbn in E; injection E as -> E.
      * exists [], x, tr. auto.
      * destruct (IH _ _ _ E) as (n1 & y & n2 & -> & Y & <- & <-). exists (x :: n1), y, n2. split; [reflexivity|]. split; [exact Y|].
        split; [|reflexivity]. unfold socket_trace. cbn [flat_map]. rewrite X. reflexivity.
    + cbn in E. destruct (IH _ _ _ E) as (n1 & y & n2 & -> & Y & <- & <-). exists (x :: n1), y, n2. split; [reflexivity|]. split; [exact Y|].
      split; [|reflexivity]. unfold socket_trace. cbn [flat_map]. rewrite X. reflexivity.
Qed.
Lemma in_later {A B} (f : A -> list B) l y : In y (flat_map f l) -> exists l1 x l2, l = l1 ++ x :: l2 /\ In y (f x).
Proof. rewrite in_flat_map. intros (x & I & J). apply in_split in I. destruct I as (l1 & l2 & ->). eauto 6. Qed.

(** Connecting in the socket is opening a connection in the runtime. *)
Lemma connect_opens tr s : nhistory tr s -> forall l1 x l2 a ch, tr = l1 ++ x :: l2 ->
  e_udp x = Some (UdpModel.EConnect a, UdpModel.OConnected ch) -> exists e c, e_rt x = Some (e, OSpawned c a) /\ internal e = true.
Proof.
  induction 1 as [|tr s e s' y H IH ST]; intros l1 x l2 a ch E X.
  - destruct l1; discriminate E.
  - destruct l2 as [|z l2 _] using rev_ind.
    + apply app_inj_tail in E. destruct E as [_ ->]. apply node_step_inv in ST. destruct ST; cbn in X; try discriminate X; injection X as X1 X2; subst; try discriminate.
      cbn. eauto.
    + change (x :: l2 ++ [z]) with ((x :: l2) ++ [z]) in E. rewrite app_assoc in E. apply app_inj_tail in E. destruct E as [E _]. eapply IH; eassumption.
Qed.
Lemma open_connects tr s : nhistory tr s -> forall l1 x l2 a c e, tr = l1 ++ x :: l2 ->
  e_rt x = Some (e, OSpawned c a) ->
  exists s1 s2 ch, nhistory l1 s1 /\ nhistory (l1 ++ [x]) s2 /\ c = length (n_chan s1) /\ n_chan s2 = n_chan s1 ++ [ch] /\
    ((e_udp x = Some (UdpModel.EConnect a, UdpModel.OConnected ch) /\ internal e = true) \/
     (exists l k, e = EAccept l a /\ e_udp x = Some (UdpModel.EAccept k, UdpModel.OAccepted ch a))).
Proof.
  induction 1 as [|tr s e s' y H IH ST]; intros l1 x l2 a c e0 E X.
  - destruct l1; discriminate E.
  - destruct l2 as [|z l2 _] using rev_ind.
    + apply app_inj_tail in E. destruct E as [<- ->]. destruct (opens _ _ _ _ H) as [L _].
      pose proof (n_more _ _ _ _ _ _ _ H ST) as H'. apply node_step_inv in ST.
      assert (C : spawned (OSpawned c a) = [a]) by reflexivity.
      destruct ST; cbn in X; try discriminate X; injection X as X1 X2; subst; cbn [spawned e_rt e_udp n_chan] in *; try discriminate;
        try (match goal with R : step _ _ = Some (_, OSpawned _ _) |- _ => pose proof (runtime_answers _ _ _ _ _ _ R) as RA; cbn in RA; try discriminate RA end).
      * destruct (spawn_event _ _ _ _ _ _ _ H1) as [-> _]. exists s. eexists. exists ch. split; [exact H|]. split; [exact H'|]. cbn. rewrite L. auto 6.
      * destruct (spawn_event _ _ _ _ _ _ _ H2) as [-> _]. injection RA as ->. exists s. eexists. exists ch. split; [exact H|]. split; [exact H'|]. cbn. rewrite L. eauto 10.
    + change (x :: l2 ++ [z]) with ((x :: l2) ++ [z]) in E. rewrite app_assoc in E. apply app_inj_tail in E. destruct E as [E _]. eapply IH; eassumption.
Qed.

Lemma arrivals_app t1 t2 : UdpSpec.arrivals (t1 ++ t2) = UdpSpec.arrivals t1 ++ UdpSpec.arrivals t2.
Proof. induction t1 as [|[e o] t1 IH]; [reflexivity|]. destruct e; cbn; rewrite IH; reflexivity. Qed.
Lemma chan_kept tr s t1 t2 s1 c ch : nhistory tr s -> tr = t1 ++ t2 -> nhistory t1 s1 -> nth_error (n_chan s1) c = Some ch -> nth_error (n_chan s) c = Some ch.
Proof.
  intros H E H1 C. destruct (nsplit _ _ H _ _ E) as (s1' & H1' & _ & more & M).
  assert (Q : n_chan s1' = n_chan s1).
  { destruct (opens _ _ _ _ H1) as [L1 O1]. destruct (opens _ _ _ _ H1') as [L2 O2].
    pose proof (map_length c_addr (r_conns (n_rt s1))) as A1. pose proof (map_length c_addr (r_conns (n_rt s1'))) as A2.
    assert (F : forall (u : list nat) (v : list N), length u = length v -> map fst (combine u v) = u).
    { induction u as [|y u IH]; intros [|z v] Q; try discriminate Q; [reflexivity|]. cbn. f_equal. apply IH. injection Q as Q. exact Q. }
    rewrite <- (F (n_chan s1') (map c_addr (r_conns (n_rt s1')))) by congruence.
    rewrite <- (F (n_chan s1) (map c_addr (r_conns (n_rt s1)))) by congruence. congruence. }
  rewrite M, Q. rewrite nth_error_app1; [exact C|]. eapply nth_lt. exact C.
Qed.

(** A connection this endpoint opened: what it decoded and what it has not read is what arrived. *)
Lemma connected_rest tr1 s1 x tr2 s e c a : nhistory tr1 s1 -> UdpSpec.quiet (n_udp s1) a -> nhistory (tr1 ++ x :: tr2) s ->
  e_rt x = Some (e, OSpawned c a) -> (forall l, e <> EAccept l a) ->
  (forall e' d, In (e', OSpawned d a) (runtime_trace tr2) -> exists l, e' = EAccept l a) ->
  (forall o, ~ In (ELagged c, o) (runtime_trace tr2)) -> conn_runs (n_rt s) c ->
  exists rest, packets_on c (runtime_trace (tr1 ++ x :: tr2)) ++ rest = from_peer a (datagrams tr2) /\ unread bk cbk 8 s c a rest.
Proof.
  intros H1 Q H X NA NC NL RUN.
  destruct (open_connects _ _ H _ _ _ _ _ _ eq_refl X) as (s1' & s2 & ch & H1' & H2 & EC & CH & [[XU INT]|(l & k & EA & _)]);
    [|exfalso; exact (NA _ EA)].
  assert (C : nth_error (n_chan s) c = Some ch).
  { eapply (chan_kept _ _ (tr1 ++ [x]) tr2 s2); [exact H|rewrite <- app_assoc; reflexivity|exact H2|]. rewrite CH, EC. apply nth_snoc_new. }
  assert (ST : socket_trace (tr1 ++ x :: tr2) = socket_trace tr1 ++ (UdpModel.EConnect a, UdpModel.OConnected ch) :: socket_trace tr2).
  { rewrite socket_app. f_equal. unfold socket_trace. cbn [flat_map]. rewrite XU. reflexivity. }
  pose proof (socket_history _ _ _ _ H) as U. rewrite ST in U.
  destruct (UdpTheorems.nothing_lost _ _ _ _ _ _ (socket_history _ _ _ _ H1) Q U) as (done & pending & rest & PF & PL & PQ & RD & u' & DU).
  - intros c' I. unfold socket_trace in I. apply in_later in I. destruct I as (l1 & y & l2 & E & I).
    destruct (e_udp y) as [q|] eqn:Y; [|contradiction]. destruct I as [->|[]].
    assert (E' : tr1 ++ x :: tr2 = (tr1 ++ x :: l1) ++ y :: l2) by (rewrite E, <- app_assoc; reflexivity).
    destruct (connect_opens _ _ H _ _ _ _ _ E' Y) as (e' & d & Z & INT').
    destruct (NC e' d) as [l ->]; [|discriminate INT'].
    unfold runtime_trace. rewrite E, flat_map_app. apply in_or_app. right. cbn. rewrite Z. left. reflexivity.
  - intros o I. apply (undropped _ _ H _ _ C RUN o). rewrite ST. apply in_or_app. right. right. exact I.
  - assert (RD' : UdpSpec.reads done (UdpSpec.received ch (socket_trace (tr1 ++ x :: tr2))) rest).
    { rewrite ST, UdpProofs.received_app. rewrite (reads_own _ _ H1').
      - exact RD.
      - pose proof (chans_distinct _ _ _ _ H2) as D. rewrite CH in D. apply NoDup_remove in D. rewrite app_nil_r in D. tauto. }
    apply (taken_and_rest _ _ _ _ _ _ H C) in RD'.
    + exists (map UdpModel.p_data rest ++ map UdpModel.p_data pending). split.
      * rewrite app_assoc, <- RD', <- map_app, <- PF, packets_from_data. reflexivity.
      * exists (map UdpModel.p_data rest), (map UdpModel.p_data pending). rewrite map_length. split; [reflexivity|]. split; [exact PL|].
        split; [intros Z; rewrite (PQ Z); reflexivity|]. intros W. eapply due_read; eassumption.
    + intros o I. rewrite runtime_app in I. apply in_app_or in I.
      assert (NO : forall o, ~ In (ELagged c, o) (runtime_trace tr1)).
      { intros o' I'. pose proof (runtime_history _ _ _ _ H1') as R. destruct (opens _ _ _ _ H1') as [L _]. rewrite L in EC. clear -I' R EC. remember (runtime_trace tr1) as rt1.
        assert (G : forall tr s, history tr s -> forall d o, In (ELagged d, o) tr -> d < length (r_conns s)).
        { clear. induction 1 as [|tr s e s' o H IH ST]; intros d o' I; [contradiction|]. pose proof (step_addrs _ _ _ _ _ _ ST) as A.
          apply (f_equal (@length N)) in A. rewrite app_length, !map_length in A. apply in_snoc in I. destruct I as [I|I].
          - specialize (IH _ _ I). lia.
          - injection I as <- <-. cbn in ST. destruct (nth_error (r_conns s) d) eqn:E; [|discriminate]. apply nth_lt in E. lia. }
        specialize (G _ _ R _ _ I'). lia. }
      destruct I as [I|I]; [exact (NO _ I)|]. unfold runtime_trace in I. cbn [flat_map] in I. rewrite X in I.
      destruct I as [I|I]; [|exact (NL _ I)]. injection I as -> <-. discriminate INT.
Qed.

(** A connection a listener accepted: the same, from the datagram that made it on. *)
Lemma accepted_rest tr1 x tr2 s l c a : nhistory (tr1 ++ x :: tr2) s -> e_rt x = Some (EAccept l a, OSpawned c a) ->
  (forall o, ~ In (ELagged c, o) (runtime_trace (tr1 ++ x :: tr2))) -> conn_runs (n_rt s) c ->
  exists tr0 y d tr3, tr1 ++ x :: tr2 = tr0 ++ y :: tr3 /\ e_udp y = Some (UdpModel.EPacket a d, UdpModel.OUnit) /\
  ((forall e' d, In (e', OSpawned d a) (runtime_trace tr3) -> exists l, e' = EAccept l a) ->
   exists rest, packets_on c (runtime_trace (tr1 ++ x :: tr2)) ++ rest = from_peer a (datagrams (y :: tr3)) /\ unread bk cbk 32 s c a rest).
Proof.
  intros H X NL RUN.
  destruct (open_connects _ _ H _ _ _ _ _ _ eq_refl X) as (s1 & s2 & ch & H1 & H2 & EC & CH & [[_ INT]|(l' & k & EA & XU)]);
    [discriminate INT|]. injection EA as <-.
  assert (C : nth_error (n_chan s) c = Some ch).
  { eapply (chan_kept _ _ (tr1 ++ [x]) tr2 s2); [exact H|rewrite <- app_assoc; reflexivity|exact H2|]. rewrite CH, EC. apply nth_snoc_new. }
  assert (IA : In (UdpModel.EAccept k, UdpModel.OAccepted ch a) (socket_trace (tr1 ++ x :: tr2))).
  { rewrite socket_app. apply in_or_app. right. unfold socket_trace. cbn [flat_map]. rewrite XU. left. reflexivity. }
  destruct (UdpTheorems.accepted_all _ _ _ _ _ (socket_history _ _ _ _ H) IA (undropped _ _ H _ _ C RUN)) as (t0 & d & t1 & ST & ALL).
  destruct (socket_split _ _ _ _ ST) as (n0 & y & n1 & E & Y & E0 & E1). exists n0, y, d, n1. split; [exact E|]. split; [exact Y|].
  intros NC. destruct ALL as (done & pending & rest & PF & PL & PQ & RD & u' & DU).
  - intros c' I. rewrite <- E1 in I. unfold socket_trace in I. apply in_later in I. destruct I as (l1 & z & l2 & E' & I).
    destruct (e_udp z) as [q|] eqn:Z; [|contradiction]. destruct I as [->|[]].
    assert (EE : tr1 ++ x :: tr2 = (n0 ++ y :: l1) ++ z :: l2) by (rewrite E, E', <- app_assoc; reflexivity).
    destruct (connect_opens _ _ H _ _ _ _ _ EE Z) as (e' & d' & W & INT').
    destruct (NC e' d') as [l' ->]; [|discriminate INT'].
    unfold runtime_trace. rewrite E', flat_map_app. apply in_or_app. right. cbn. rewrite W. left. reflexivity.
  - apply (taken_and_rest _ _ _ _ _ _ H C NL) in RD.
    exists (map UdpModel.p_data rest ++ map UdpModel.p_data pending). split.
    + rewrite app_assoc, <- RD, <- map_app, <- PF, packets_from_data. unfold datagrams, socket_trace. cbn [flat_map]. rewrite Y.
      fold (socket_trace n1). rewrite E1. reflexivity.
    + exists (map UdpModel.p_data rest), (map UdpModel.p_data pending). rewrite map_length. split; [reflexivity|]. split; [exact PL|].
      split; [intros Z; rewrite (PQ Z); reflexivity|]. intros W. eapply due_read; eassumption.
Qed.

(** In the runtime: what a connection decodes for a stub or proxy that was there before. *)
Lemma stub_accounts dg tr1 tr2 s n id c : RuntimeSpec.history bk cbk dg (tr1 ++ tr2) s -> served n id tr1 -> decoded c tr1 = [] ->
  stub_exists s n -> stub_listening s n -> conn_runs s c ->
  map it_msg (from_conn c (stub_got n (tr1 ++ tr2) ++ stub_backlog s n)) ++ map it_msg (for_id id (waiting s c)) =
  filter (of_id id) (decoded c (tr1 ++ tr2)).
Proof.
  intros H S D E L R. destruct (history_split _ _ _ _ _ H _ _ eq_refl) as (s1 & H1 & ST).
  destruct (nothing_lost_stub _ _ _ _ _ _ _ _ _ _ H1 S ST E L R) as (more & G & M). pose proof (history_inv _ _ _ _ _ H1) as V.
  rewrite G, from_conn_app, (from_none c (stub_got n tr1 ++ stub_backlog s1 n)).
  - cbn [app]. rewrite M, decoded_app, D. cbn [app]. rewrite <- (app_nil_l (filter _ _)) at 2. f_equal.
    unfold waiting. destruct (nth_error (r_conns s1) c) as [x|] eqn:X; [|reflexivity].
    pose proof (fun it => v_pend _ _ (in5 _ _ _ V) c (vc x) it (nth_vc _ _ _ X)) as P. unfold pend in P. cbn in P.
    destruct (c_recv x) as [todo|i it todo]; [destruct todo as [|it todo]|]; [reflexivity| |]; exfalso;
      destruct (P it (or_introl eq_refl)) as (_ & _ & K); rewrite D in K; destruct (it_no it); discriminate K.
  - intros it I. destruct (stub_of_served _ _ _ _ _ V S) as (t & T & _). rewrite (stub_log _ _ _ _ _ V T) in I. unfold vlog in I. cbn in I.
    destruct (nth_error (r_ifaces s1) (st_iface t)) as [y|] eqn:Y; [|contradiction].
    destruct (logged _ _ _ _ _ _ V Y I) as (_ & K & _). intros EQ. rewrite EQ, D in K. destruct (it_no it); discriminate K.
Qed.
Lemma proxy_accounts dg tr1 tr2 s n id a c : RuntimeSpec.history bk cbk dg (tr1 ++ tr2) s -> proxied n id a tr1 -> decoded c tr1 = [] -> opened c a (tr1 ++ tr2) ->
  proxy_exists s n -> proxy_connected s n -> conn_runs s c ->
  map it_msg (from_conn c (proxy_got n (tr1 ++ tr2) ++ proxy_backlog s n)) ++ map it_msg (for_id id (waiting s c)) =
  filter (of_id id) (decoded c (tr1 ++ tr2)).
Proof.
  intros H S D O E L R. destruct (history_split _ _ _ _ _ H _ _ eq_refl) as (s1 & H1 & ST).
  destruct (nothing_lost_proxy _ _ _ _ _ _ _ _ _ _ _ H1 S O ST E L R) as (more & G & M). pose proof (history_inv _ _ _ _ _ H1) as V.
  rewrite G, (from_none c (proxy_got n tr1 ++ proxy_backlog s1 n)).
  - cbn [app]. rewrite M, decoded_app, D. cbn [app]. rewrite <- (app_nil_l (filter _ _)) at 2. f_equal.
    unfold waiting. destruct (nth_error (r_conns s1) c) as [x|] eqn:X; [|reflexivity].
    pose proof (fun it => v_pend _ _ (in5 _ _ _ V) c (vc x) it (nth_vc _ _ _ X)) as P. unfold pend in P. cbn in P.
    destruct (c_recv x) as [todo|i it todo]; [destruct todo as [|it todo]|]; [reflexivity| |]; exfalso;
      destruct (P it (or_introl eq_refl)) as (_ & _ & K); rewrite D in K; destruct (it_no it); discriminate K.
  - intros it I.
    assert (K : nth_error (decoded (it_conn it) tr1) (it_no it) = Some (it_msg it)).
    { apply in_app_or in I. destruct I as [I|I].
      - apply pgot_in in I. destruct (proxy_routing _ _ _ _ _ _ _ _ _ H1 S I) as (_ & _ & K & _). exact K.
      - unfold proxy_backlog in I. destruct (nth_error (r_proxies s1) n) as [p|]; [|contradiction].
        destruct (nth_error (r_ifaces s1) (px_iface p)) as [y|] eqn:Y; [|contradiction].
        assert (J : In it (i_log y)) by (unfold i_queue in I; rewrite <- (firstn_skipn (i_next y) (i_log y)); apply in_or_app; right; exact I).
        destruct (logged _ _ _ _ _ _ V Y J) as (_ & K & _). exact K. }
    intros EQ. rewrite EQ, D in K. destruct (it_no it); discriminate K.
Qed.

Lemma undecoded tr1 s1 c : nhistory tr1 s1 -> length (n_chan s1) <= c -> decoded c (runtime_trace tr1) = [].
Proof.
  intros H L. rewrite decoded_packets. destruct (reading _ _ _ _ H) as (I1 & _ & _). rewrite I1; [reflexivity|].
  apply nth_error_None. exact L.
Qed.

Lemma stub_connected_complete tr1 s1 x tr2 s e c a n id : nhistory tr1 s1 -> UdpSpec.quiet (n_udp s1) a -> served n id (runtime_trace tr1) ->
  nhistory (tr1 ++ x :: tr2) s -> e_rt x = Some (e, OSpawned c a) -> (forall l, e <> EAccept l a) ->
  (forall e' d, In (e', OSpawned d a) (runtime_trace tr2) -> exists l, e' = EAccept l a) ->
  (forall o, ~ In (ELagged c, o) (runtime_trace tr2)) ->
  stub_exists (n_rt s) n -> stub_listening (n_rt s) n -> conn_runs (n_rt s) c ->
  exists rest, unread bk cbk 8 s c a rest /\
    map it_msg (from_conn c (stub_got n (runtime_trace (tr1 ++ x :: tr2)) ++ stub_backlog (n_rt s) n)) ++
    map it_msg (for_id id (waiting (n_rt s) c)) ++ filter (of_id id) (flat_map packet_messages rest) =
    filter (of_id id) (flat_map packet_messages (from_peer a (datagrams tr2))).
Proof.
  intros H1 Q S H X NA NC NL E L R. destruct (connected_rest _ _ _ _ _ _ _ _ H1 Q H X NA NC NL R) as (rest & P & U).
  exists rest. split; [exact U|]. rewrite <- P, flat_map_app, <- decoded_packets, filter_app, app_assoc. f_equal.
  pose proof (runtime_history _ _ _ _ H) as HR. rewrite runtime_app in HR |- *. apply (stub_accounts true); auto.
  destruct (open_connects _ _ H _ _ _ _ _ _ eq_refl X) as (s1' & _ & _ & H1' & _ & EC & _). apply (undecoded _ s1'); [exact H1'|lia].
Qed.

Lemma stub_accepted_complete tr1 x tr2 s l c a n id : served n id (runtime_trace tr1) ->
  nhistory (tr1 ++ x :: tr2) s -> e_rt x = Some (EAccept l a, OSpawned c a) ->
  (forall o, ~ In (ELagged c, o) (runtime_trace (tr1 ++ x :: tr2))) ->
  stub_exists (n_rt s) n -> stub_listening (n_rt s) n -> conn_runs (n_rt s) c ->
  exists tr0 y d tr3, tr1 ++ x :: tr2 = tr0 ++ y :: tr3 /\ e_udp y = Some (UdpModel.EPacket a d, UdpModel.OUnit) /\
  ((forall e' d, In (e', OSpawned d a) (runtime_trace tr3) -> exists l, e' = EAccept l a) ->
   exists rest, unread bk cbk 32 s c a rest /\
    map it_msg (from_conn c (stub_got n (runtime_trace (tr1 ++ x :: tr2)) ++ stub_backlog (n_rt s) n)) ++
    map it_msg (for_id id (waiting (n_rt s) c)) ++ filter (of_id id) (flat_map packet_messages rest) =
    filter (of_id id) (flat_map packet_messages (from_peer a (datagrams (y :: tr3))))).
Proof.
  intros S H X NL E L R. destruct (accepted_rest _ _ _ _ _ _ _ H X NL R) as (tr0 & y & d & tr3 & ET & Y & K).
  exists tr0, y, d, tr3. split; [exact ET|]. split; [exact Y|]. intros NC. destruct (K NC) as (rest & P & U).
  exists rest. split; [exact U|]. rewrite <- P, flat_map_app, <- decoded_packets, filter_app, app_assoc. f_equal.
  pose proof (runtime_history _ _ _ _ H) as HR. rewrite runtime_app in HR |- *. apply (stub_accounts true); auto.
  destruct (open_connects _ _ H _ _ _ _ _ _ eq_refl X) as (s1' & _ & _ & H1' & _ & EC & _). apply (undecoded _ s1'); [exact H1'|lia].
Qed.

Lemma proxy_complete tr1 s1 x tr2 tr3 s e c a n id : nhistory tr1 s1 -> UdpSpec.quiet (n_udp s1) a ->
  nhistory (tr1 ++ x :: tr2 ++ tr3) s -> e_rt x = Some (e, OSpawned c a) -> (forall l, e <> EAccept l a) ->
  proxied n id a (runtime_trace (tr1 ++ x :: tr2)) -> (forall bs o, ~ In (EPacket c bs, o) (runtime_trace tr2)) ->
  (forall e' d, In (e', OSpawned d a) (runtime_trace (tr2 ++ tr3)) -> exists l, e' = EAccept l a) ->
  (forall o, ~ In (ELagged c, o) (runtime_trace (tr2 ++ tr3))) ->
  proxy_exists (n_rt s) n -> proxy_connected (n_rt s) n -> conn_runs (n_rt s) c ->
  exists rest, unread bk cbk 8 s c a rest /\
    map it_msg (from_conn c (proxy_got n (runtime_trace (tr1 ++ x :: tr2 ++ tr3)) ++ proxy_backlog (n_rt s) n)) ++
    map it_msg (for_id id (waiting (n_rt s) c)) ++ filter (of_id id) (flat_map packet_messages rest) =
    filter (of_id id) (flat_map packet_messages (from_peer a (datagrams (tr2 ++ tr3)))).
Proof.
  intros H1 Q H X NA P NP NC NL E L R. destruct (connected_rest _ _ _ _ _ _ _ _ H1 Q H X NA NC NL R) as (rest & PP & U).
  exists rest. split; [exact U|]. rewrite <- PP, flat_map_app, <- decoded_packets, filter_app, app_assoc. f_equal.
  pose proof (runtime_history _ _ _ _ H) as HR.
  assert (EQ : tr1 ++ x :: tr2 ++ tr3 = (tr1 ++ x :: tr2) ++ tr3) by (rewrite <- app_assoc; reflexivity).
  rewrite EQ in HR |- *. rewrite runtime_app in HR |- *.
  destruct (open_connects _ _ H _ _ _ _ _ _ eq_refl X) as (s1' & s2' & ch' & H1' & _ & EC & _ & K).
  apply (proxy_accounts true _ _ _ _ _ a); auto.
  - rewrite runtime_app, decoded_app, (undecoded _ s1'); [|exact H1'|lia]. cbn [app]. unfold runtime_trace. cbn [flat_map]. rewrite X.
    fold (runtime_trace tr2). cbn [app]. rewrite decoded_packets. replace (packets_on c ((e, OSpawned c a) :: runtime_trace tr2)) with (@nil (list N)); [reflexivity|].
    unfold packets_on. cbn [flat_map fst]. assert (Z : forall l, (forall bs o, ~ In (EPacket c bs, o) l) -> [] = flat_map (fun p : event * obs => match fst p with EPacket d bs => if d =? c then [bs] else [] | _ => [] end) l).
    { induction l as [|[ev o] l IH]; intros N; [reflexivity|]. cbn [flat_map]. rewrite <- IH by (intros bs o' I; apply (N bs o'); right; exact I).
      rewrite app_nil_r. cbn. destruct ev; try reflexivity. destruct (Nat.eqb_spec c0 c) as [->|]; [|reflexivity]. exfalso. apply (N bs o). left. reflexivity. }
    rewrite <- Z by exact NP. rewrite app_nil_r. destruct K as [[_ INT]|(l & k & EA & _)]; [destruct e; try reflexivity; discriminate INT|subst e; reflexivity].
  - exists e. rewrite <- runtime_app, <- EQ. rewrite runtime_app. apply in_or_app. right. unfold runtime_trace. cbn [flat_map]. rewrite X. left. reflexivity.
Qed.
End Locks.
