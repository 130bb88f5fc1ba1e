(** An endpoint over UDP: what becomes of a connection, made or accepted, when the endpoint connects to
    the same peer again. *)
From Coq Require Import List NArith Bool PeanoNat Lia Sorted.
From Verif Require Import BytesModel WireSpec SomeipModel SomeipSpec MapModel RuntimeModel RuntimeSpec RuntimeProofs RuntimeTheorems NodeModel NodeSpec
  RuntimeAddrTheorems NodeProofs NodeTheorems NodeLossTheorems NodeProxyTheorems NodeCutSpec.
From Verif Require UdpModel UdpSpec UdpProofs UdpInv UdpTheorems UdpAgainTheorems UdpListenTheorems UdpCutTheorems.
Import ListNotations.
Open Scope nat_scope.

Section Cut.
Context (bk : iid -> N) (cbk : N -> N).
Notation step := (RuntimeModel.step bk cbk).
Notation nhistory := (NodeSpec.nhistory bk cbk).
Notation node_step := (NodeModel.node_step bk cbk).

Lemma gave_socket tr s : nhistory tr s -> forall t1 t2 c ch, tr = t1 ++ t2 -> nth_error (n_chan s) c = Some ch ->
  length (filter (gave c) (runtime_trace t2)) <= length (filter UdpCutTheorems.something (UdpSpec.received ch (socket_trace t2))).
Proof.
  induction 1 as [|tr s e s' x H IH ST]; intros t1 t2 c ch E C.
  - symmetry in E. apply app_eq_nil in E. destruct E as [-> ->]. apply le_n.
  - destruct t2 as [|y t2 _] using rev_ind; [apply le_n|]. rewrite app_assoc in E. apply app_inj_tail in E. destruct E as [E <-].
    apply node_step_inv in ST. rewrite runtime_snoc, socket_snoc, filter_app, app_length, UdpProofs.received_app, filter_app, app_length.
    destruct (Nat.le_gt_cases (length (n_chan s)) c) as [LE|LT].
    + (* the connection is just being opened *)
      assert (Z : filter (gave c) (runtime_trace t2) = []).
      { clear -H E LE. revert t1 t2 E. induction H as [|tr s e s' x H IH ST]; intros t1 t2 E.
        - symmetry in E. apply app_eq_nil in E. destruct E as [-> ->]. reflexivity.
        - destruct t2 as [|y t2 _] using rev_ind; [reflexivity|]. rewrite app_assoc in E. apply app_inj_tail in E. destruct E as [E <-].
          apply node_step_inv in ST. assert (LE' : length (n_chan s) <= c) by (destruct ST; cbn in LE; rewrite ?app_length in LE; lia).
          rewrite runtime_snoc, filter_app, (IH LE' _ _ E). cbn [app]. destruct ST; cbn [e_rt filter]; try reflexivity;
          try (destruct e0; try discriminate; reflexivity); unfold gave; cbn [fst].
          + destruct (Nat.eqb_spec c0 c) as [->|]; [|reflexivity]. exfalso. apply nth_lt in H0. lia.
          + destruct (Nat.eqb_spec c0 c) as [->|]; [|reflexivity]. exfalso. apply nth_lt in H0. lia. }
      rewrite Z. cbn [length].
      assert (W : filter (gave c) (match e_rt x with Some p => [p] | None => [] end) = []).
      { destruct ST; cbn [e_rt filter]; try reflexivity; try (destruct e0; try discriminate; reflexivity); unfold gave; cbn [fst].
        - destruct (Nat.eqb_spec c0 c) as [->|]; [|reflexivity]. exfalso. apply nth_lt in H0. lia.
        - destruct (Nat.eqb_spec c0 c) as [->|]; [|reflexivity]. exfalso. apply nth_lt in H0. lia. }
      rewrite W. cbn. lia.
    + assert (C0 : nth_error (n_chan s) c = Some ch).
      { destruct ST; cbn in C; try exact C; rewrite nth_error_app1 in C by exact LT; exact C. }
      specialize (IH _ _ _ _ E C0). apply Nat.add_le_mono; [exact IH|].
      destruct ST; cbn [e_rt e_udp filter]; try apply Nat.le_0_l; try (destruct e0; try discriminate; apply Nat.le_0_l); unfold gave; cbn [fst].
      * destruct (Nat.eqb_spec c0 c) as [->|]; [|apply Nat.le_0_l]. rewrite C0 in H0. injection H0 as <-. cbn. rewrite Nat.eqb_refl. apply le_n.
      * destruct (Nat.eqb_spec c0 c) as [->|]; [|apply Nat.le_0_l]. rewrite C0 in H0. injection H0 as <-. cbn. rewrite Nat.eqb_refl. apply le_n.
Qed.

Lemma cut_off_for_good tr1 s1 x tr2 s e c1 c2 a :
  nhistory tr1 s1 -> opened c1 a (runtime_trace tr1) ->
  (forall l, ~ In (EAccept l a, OSpawned c1 a) (runtime_trace tr1)) \/ UdpSpec.quiet (n_udp s1) a ->
  nhistory (tr1 ++ x :: tr2) s -> e_rt x = Some (e, OSpawned c2 a) -> (forall l, e <> EAccept l a) ->
  (forall n, subseq (map it_msg (from_conn c1 (stub_got n (runtime_trace (tr1 ++ x :: tr2)))))
                    (flat_map packet_messages (from_peer a (datagrams tr1)))) /\
  (forall n, subseq (map it_msg (from_conn c1 (proxy_got n (runtime_trace (tr1 ++ x :: tr2)))))
                    (flat_map packet_messages (from_peer a (datagrams tr1)))) /\
  (UdpModel.u_task (n_udp s) = UdpModel.Idle -> forall tr3 s', nhistory ((tr1 ++ x :: tr2) ++ tr3) s' ->
   length (filter (gave c1) (runtime_trace tr3)) <= 33 /\
   ((forall l, ~ In (EAccept l a, OSpawned c1 a) (runtime_trace tr1)) -> length (filter (gave c1) (runtime_trace tr3)) <= 9) /\
   (conn_runs (n_rt s') c1 -> waiting (n_rt s') c1 = [] -> exists s'' y, node_step s' (NRecv c1) = Some (s'', y))).
Proof.
  intros H1 O Q H X NA.
  pose proof O as (e1 & I1). destruct (in_split_runtime _ _ I1) as (k1 & x1 & k2 & E1 & X1).
  destruct (open_connects _ _ _ _ H1 _ _ _ _ _ _ E1 X1) as (sa & sb & ch1 & HA & HB & EC & CH & U1).
  assert (C1 : nth_error (n_chan s1) c1 = Some ch1).
  { eapply (chan_kept _ _ _ _ (k1 ++ [x1]) k2 sb); [exact H1|rewrite E1, <- app_assoc; reflexivity|exact HB|]. rewrite CH, EC. apply nth_snoc_new. }
  assert (C : nth_error (n_chan s) c1 = Some ch1) by (eapply chan_kept; [exact H|reflexivity|exact H1|exact C1]).
  destruct (open_connects _ _ _ _ H _ _ _ _ _ _ eq_refl X) as (s3 & s4 & ch2 & _ & _ & _ & _ & [[U2 INT]|(l & k & EA & _)]); [|exfalso; exact (NA _ EA)].
  assert (T : socket_trace (tr1 ++ x :: tr2) = socket_trace tr1 ++ (UdpModel.EConnect a, UdpModel.OConnected ch2) :: socket_trace tr2).
  { rewrite socket_app. f_equal. unfold socket_trace at 1. cbn [flat_map]. rewrite U2. reflexivity. }
  pose proof (socket_history _ _ _ _ H1) as UH1. pose proof (socket_history _ _ _ _ H) as UH. pose proof UH as UH'. rewrite T in UH'.
  destruct (opened_is_peer _ _ _ _ _ _ H1 O) as [L1 P1]. destruct (conn_chan _ _ _ _ _ H1 L1) as (Eq1 & OC1 & _). rewrite P1 in OC1.
  assert (N1 : nth c1 (n_chan s1) 0 = ch1) by congruence. rewrite N1 in OC1.
  assert (IN1 : forall p, e_udp x1 = Some p -> In p (socket_trace tr1)).
  { intros p EP. rewrite E1, socket_app. apply in_or_app. right. unfold socket_trace. cbn [flat_map]. rewrite EP. left. reflexivity. }
  assert (QU : In (UdpModel.EConnect a, UdpModel.OConnected ch1) (socket_trace tr1) \/ UdpSpec.quiet (n_udp s1) a).
  { destruct Q as [Q|Q]; [left|right; exact Q]. destruct U1 as [[U1 _]|(l & k & EA & _)]; [exact (IN1 _ U1)|].
    exfalso. apply (Q l). rewrite <- EA. exact I1. }
  assert (O2 : opened c1 a (runtime_trace (tr1 ++ x :: tr2))) by (exists e1; rewrite runtime_app; apply in_or_app; left; exact I1).
  assert (S : subseq (decoded c1 (runtime_trace (tr1 ++ x :: tr2))) (flat_map packet_messages (from_peer a (datagrams tr1)))).
  { destruct (opened_is_peer _ _ _ _ _ _ H O2) as [L P]. destruct (conn_chan _ _ _ _ _ H L) as (E & OC & ->).
    assert (EN : ch1 = nth c1 (n_chan s) 0) by congruence. rewrite EN in *.
    destruct (UdpTheorems.only_from_peer _ _ _ _ UH OC) as [F S].
    pose proof (UdpCutTheorems.taken_over_before _ _ _ _ _ _ _ UH1 OC1 QU UH') as B. rewrite <- T in B.
    apply subseq_flat_map.
    change (Forall (UdpSpec.arrived (peer s c1) (socket_trace (tr1 ++ x :: tr2))) (taken_by s (tr1 ++ x :: tr2) c1)) in F.
    change (UdpSpec.in_order (taken_by s (tr1 ++ x :: tr2) c1)) in S. rewrite P in F.
    assert (LT : Forall (fun p => UdpModel.p_no p < length (datagrams tr1)) (taken_by s (tr1 ++ x :: tr2) c1)).
    { apply Forall_forall. intros p I. apply B. unfold taken_by, data_on in I. clear -I. induction (socket_trace (tr1 ++ x :: tr2)) as [|[f q] l IH]; [contradiction|].
      cbn in I. destruct f; try (right; apply IH; exact I). destruct (Nat.eqb_spec c (nth c1 (n_chan s) 0)) as [->|]; [|right; apply IH; exact I].
      cbn in I. destruct q; try (right; apply IH; exact I). destruct I as [->|I]; [left; reflexivity|right; apply IH; exact I]. }
    remember (taken_by s (tr1 ++ x :: tr2) c1) as ps.
    assert (G : subseq (map (fun p => (a, UdpModel.p_data p)) ps) (datagrams tr1)).
    { apply (sorted_subseq _ 0 (map UdpModel.p_no ps)).
      - clear -S. induction S as [|p ps S IH B]; [constructor|]. cbn. constructor; [exact IH|]. rewrite Forall_map. exact B.
      - apply Forall_forall. intros. lia.
      - clear -F LT. induction F as [|p ps E F IH]; [constructor|]. inversion LT as [|? ? L1 L2]; subst. cbn [map]. constructor; [|apply IH; exact L2].
        rewrite Nat.sub_0_r. unfold UdpSpec.arrived in E. rewrite socket_app, UdpProofs.arrivals_app in E. eapply nth_prefix; [exact E|exact L1]. }
    unfold from_peer. apply (subseq_filter (fun p => N.eqb (fst p) a)) in G.
    - apply (subseq_map snd) in G. rewrite map_map in G. cbn in G. exact G.
    - rewrite Forall_map. apply Forall_forall. intros p _. cbn. apply N.eqb_refl. }
  split; [intros n; eapply subseq_trans; [exact S|]; apply (got_subseq _ _ _ s n c1 H)|].
  split; [intros n; eapply subseq_trans; [exact S|]; apply (got_subseq _ _ _ s n c1 H)|].
  intros Ti tr3 s' H'. pose proof (socket_history _ _ _ _ H') as V. rewrite socket_app, T in V.
  destruct (UdpCutTheorems.cut_reads _ _ _ _ _ _ _ _ _ UH1 OC1 QU UH' Ti V) as (HS & ch & HC & LE).
  assert (C' : nth_error (n_chan s') c1 = Some ch1) by (eapply chan_kept; [exact H'|reflexivity|exact H|exact C]).
  pose proof (gave_socket _ _ H' _ _ _ _ eq_refl C') as GS.
  pose proof (UdpTheorems.caps_history _ _ UH) as K.
  assert (IN2 : forall p, In p (socket_trace tr1) -> In p (socket_trace (tr1 ++ x :: tr2))) by (intros p I; rewrite socket_app; apply in_or_app; left; exact I).
  assert (CAP : UdpModel.c_cap ch = 8 \/ (UdpModel.c_cap ch = 32 /\ exists l, In (EAccept l a, OSpawned c1 a) (runtime_trace tr1))).
  { destruct U1 as [[U1 _]|(l & k & EA & U1)]; apply IN1, IN2 in U1.
    - left. destruct (UdpTheorems.k_connect _ _ K _ _ U1) as (y & Y & Z). congruence.
    - right. destruct (UdpTheorems.k_accept _ _ K _ _ _ U1) as (y & Y & Z). split; [congruence|]. exists l. rewrite <- EA. exact I1. }
  split; [destruct CAP as [CAP|[CAP _]]; rewrite CAP in LE; lia|].
  split; [intros NAC; destruct CAP as [CAP|[_ (l & I)]]; [rewrite CAP in LE; lia|destruct (NAC _ I)]|].
  intros RUN W. pose proof (undropped _ _ _ _ H' _ _ C' RUN) as ND.
  pose proof (socket_history _ _ _ _ H') as V'.
  assert (OC' : In (ch1, a) (UdpSpec.opened (socket_trace ((tr1 ++ x :: tr2) ++ tr3)))).
  { rewrite !socket_app, !UdpProofs.opened_app. apply in_or_app. left. apply in_or_app. left. exact OC1. }
  destruct (UdpCutTheorems.orphan_told _ _ _ _ V' OC' ND HS) as (u' & o & ST & KK).
  destruct RUN as (y & Y & A). assert (R : c_recv y = RWait []). { unfold waiting in W. rewrite Y in W. destruct (c_recv y); [congruence|discriminate]. }
  cbn [NodeModel.node_step]. rewrite C', ST. unfold answer, pair_step.
  destruct KK as [->|[(k & ->)|(p & ->)]]; cbn; rewrite Y, A, R; try (destruct (decode (UdpModel.p_data p))); eexists; eexists; reflexivity.
Qed.
End Cut.
