(** An endpoint over UDP: several proxies for the same peer. *)
From Coq Require Import List NArith Bool PeanoNat Lia Sorted.
From Verif Require Import BytesModel WireSpec SomeipModel SomeipSpec MapModel RuntimeModel RuntimeSpec RuntimeProofs RuntimeTheorems NodeModel NodeSpec
  RuntimeAddrTheorems NodeProofs NodeTheorems NodeLossTheorems.
From Verif Require UdpModel UdpSpec UdpProofs UdpInv UdpTheorems UdpAgainTheorems.
Import ListNotations.
Open Scope nat_scope.

Definition ep_conn (p : epc) : list nat := match p with EpShare (OwnConn c _) _ | EpTake (OwnConn c _) _ _ => [c] | _ => [] end.
Definition ep_client (p : epc) : Prop :=
  match p with EpCheck _ None | EpReady _ None | EpShare (OwnListener _) _ | EpTake (OwnListener _) _ _ => False | _ => True end.

Lemma sorted_new (l : list nat) x : StronglySorted lt l -> Forall (fun c => c < x) l -> StronglySorted lt (l ++ [x]).
Proof.
  induction 1 as [|y l S IH F]; intros B; [repeat constructor|]. inversion B as [|? ? B1 B2]; subst. cbn. constructor; [auto|].
  apply Forall_app. split; [exact F|]. constructor; [exact B1|constructor].
Qed.
Lemma sorted_l (l m : list nat) : StronglySorted lt (l ++ m) -> StronglySorted lt l.
Proof.
  induction l as [|x l IH]; intros S; [constructor|]. cbn in S. inversion S as [|? ? S1 S2]; subst. constructor; [auto|].
  apply Forall_app in S2. apply S2.
Qed.
Lemma sorted_nth (l : list nat) : StronglySorted lt l -> forall i j x y, i < j -> nth_error l i = Some x -> nth_error l j = Some y -> x < y.
Proof.
  induction 1 as [|z l S IH F]; intros [|i] [|j] x y L I J; try lia; try discriminate.
  - cbn in I, J. injection I as <-. rewrite Forall_forall in F. apply F. eapply nth_error_In. exact J.
  - cbn in I, J. apply (IH i j); auto. lia.
Qed.

Section Locks.
Context (bk : iid -> N) (cbk : N -> N).
Local Notation step := (step bk cbk).
Local Notation history := (history bk cbk true).
Local Notation node_step := (node_step bk cbk).
Local Notation nhistory := (nhistory bk cbk).

Record clients (s : rt) : Prop := {
  cl_stubs : r_stubs s = [];
  cl_lsnrs : r_lsnrs s = [];
  cl_cmap : r_cmap s = [];
  cl_ep : ep_client (r_ep s);
  cl_left : Forall (fun k => exists id a, k = KCall id (Some a)) (r_left s);
  cl_apart : StronglySorted lt (map px_conn (r_proxies s) ++ ep_conn (r_ep s));
  cl_small : Forall (fun c => c < length (r_conns s)) (map px_conn (r_proxies s) ++ ep_conn (r_ep s)) }.

Lemma clients_step s e s' o : clients s -> step s e = Some (s', o) -> (forall id, e <> EServe id /\ e <> EAbandon id None) -> clients s'.
Proof.
  intros [C1 C2 C3 C4 CL C5 C6] ST NS.
  assert (NN : forall A n, nth_error (@nil A) n = None) by (intros A [|n]; reflexivity).
  destruct e; cbn in ST; rewrite ?C1, ?C2, ?NN in ST; try discriminate ST; try (exfalso; exact (proj1 (NS _) eq_refl)).
  all: unfold step_ep, step_take, step_route, i_recv, push_cmd, live_conn, live_lsnr in ST; rewrite ?C3 in ST; cbn [map_get] in ST.
  all: try (destruct (r_ep s) as [|? [|]|? [|]|[|]|[|]] eqn:E; cbn in C4; try contradiction).
  all: cases_in ST; try discriminate ST; injection ST as <- <-.
  all: constructor; cbn [set_ep set_open set_listener set_imap set_cmap set_ifaces set_conns set_lsnrs set_stubs set_proxies set_left upd_iface upd_conn upd_lsnr upd_stub upd_proxy spawn
         r_stubs r_lsnrs r_cmap r_ep r_proxies r_conns r_left ep_client ep_conn] in *.
  all: rewrite ?E in *; try assumption; try exact I.
  all: try (rewrite ?app_nil_r in *; assumption).
  all: try (rewrite length_upd; assumption).
  all: try (rewrite map_upd_id; [assumption|reflexivity]).
  all: try solve [apply Forall_forall; intros q Q; apply in_drop_nth in Q; rewrite Forall_forall in CL; exact (CL _ Q)].
  all: try (match goal with Q : nth_error (r_left _) _ = Some _ |- _ => rewrite Forall_forall in CL; destruct (CL _ (nth_error_In _ _ Q)) as (? & ? & K) end; try discriminate K).
  all: try (injection K as -> ->; exact Logic.I).
  all: try (apply Forall_app; split; [exact CL|]; constructor; [|constructor]; destruct k as [?|]; [eauto|exfalso; exact (proj2 (NS _) eq_refl)]).
  - rewrite app_nil_r in C5, C6. apply sorted_new; assumption.
  - rewrite app_length. cbn [length]. rewrite app_nil_r in C6. apply Forall_app. split; [eapply Forall_impl; [|exact C6]; intros d D; cbn in D |- *; lia|].
    constructor; [lia|constructor].
  - rewrite app_nil_r, map_app. exact C5.
  - rewrite app_nil_r, map_app, length_upd. exact C6.
  - rewrite app_nil_r. apply sorted_l in C5. exact C5.
  - rewrite app_nil_r. apply Forall_app in C6. apply C6.
Qed.
Lemma never_l u v : never_served (u ++ v) -> never_served u.
Proof. intros NS i o. destruct (NS i o) as [A B]. split; intros I; [apply A|apply B]; apply in_or_app; left; exact I. Qed.
Lemma clients_history tr s : history tr s -> never_served tr -> clients s.
Proof.
  induction 1 as [|tr s e s' o H IH ST]; intros NS.
  - constructor; cbn; try reflexivity; constructor.
  - eapply clients_step; [|exact ST|].
    + apply IH. eapply never_l. exact NS.
    + intros id. destruct (NS id o) as [A B]. split; intros ->; [apply A|apply B]; apply in_or_app; right; left; reflexivity.
Qed.
(** What a proxy accepts goes to its connection. *)
Lemma proxies_kept s e o s' n p : step s e = Some (s', o) -> nth_error (r_proxies s) n = Some p ->
  exists p', nth_error (r_proxies s') n = Some p' /\ px_conn p' = px_conn p.
Proof.
  intros ST P. assert (K : r_proxies s' = r_proxies s -> exists p', nth_error (r_proxies s') n = Some p' /\ px_conn p' = px_conn p).
  { intros ->. eauto. }
  destruct e; try (apply K; unfold RuntimeModel.step, step_ep, step_take, step_route, step_stub, i_recv, push_cmd in ST; cases_in ST; injection ST as <- <-; reflexivity).
  - cbn in ST. unfold step_ep, push_cmd in ST. clear K. cases_in ST; injection ST as <- <-; cbn [upd_conn upd_lsnr spawn r_proxies set_ep set_open set_listener set_imap set_cmap set_ifaces set_conns set_lsnrs set_stubs set_proxies set_left]; eauto.
    exists p. split; [|reflexivity]. rewrite nth_error_app1; [exact P|eapply nth_lt; exact P].
  - clear K. cbn in ST. cases_in ST. injection ST as <- <-. cbn. destruct (Nat.eq_dec n n0) as [<-|D].
    + rewrite nth_upd_same, P. eexists. split; reflexivity.
    + rewrite nth_upd_other by exact D. eauto.
Qed.
Lemma proxy_conn tr s : history tr s -> forall n m d m', In (EProxySend n m, OOk d m') tr ->
  exists p, nth_error (r_proxies s) n = Some p /\ px_conn p = d.
Proof.
  induction 1 as [|tr s e s' o H IH ST]; intros n m d m' I; [contradiction|]. apply in_snoc in I. destruct I as [I|I].
  - destruct (IH _ _ _ _ I) as (p & P & <-). eapply proxies_kept; eassumption.
  - injection I as <- <-. cbn in ST. unfold push_cmd in ST. cases_in ST. injection ST as <- <- <-. eauto.
Qed.
Lemma one_connection_each tr s n m d m' k d' k' : nhistory tr s ->
  In (EProxySend n m, OOk d m') (runtime_trace tr) -> In (EProxySend n k, OOk d' k') (runtime_trace tr) -> d = d'.
Proof.
  intros H I J. apply runtime_history in H. destruct (proxy_conn _ _ H _ _ _ _ I) as (p & P & <-). destruct (proxy_conn _ _ H _ _ _ _ J) as (q & Q & <-). congruence.
Qed.
Lemma proxies_apart tr s n m d m' k n' k' : nhistory tr s -> never_served (runtime_trace tr) ->
  In (EProxySend n m, OOk d m') (runtime_trace tr) -> In (EProxySend n' k, OOk d k') (runtime_trace tr) -> n = n'.
Proof.
  intros H NS I J. apply runtime_history in H. destruct (proxy_conn _ _ H _ _ _ _ I) as (p & P & E). destruct (proxy_conn _ _ H _ _ _ _ J) as (q & Q & F).
  pose proof (sorted_l _ _ (cl_apart _ (clients_history _ _ H NS))) as S. apply (map_nth_error px_conn) in P, Q.
  destruct (Nat.lt_trichotomy n n') as [L|[L|L]]; [|exact L|]; pose proof (sorted_nth _ S _ _ _ _ L ltac:(eassumption) ltac:(eassumption)); lia.
Qed.

(** ** A second connection to the same peer *)
Lemma nth_prefix {A} (u v : list A) i x : nth_error (u ++ v) i = Some x -> i < length u -> nth_error u i = Some x.
Proof. intros E L. rewrite nth_error_app1 in E by exact L. exact E. Qed.
Lemma superseded_subseq tr1 x1 tr2 x2 tr3 s e1 e2 c1 c2 a :
  nhistory (tr1 ++ x1 :: tr2 ++ x2 :: tr3) s -> e_rt x1 = Some (e1, OSpawned c1 a) -> e_rt x2 = Some (e2, OSpawned c2 a) ->
  (forall l, e1 <> EAccept l a) -> (forall l, e2 <> EAccept l a) ->
  exists ch1 ch2, nth_error (n_chan s) c1 = Some ch1 /\
    socket_trace (tr1 ++ x1 :: tr2 ++ x2 :: tr3) = socket_trace tr1 ++ (UdpModel.EConnect a, UdpModel.OConnected ch1) ::
      socket_trace tr2 ++ (UdpModel.EConnect a, UdpModel.OConnected ch2) :: socket_trace tr3 /\
    subseq (decoded c1 (runtime_trace (tr1 ++ x1 :: tr2 ++ x2 :: tr3))) (flat_map packet_messages (from_peer a (datagrams (tr1 ++ x1 :: tr2)))).
Proof.
  intros H X1 X2 N1 N2.
  destruct (open_connects _ _ _ _ H _ _ _ _ _ _ eq_refl X1) as (s1 & s2 & ch1 & H1 & H2 & EC & CH & [[U1 INT]|(l & k & EA & _)]); [|exfalso; exact (N1 _ EA)].
  assert (EQ : tr1 ++ x1 :: tr2 ++ x2 :: tr3 = (tr1 ++ x1 :: tr2) ++ x2 :: tr3) by (rewrite <- app_assoc; reflexivity).
  assert (EQ' : tr1 ++ x1 :: tr2 ++ x2 :: tr3 = (tr1 ++ [x1]) ++ (tr2 ++ x2 :: tr3)) by (rewrite <- app_assoc; reflexivity).
  destruct (open_connects _ _ _ _ H _ _ _ _ _ _ EQ X2) as (s3 & s4 & ch2 & _ & _ & _ & _ & [[U2 INT2]|(l & k & EA & _)]); [|exfalso; exact (N2 _ EA)].
  assert (C : nth_error (n_chan s) c1 = Some ch1).
  { eapply (chan_kept _ _ _ _ (tr1 ++ [x1]) _ s2); [exact H|exact EQ'|exact H2|]. rewrite CH, EC. apply nth_snoc_new. }
  assert (T : socket_trace (tr1 ++ x1 :: tr2 ++ x2 :: tr3) = socket_trace tr1 ++ (UdpModel.EConnect a, UdpModel.OConnected ch1) ::
      socket_trace tr2 ++ (UdpModel.EConnect a, UdpModel.OConnected ch2) :: socket_trace tr3).
  { rewrite socket_app. f_equal. unfold socket_trace at 1. cbn [flat_map]. rewrite U1. fold (socket_trace (tr2 ++ x2 :: tr3)). cbn [app]. f_equal.
    rewrite socket_app. f_equal. unfold socket_trace at 1. cbn [flat_map]. rewrite U2. reflexivity. }
  exists ch1, ch2. split; [exact C|]. split; [exact T|].
  pose proof (socket_history _ _ _ _ H) as U. pose proof U as U'. rewrite T in U'.
  assert (O : opened c1 a (runtime_trace (tr1 ++ x1 :: tr2 ++ x2 :: tr3))).
  { exists e1. unfold runtime_trace. rewrite flat_map_app. apply in_or_app. right. cbn [flat_map]. rewrite X1. left. reflexivity. }
  destruct (opened_is_peer _ _ _ _ _ _ H O) as [L P]. destruct (conn_chan _ _ _ _ _ H L) as (E & OC & ->).
  assert (ch1 = nth c1 (n_chan s) 0) by congruence. subst ch1.
  destruct (UdpTheorems.only_from_peer _ _ _ _ U OC) as [F S].
  destruct (UdpTheorems.second_connect _ _ _ _ _ _ _ U') as [B _]. rewrite <- T in B.
  apply subseq_flat_map.
  change (Forall (UdpSpec.arrived (peer s c1) (socket_trace (tr1 ++ x1 :: tr2 ++ x2 :: tr3))) (taken_by s (tr1 ++ x1 :: tr2 ++ x2 :: tr3) c1)) in F.
  change (UdpSpec.in_order (taken_by s (tr1 ++ x1 :: tr2 ++ x2 :: tr3) c1)) in S. rewrite P in F.
  assert (LT : Forall (fun p => UdpModel.p_no p < length (datagrams (tr1 ++ x1 :: tr2))) (taken_by s (tr1 ++ x1 :: tr2 ++ x2 :: tr3) c1)).
  { apply Forall_forall. intros p I.
    assert (J : UdpModel.p_no p < length (UdpSpec.arrivals (socket_trace tr1 ++ socket_trace tr2))).
    { apply B. unfold taken_by, data_on in I. clear -I. induction (socket_trace (tr1 ++ x1 :: tr2 ++ x2 :: tr3)) as [|[f q] l IH]; [contradiction|].
      cbn in I. destruct f; try (right; apply IH; exact I). destruct (Nat.eqb_spec c (nth c1 (n_chan s) 0)) as [->|]; [|right; apply IH; exact I].
      cbn in I. destruct q; try (right; apply IH; exact I). destruct I as [->|I]; [left; reflexivity|right; apply IH; exact I]. }
    unfold datagrams. rewrite socket_app, !arrivals_app, app_length in *. unfold socket_trace at 2. cbn [flat_map]. rewrite U1. cbn. exact J. }
  remember (taken_by s (tr1 ++ x1 :: tr2 ++ x2 :: tr3) c1) as ps.
  assert (G : subseq (map (fun p => (a, UdpModel.p_data p)) ps) (datagrams (tr1 ++ x1 :: tr2))).
  { apply (sorted_subseq _ 0 (map UdpModel.p_no ps)).
    - clear -S. induction S as [|p ps S IH B]; [constructor|]. cbn. constructor; [exact IH|]. rewrite Forall_map. exact B.
    - apply Forall_forall. intros. lia.
    - clear -F LT EQ. rewrite EQ in F. induction F as [|p ps E F IH]; [constructor|]. inversion LT as [|? ? L1 L2]; subst. cbn [map]. constructor; [|apply IH; exact L2].
      rewrite Nat.sub_0_r. unfold UdpSpec.arrived in E. rewrite socket_app, arrivals_app in E. eapply nth_prefix; [exact E|exact L1]. }
  unfold from_peer. apply (subseq_filter (fun p => N.eqb (fst p) a)) in G.
  - apply (subseq_map snd) in G. rewrite map_map in G. cbn in G. exact G.
  - rewrite Forall_map. apply Forall_forall. intros p _. cbn. apply N.eqb_refl.
Qed.
Lemma got_subseq tr s n c : nhistory tr s ->
  subseq (map it_msg (from_conn c (stub_got n (runtime_trace tr)))) (decoded c (runtime_trace tr)) /\
  subseq (map it_msg (from_conn c (proxy_got n (runtime_trace tr)))) (decoded c (runtime_trace tr)).
Proof.
  intros H. pose proof (runtime_history _ _ _ _ H) as R. destruct (in_order _ _ _ _ _ n c R) as [S1 S2].
  split; apply items_subseq; try assumption; intros it I; eapply got_facts; try exact R; [eapply stub_got_all|eapply proxy_got_all]; exact I.
Qed.
(** It gets nothing that arrives later, and its next read does not wait. *)
Lemma second_connection tr1 x1 tr2 x2 tr3 s e1 e2 c1 c2 a :
  nhistory (tr1 ++ x1 :: tr2 ++ x2 :: tr3) s -> e_rt x1 = Some (e1, OSpawned c1 a) -> e_rt x2 = Some (e2, OSpawned c2 a) ->
  (forall l, e1 <> EAccept l a) -> (forall l, e2 <> EAccept l a) ->
  (forall n, subseq (map it_msg (from_conn c1 (stub_got n (runtime_trace (tr1 ++ x1 :: tr2 ++ x2 :: tr3)))))
                    (flat_map packet_messages (from_peer a (datagrams (tr1 ++ x1 :: tr2))))) /\
  (forall n, subseq (map it_msg (from_conn c1 (proxy_got n (runtime_trace (tr1 ++ x1 :: tr2 ++ x2 :: tr3)))))
                    (flat_map packet_messages (from_peer a (datagrams (tr1 ++ x1 :: tr2))))) /\
  (UdpModel.u_task (n_udp s) = UdpModel.Idle -> conn_runs (n_rt s) c1 -> waiting (n_rt s) c1 = [] ->
   exists s' y, node_step s (NRecv c1) = Some (s', y)).
Proof.
  intros H X1 X2 N1 N2. destruct (superseded_subseq _ _ _ _ _ _ _ _ _ _ _ H X1 X2 N1 N2) as (ch1 & ch2 & C & T & S).
  split; [intros n; eapply subseq_trans; [exact S|]; apply (got_subseq _ s n c1 H)|].
  split; [intros n; eapply subseq_trans; [exact S|]; apply (got_subseq _ s n c1 H)|].
  intros Ti RUN W. pose proof (socket_history _ _ _ _ H) as U. pose proof (undropped _ _ _ _ H _ _ C RUN) as ND. rewrite T in U, ND.
  destruct (UdpAgainTheorems.second_connect_told _ _ _ _ _ _ _ U ND Ti) as (u' & o & ST & _ & K).
  destruct RUN as (y & Y & A). assert (R : c_recv y = RWait []). { unfold waiting in W. rewrite Y in W. destruct (c_recv y); [congruence|discriminate]. }
  cbn [NodeModel.node_step]. rewrite C, ST. unfold answer, pair_step.
  destruct K as [->|[(k & ->)|(p & ->)]]; cbn; rewrite Y, A, R; try (destruct (decode (UdpModel.p_data p))); eexists; eexists; reflexivity.
Qed.

(** An endpoint that does not serve: every proxy connects, so a second one to the same peer takes over. *)
Lemma in_split_runtime tr p : In p (runtime_trace tr) -> exists l1 x l2, tr = l1 ++ x :: l2 /\ e_rt x = Some p.
Proof.
  intros I. unfold runtime_trace in I. apply in_later in I. destruct I as (l1 & x & l2 & E & I). exists l1, x, l2. split; [exact E|].
  destruct (e_rt x) as [q|]; [|contradiction]. destruct I as [->|[]]. reflexivity.
Qed.
Lemma no_accepts tr s : history tr s -> never_served tr -> forall l a o, ~ In (EAccept l a, o) tr.
Proof.
  induction 1 as [|tr s e s' o H IH ST]; intros NS l a q I; [contradiction|].
  pose proof (never_l _ _ NS) as NS'.
  apply in_snoc in I. destruct I as [I|I]; [exact (IH NS' _ _ _ I)|]. injection I as <- <-.
  pose proof (cl_lsnrs _ (clients_history _ _ H NS')) as L. cbn in ST. rewrite L in ST. destruct l; discriminate ST.
Qed.
Lemma opened_by tr s c : nhistory tr s -> c < length (n_chan s) -> exists a, opened c a (runtime_trace tr).
Proof.
  intros H L. destruct (opens _ _ _ _ H) as [E _]. rewrite E in L. pose proof (peer_is _ _ _ _ (runtime_history _ _ _ _ H) c) as P.
  destruct (nth_error (map c_addr (r_conns (n_rt s))) c) as [a|] eqn:X; [|apply nth_error_None in X; rewrite map_length in X; lia].
  exists a. apply peer_opened. exact P.
Qed.
Lemma second_proxy tr1 y tr2 s e n m id id' a : nhistory (tr1 ++ y :: tr2) s ->
  never_served (runtime_trace (tr1 ++ y :: tr2)) ->
  proxied n id a (runtime_trace tr1) -> e_rt y = Some (e, OProxy m id' a) ->
  exists c, opened c a (runtime_trace tr1) /\
    (forall k d k', In (EProxySend n k, OOk d k') (runtime_trace (tr1 ++ y :: tr2)) -> d = c) /\
    (forall k, subseq (map it_msg (from_conn c (proxy_got k (runtime_trace (tr1 ++ y :: tr2)))))
                      (flat_map packet_messages (from_peer a (datagrams tr1)))) /\
    (UdpModel.u_task (n_udp s) = UdpModel.Idle -> conn_runs (n_rt s) c -> waiting (n_rt s) c = [] ->
     exists s' x, node_step s (NRecv c) = Some (s', x)).
Proof.
  intros H NS PX Y. destruct (nsplit _ _ _ _ H _ _ eq_refl) as (s1 & H1 & ST & _).
  assert (RT : runtime_trace (tr1 ++ y :: tr2) = runtime_trace tr1 ++ (e, OProxy m id' a) :: runtime_trace tr2).
  { rewrite runtime_app. f_equal. unfold runtime_trace at 1. cbn [flat_map]. rewrite Y. reflexivity. }
  assert (EY : runtime_trace (y :: tr2) = (e, OProxy m id' a) :: runtime_trace tr2) by (unfold runtime_trace at 1; cbn [flat_map]; rewrite Y; reflexivity).
  rewrite EY in ST. inversion ST as [|? ? ? r1 ? ? S1 S2]; subst. clear ST EY.
  pose proof (runtime_history _ _ _ _ H1) as R1. pose proof (runtime_history _ _ _ _ H) as R.
  assert (NS1 : never_served (runtime_trace tr1)) by (rewrite RT in NS; eapply never_l; exact NS).
  pose proof (clients_history _ _ R1 NS1) as CL.
  pose proof (history_inv _ _ _ _ _ R1) as V. destruct (v_proxied _ _ (in6 _ _ _ V) n id a PX) as (p & P & Ra & _). cbn in P.
  (* the connection of the new proxy *)
  assert (EP : exists c2 i, r_ep (n_rt s1) = EpTake (OwnConn c2 a) id' i).
  { destruct e; unfold RuntimeModel.step, step_ep, step_take, step_route, step_stub, i_recv, push_cmd in S1; cases_in S1; try discriminate S1.
    injection S1 as <- <- <- <-. eauto. }
  destruct EP as (c2 & i & EP). pose proof (cl_apart _ CL) as SO. rewrite EP in SO. cbn [ep_conn] in SO.
  assert (LT : px_conn p < c2).
  { apply (sorted_nth _ SO n (length (map px_conn (r_proxies (n_rt s1))))).
    - rewrite map_length. eapply nth_lt. exact P.
    - rewrite nth_error_app1; [apply map_nth_error; exact P|]. rewrite map_length. eapply nth_lt. exact P.
    - rewrite nth_error_app2, Nat.sub_diag by lia. reflexivity. }
  destruct (pointed _ _ _ _ _ R1 c2 a (p_eptake _ _ _ _ _ EP)) as (e2 & I2). destruct (in_split_runtime _ _ I2) as (l1 & x2 & l2 & E1 & X2).
  assert (O1 : opened (px_conn p) a (runtime_trace tr1)) by (eapply pointed; [exact R1|]; eapply p_proxy; [exact P|reflexivity|exact Ra]).
  destruct (open_connects _ _ _ _ H1 _ _ _ _ _ _ E1 X2) as (sl & _ & _ & HL & _ & EC & _).
  destruct (opened_by _ _ (px_conn p) HL) as (b & e1 & I1); [lia|].
  assert (b = a).
  { apply (one_address _ _ _ _ _ (px_conn p) b a R1); [|exact O1]. exists e1. rewrite E1, runtime_app. apply in_or_app. left. exact I1. } subst b.
  destruct (in_split_runtime _ _ I1) as (k1 & x1 & k2 & E2 & X1).
  assert (EQ : tr1 ++ y :: tr2 = k1 ++ x1 :: k2 ++ x2 :: (l2 ++ y :: tr2)) by (rewrite E1, E2; repeat (rewrite <- app_assoc; cbn [app]); reflexivity).
  assert (NA : forall l b o, ~ In (EAccept l b, o) (runtime_trace tr1)) by (exact (no_accepts _ _ R1 NS1)).
  pose proof H as H'. rewrite EQ in H'. destruct (second_connection _ _ _ _ _ _ _ _ _ _ _ H' X1 X2) as (_ & K2 & K3).
  - intros l ->. apply (NA l a (OSpawned (px_conn p) a)). rewrite E1, runtime_app. apply in_or_app. left. exact I1.
  - intros l ->. apply (NA l a (OSpawned c2 a)). exact I2.
  - exists (px_conn p). split; [exact O1|]. rewrite <- EQ in K2. split; [|split; [|exact K3]].
    + intros k d k' I. destruct (proxy_conn _ _ R _ _ _ _ I) as (q & Q & <-).
      assert (KEEP : forall r t r', steps bk cbk r t r' -> forall p0, nth_error (r_proxies r) n = Some p0 -> exists q, nth_error (r_proxies r') n = Some q /\ px_conn q = px_conn p0).
      { clear. induction 1 as [|r ev o r1 t r2 ST SS IH]; intros p0 P0; [eauto|]. destruct (proxies_kept _ _ _ _ _ _ ST P0) as (q & Q & E).
        destruct (IH _ Q) as (q' & Q' & E'). exists q'. split; [exact Q'|congruence]. }
      destruct (proxies_kept _ _ _ _ _ _ S1 P) as (q1 & Q1 & F1). destruct (KEEP _ _ _ S2 _ Q1) as (q2 & Q2 & F2). congruence.
    + intros k. eapply subseq_trans; [|apply K2]. apply subseq_flat_map. unfold from_peer. apply subseq_map.
      assert (Z : datagrams tr1 = datagrams (k1 ++ x1 :: k2) ++ datagrams (x2 :: l2)) by (rewrite E1, E2; unfold datagrams; rewrite socket_app, arrivals_app; reflexivity).
      rewrite Z, filter_app. rewrite <- (app_nil_r (filter _ (datagrams (k1 ++ x1 :: k2)))) at 1. apply subseq_app; [apply subseq_refl|apply subseq_nil].
Qed.
End Locks.

(** Two schedules in which a proxy is cut off although nothing failed and nothing was dropped. *)
Definition cut_by_proxy : list nevent :=
  map NRun [EProxy (1%N, 1%N) 5%N; EEp true; EEp true; EEp true; EEp true; ESender 0] ++
  [NDatagram 5%N (s_form (note 1 7)); NTask; NTask; NRecv 0; NRun (ERoute 0); NRun (ERoute 0); NRun (EProxyRecv 0)] ++
  map NRun [EProxy (2%N, 1%N) 5%N; EEp true; EEp true; EEp true; EEp true; ESender 1] ++
  [NRecv 0; NDatagram 5%N (s_form (note 1 8)); NTask; NTask; NRecv 1; NRun (ERoute 1); NRun (EProxyRecv 0); NRun (EProxySend 0 (note 1 9))].
Definition cut_by_stub : list nevent :=
  map NRun [EServe (2%N, 1%N); EEp true; EEp true; EEp true; EEp true; EListener 0;
            EProxy (1%N, 1%N) 5%N; EEp true; EEp true; EEp true; EEp true; ESender 0] ++
  [NDatagram 5%N (s_form (note 2 7)); NTask; NTask; NRecv 0; NRun (ERoute 0); NRun (ERoute 0); NRun (ERecvFrom 0)] ++
  map NRun [ESendTo 0 5%N (note 2 8); EStub 0 true; EStub 0 true; EStub 0 true; EStub 0 true; EStub 0 true] ++
  [NRecv 0; NDatagram 5%N (s_form (note 1 8)); NTask; NTask; NRecv 1; NRun (ERoute 1); NRun (EProxyRecv 0); NRun (EProxySend 0 (note 1 9))].
Lemma node_run_hist bk cbk es : forall tr s s' tr', nhistory bk cbk tr s -> node_run bk cbk s es = Some (s', tr') -> nhistory bk cbk (tr ++ tr') s'.
Proof.
  induction es as [|e es IH]; intros tr s s' tr' H R; cbn in R.
  - injection R as <- <-. rewrite app_nil_r. exact H.
  - destruct (node_step bk cbk s e) as [[s1 o]|] eqn:ST; [|discriminate]. destruct (node_run bk cbk s1 es) as [[s2 t2]|] eqn:R2; [|discriminate].
    cbn in R. injection R as <- <-. change (o :: t2) with ([o] ++ t2). rewrite app_assoc. eapply IH; [|exact R2]. econstructor; eassumption.
Qed.
Lemma cut_off bk cbk : exists tr s, nhistory bk cbk tr s /\ Forall harmless tr /\ never_served (runtime_trace tr) /\
  proxied 0 (1%N, 1%N) 5%N (runtime_trace tr) /\ proxy_exists (n_rt s) 0 /\
  from_peer 5%N (datagrams tr) = [s_form (note 1 7); s_form (note 1 8)] /\ map it_msg (proxy_got 0 (runtime_trace tr)) = [note 1 7] /\
  In (EProxyRecv 0, OClosed) (runtime_trace tr) /\ In (EProxySend 0 (note 1 9), OError) (runtime_trace tr).
Proof.
  destruct (node_run bk cbk node_init cut_by_proxy) as [[s tr]|] eqn:R; [|vm_compute in R; discriminate R].
  exists tr, s. split; [exact (node_run_hist _ _ _ [] _ _ _ (n_start _ _) R)|]. vm_compute in R. injection R as <- <-.
  split; [repeat (constructor; [split; [discriminate|cbn; first [exact Logic.I|repeat eexists]]|]); constructor|].
  split; [intros i o; split; intros I; cbn in I; intuition discriminate|]. split; [exists (EEp true); cbn; tauto|].
  split; [eexists; split; reflexivity|]. split; [reflexivity|]. split; [reflexivity|]. split; cbn; tauto.
Qed.
Lemma cut_off_by_stub bk cbk : exists tr s, nhistory bk cbk tr s /\ Forall harmless tr /\
  proxied 0 (1%N, 1%N) 5%N (runtime_trace tr) /\ (forall n id a, proxied n id a (runtime_trace tr) -> n = 0) /\ proxy_exists (n_rt s) 0 /\
  from_peer 5%N (datagrams tr) = [s_form (note 2 7); s_form (note 1 8)] /\ stub_got 0 (runtime_trace tr) <> [] /\ proxy_got 0 (runtime_trace tr) = [] /\
  In (EProxyRecv 0, OClosed) (runtime_trace tr) /\ In (EProxySend 0 (note 1 9), OError) (runtime_trace tr).
Proof.
  destruct (node_run bk cbk node_init cut_by_stub) as [[s tr]|] eqn:R; [|vm_compute in R; discriminate R].
  exists tr, s. split; [exact (node_run_hist _ _ _ [] _ _ _ (n_start _ _) R)|]. vm_compute in R. injection R as <- <-.
  split; [repeat (constructor; [split; [discriminate|cbn; first [exact Logic.I|repeat eexists]]|]); constructor|].
  split; [exists (EEp true); cbn; tauto|]. split; [intros n id a [e I]; cbn in I; intuition (try discriminate); congruence|].
  split; [eexists; split; reflexivity|]. split; [reflexivity|]. split; [discriminate|]. split; [reflexivity|]. split; cbn; tauto.
Qed.
(** ... and one in which nothing was sent at all: the [send_to] was dropped. *)
Definition cut_by_dropped : list nevent :=
  map NRun [EServe (2%N, 1%N); EEp true; EEp true; EEp true; EEp true; EListener 0;
            EProxy (1%N, 1%N) 5%N; EEp true; EEp true; EEp true; EEp true; ESender 0] ++
  [NDatagram 5%N (s_form (note 1 7)); NTask; NTask; NRecv 0; NRun (ERoute 0); NRun (ERoute 0); NRun (EProxyRecv 0)] ++
  map NRun [ESendTo 0 5%N (note 2 8); EStub 0 true; ECancel 0 true; ETake 0 true] ++
  [NRecv 0; NDatagram 5%N (s_form (note 1 8)); NTask; NTask; NRecv 1; NRun (ERoute 1); NRun (EProxyRecv 0); NRun (EProxySend 0 (note 1 9))].
Lemma cut_off_by_dropped bk cbk : exists tr s, nhistory bk cbk tr s /\ Forall harmless tr /\
  proxied 0 (1%N, 1%N) 5%N (runtime_trace tr) /\ (forall n id a, proxied n id a (runtime_trace tr) -> n = 0) /\ proxy_exists (n_rt s) 0 /\
  (forall e c m, ~ In (e, OOk c m) (runtime_trace tr)) /\
  from_peer 5%N (datagrams tr) = [s_form (note 1 7); s_form (note 1 8)] /\ map it_msg (proxy_got 0 (runtime_trace tr)) = [note 1 7] /\
  In (EProxyRecv 0, OClosed) (runtime_trace tr) /\ In (EProxySend 0 (note 1 9), OError) (runtime_trace tr).
Proof.
  destruct (node_run bk cbk node_init cut_by_dropped) as [[s tr]|] eqn:R; [|vm_compute in R; discriminate R].
  exists tr, s. split; [exact (node_run_hist _ _ _ [] _ _ _ (n_start _ _) R)|]. vm_compute in R. injection R as <- <-.
  split; [repeat (constructor; [split; [discriminate|cbn; first [exact Logic.I|repeat eexists]]|]); constructor|].
  split; [exists (EEp true); cbn; tauto|]. split; [intros n id a [e I]; cbn in I; intuition (try discriminate); congruence|].
  split; [eexists; split; reflexivity|]. split; [intros e c m I; cbn in I; intuition discriminate|].
  split; [reflexivity|]. split; [reflexivity|]. split; cbn; tauto.
Qed.
