(** Proofs of the statements in PropertiesExchange.v. *)
From Coq Require Import List NArith Bool PeanoNat Lia.
From Verif Require Import BytesModel WireSpec SomeipModel SomeipSpec MapModel RuntimeModel RuntimeSpec RuntimeProofs RuntimeTheorems
  RuntimeProgressTheorems RuntimeSendTheorems RuntimeWorkTheorems RuntimeAddrTheorems NodeModel NodeSpec NodeProofs NodeTheorems NodeNetTheorems NodeLossTheorems NodeProxyTheorems ExchangeSpec.
From Verif Require UdpModel UdpSpec UdpProofs UdpInv UdpTheorems UdpContact.
Import ListNotations.
Open Scope nat_scope.

Section Locks.
Context (bk : iid -> N) (cbk : N -> N).
Local Notation step := (step bk cbk).
Local Notation steps := (steps bk cbk).
Local Notation history := (history bk cbk true).
Local Notation node_step := (node_step bk cbk).
Local Notation nhistory := (nhistory bk cbk).
Local Notation net_history := (net_history bk cbk).
Local Notation at_peace := (at_peace bk cbk).

(** Every connection is opened once. *)
Definition spawns (tr : list (event * obs)) : list nat :=
  flat_map (fun p => match snd p with OSpawned c _ => [c] | _ => [] end) tr.
Lemma spawns_are tr s : history tr s -> spawns tr = seq 0 (length (r_conns s)).
Proof.
  induction 1 as [|tr s e s' o H IH ST]; [reflexivity|]. unfold spawns. rewrite flat_map_app. fold (spawns tr). rewrite IH.
  pose proof (step_addrs _ _ _ _ _ _ ST) as A. apply (f_equal (@length N)) in A. rewrite app_length, !map_length in A. rewrite A.
  rewrite seq_app. f_equal. cbn. destruct o; cbn [spawned length seq]; try reflexivity.
  apply spawn_event in ST. destruct ST as [-> _]. reflexivity.
Qed.
Lemma spawned_once t1 e c a t2 s : history (t1 ++ (e, OSpawned c a) :: t2) s -> forall e' a', ~ In (e', OSpawned c a') t1 /\ ~ In (e', OSpawned c a') t2.
Proof.
  intros H e' a'. apply spawns_are in H. assert (D : NoDup (spawns (t1 ++ (e, OSpawned c a) :: t2))) by (rewrite H; apply seq_NoDup).
  unfold spawns in D. rewrite flat_map_app in D. cbn [flat_map snd app] in D. apply NoDup_remove in D. destruct D as [_ D].
  assert (K : forall t, In (e', OSpawned c a') t -> In c (flat_map (fun p : event * obs => match snd p with OSpawned c _ => [c] | _ => [] end) t)).
  { intros t I. apply in_flat_map. exists (e', OSpawned c a'). split; [exact I|left; reflexivity]. }
  split; intros I; apply D, in_or_app; [left|right]; apply K; exact I.
Qed.
Lemma spawned_by tr s e e' c a a' : history tr s -> In (e, OSpawned c a) tr -> In (e', OSpawned c a') tr -> e = e'.
Proof.
  intros H I I'. apply in_split in I. destruct I as (t1 & t2 & ->). destruct (spawned_once _ _ _ _ _ _ H e' a') as [N1 N2].
  apply in_app_or in I'. destruct I' as [I'|[I'|I']]; [contradiction|congruence|contradiction].
Qed.

(** At peace nothing is unread. *)
Lemma peaceful_quiet tr s a : nhistory tr s -> at_peace s -> UdpSpec.quiet (n_udp s) a.
Proof.
  intros H P. pose proof (nothing_arriving _ _ _ P) as NT. cbn in NT. unfold socket_step in NT.
  pose proof (UdpInv.inv_history _ _ (socket_history _ _ _ _ H)) as I.
  destruct (Nat.eq_dec (UdpTheorems.left (UdpModel.u_task (n_udp s))) 0) as [E|E].
  - unfold UdpSpec.quiet. destruct (UdpModel.u_task (n_udp s)); try exact Logic.I; discriminate E.
  - destruct (UdpTheorems.task_moves _ _ I E) as (u' & T & _). apply UdpTheorems.option_map_task in T. rewrite T in NT. exfalso. eapply NT. reflexivity.
Qed.
Lemma peaceful_read tr s k c a rest : nhistory tr s -> at_peace s -> unread bk cbk k s c a rest -> rest = [].
Proof.
  intros H P (buf & pend & -> & _ & Q & R). rewrite (Q (peaceful_quiet _ _ _ H P)), app_nil_r.
  specialize (R (all_routed _ (nothing_to_do _ _ _ P) c)). destruct buf as [|d buf]; [reflexivity|exfalso].
  destruct R as (s' & x & S & X). pose proof (nothing_to_read _ _ _ P _ _ _ S) as Y. rewrite X in Y.
  destruct (k <? length (d :: buf)); discriminate Y.
Qed.

(** The only connection with a peer, accepted by a listener: everything from the peer. *)
Lemma accepted_everything tr s x l c a : nhistory tr s -> In x tr -> e_rt x = Some (EAccept l a, OSpawned c a) ->
  (forall d, opened d a (runtime_trace tr) -> d = c) -> welcome a (socket_trace tr) ->
  (forall o, ~ In (ELagged c, o) (runtime_trace tr)) -> conn_runs (n_rt s) c ->
  exists rest, packets_on c (runtime_trace tr) ++ rest = from_peer a (datagrams tr) /\ unread bk cbk 32 s c a rest.
Proof.
  intros H IX X OC W NL RUN. apply in_split in IX. destruct IX as (tr1 & tr2 & ET).
  destruct (open_connects _ _ _ _ H _ _ _ _ _ _ ET X) as (s1 & s2 & ch & H1 & H2 & EC & CH & [[_ INT]|(l' & k & EA & XU)]);
    [discriminate INT|]. injection EA as <-.
  assert (C : nth_error (n_chan s) c = Some ch).
  { eapply (chan_kept _ _ _ _ (tr1 ++ [x]) tr2 s2); [exact H|rewrite ET, <- app_assoc; reflexivity|exact H2|]. rewrite CH, EC. apply nth_snoc_new. }
  assert (IA : In (UdpModel.EAccept k, UdpModel.OAccepted ch a) (socket_trace tr)).
  { rewrite ET, socket_app. apply in_or_app. right. unfold socket_trace. cbn [flat_map]. rewrite XU. left. reflexivity. }
  assert (IR : In (EAccept l a, OSpawned c a) (runtime_trace tr)).
  { rewrite ET, runtime_app. apply in_or_app. right. unfold runtime_trace. cbn [flat_map]. rewrite X. left. reflexivity. }
  pose proof (runtime_history _ _ _ _ H) as R.
  destruct (UdpContact.first_contact _ _ _ _ _ (socket_history _ _ _ _ H) IA) as (done & pending & rest & PF & PL & PQ & RD & u' & DU); [| |exact W|].
  - intros c' I. unfold socket_trace in I. apply in_later in I. destruct I as (l1 & z & l2 & E' & I).
    destruct (e_udp z) as [q|] eqn:Z; [|contradiction]. destruct I as [->|[]].
    destruct (connect_opens _ _ _ _ H _ _ _ _ _ E' Z) as (e' & d' & V & INT').
    assert (I' : In (e', OSpawned d' a) (runtime_trace tr)).
    { rewrite E', runtime_app. apply in_or_app. right. unfold runtime_trace. cbn [flat_map]. rewrite V. left. reflexivity. }
    assert (d' = c) by (apply OC; exists e'; exact I'). subst d'.
    rewrite <- (spawned_by _ _ _ _ _ _ _ R IR I') in INT'. discriminate INT'.
  - intros c' o I (x' & X' & A').
    assert (IC : In c' (n_chan s)).
    { clear -H I. induction H as [|tr s e s' x H IH ST]; [contradiction|]. apply node_step_inv in ST. rewrite socket_snoc in I. apply in_app_or in I.
      assert (M : In c' (n_chan s) -> In c' (n_chan s')) by (destruct ST; cbn; intros; try assumption; apply in_or_app; left; assumption).
      destruct I as [J|J]; [auto|]. destruct ST; cbn in *; try contradiction; destruct J as [J|[]]; try discriminate J.
      injection J as -> ->. destruct (H2 _ eq_refl) as (c & x & C & _). eapply nth_error_In; eassumption. }
    apply In_nth_error in IC. destruct IC as [d D].
    destruct (opens _ _ _ _ H) as [LE _]. pose proof (nth_lt _ _ _ D) as LD. rewrite LE in LD.
    destruct (nth_error (r_conns (n_rt s)) d) as [y|] eqn:Y; [|apply nth_error_None in Y; lia].
    pose proof (chan_opened _ _ _ _ _ _ _ H D Y) as O.
    destruct (UdpProofs.i_opened _ _ (UdpInv.inv_history _ _ (socket_history _ _ _ _ H)) _ _ O) as (x2 & X2 & A2).
    assert (CA : c_addr y = a) by congruence.
    assert (d = c). { apply OC, peer_opened. rewrite (peer_is _ _ _ _ R), (map_nth_error c_addr _ _ Y), CA. reflexivity. } subst d.
    exact (undropped _ _ _ _ H _ _ D RUN _ I).
  - apply (taken_and_rest _ _ _ _ _ _ _ _ H C NL) in RD.
    exists (map UdpModel.p_data rest ++ map UdpModel.p_data pending). split.
    + rewrite app_assoc, <- RD, <- map_app, <- PF, packets_from_data. reflexivity.
    + exists (map UdpModel.p_data rest), (map UdpModel.p_data pending). rewrite map_length. split; [reflexivity|]. split; [exact PL|].
      split; [intros Z; rewrite (PQ Z); reflexivity|]. intros Wt. eapply due_read; eassumption.
Qed.

(** What comes from an address comes over its connection. *)
Lemma by_address tr s its a c : nhistory tr s -> (forall it, In it its -> In it (all_got (runtime_trace tr))) ->
  opened c a (runtime_trace tr) -> (forall d, opened d a (runtime_trace tr) -> d = c) ->
  from_addr a its = map it_msg (from_conn c its).
Proof.
  intros H G O OC. unfold from_addr, from_conn. f_equal. apply filter_ext_in. intros it I.
  destruct (got_facts _ _ _ _ _ (runtime_history _ _ _ _ H) (G _ I)) as [_ P].
  destruct (N.eqb_spec (it_addr it) a) as [E|E], (Nat.eqb_spec (it_conn it) c) as [E'|E']; try reflexivity; exfalso.
  - apply E', OC. rewrite <- E. exact P.
  - apply E. rewrite E' in P. exact (one_address _ _ _ _ _ _ _ _ (runtime_history _ _ _ _ H) P O).
Qed.

Lemma stub_everything tr s t1 x t2 l c a n id : nhistory tr s -> at_peace s -> tr = t1 ++ x :: t2 -> e_rt x = Some (EAccept l a, OSpawned c a) ->
  served n id (runtime_trace t1) -> (forall d, opened d a (runtime_trace tr) -> d = c) -> welcome a (socket_trace tr) ->
  (forall o, ~ In (ELagged c, o) (runtime_trace tr)) -> stub_exists (n_rt s) n -> stub_listening (n_rt s) n -> conn_runs (n_rt s) c ->
  from_addr a (stub_got n (runtime_trace tr)) = filter (of_id id) (flat_map packet_messages (from_peer a (datagrams tr))).
Proof.
  intros H P ET X S OC W NL SE SL RUN.
  destruct (accepted_everything _ _ x l c a H) as (rest & PK & U); try assumption; [rewrite ET; apply in_or_app; right; left; reflexivity|].
  rewrite (peaceful_read _ _ _ _ _ _ H P U), app_nil_r in PK. rewrite <- PK, <- decoded_packets.
  assert (IR : In (EAccept l a, OSpawned c a) (runtime_trace tr)).
  { rewrite ET, runtime_app. apply in_or_app. right. unfold runtime_trace. cbn [flat_map]. rewrite X. left. reflexivity. }
  rewrite (by_address _ _ _ _ c H (stub_got_all n _)); [|eexists; exact IR|exact OC].
  pose proof (runtime_history _ _ _ _ H) as R.
  assert (A : map it_msg (from_conn c (stub_got n (runtime_trace tr) ++ stub_backlog (n_rt s) n)) ++ map it_msg (for_id id (waiting (n_rt s) c)) =
              filter (of_id id) (decoded c (runtime_trace tr))).
  { rewrite ET, runtime_app in R |- *. apply (stub_accounts bk cbk true); auto.
    destruct (open_connects _ _ _ _ H _ _ _ _ _ _ ET X) as (s1 & _ & _ & H1 & _ & EC & _). eapply undecoded; [exact H1|lia]. }
  rewrite (all_routed _ (nothing_to_do _ _ _ P)), (stubs_read _ (nothing_to_do _ _ _ P)) in A by exact SE.
  cbn in A. rewrite !app_nil_r in A. exact A.
Qed.

(** A proxy that was there before anything came from the peer. *)
Lemma proxied_opened tr s k id a : history tr s -> proxied k id a tr -> exists p, nth_error (r_proxies s) k = Some p /\ opened (px_conn p) a tr.
Proof.
  intros R PX. pose proof (history_inv _ _ _ _ _ R) as V. destruct (v_proxied _ _ (in6 _ _ _ V) k id a PX) as (p & P & Ra & _). cbn in P.
  exists p. split; [exact P|]. eapply pointed; [exact R|]. eapply p_proxy; [exact P|reflexivity|exact Ra].
Qed.
Lemma proxy_everything tr s t1 t2 d b k id : nhistory tr s -> at_peace s -> tr = t1 ++ t2 ->
  proxied k id b (runtime_trace t1) -> from_peer b (datagrams t1) = [] -> (forall d', opened d' b (runtime_trace tr) -> d' = d) ->
  (forall o, ~ In (ELagged d, o) (runtime_trace tr)) -> proxy_exists (n_rt s) k -> conn_runs (n_rt s) d ->
  from_addr b (proxy_got k (runtime_trace tr)) = filter (of_id id) (flat_map packet_messages (from_peer b (datagrams tr))).
Proof.
  intros H P ET PX NP OC NL PE RUN. destruct (nsplit _ _ _ _ H _ _ ET) as (s1 & H1 & ST & _).
  pose proof (runtime_history _ _ _ _ H) as R. pose proof (runtime_history _ _ _ _ H1) as R1.
  destruct (proxied_opened _ _ _ _ _ R1 PX) as (p & Pp & e & O1). set (c := px_conn p) in *.
  assert (UP : forall q, In q (runtime_trace t1) -> In q (runtime_trace tr)) by (intros q I; rewrite ET, runtime_app; apply in_or_app; left; exact I).
  assert (CD : c = d) by (apply OC; exists e; apply UP, O1).
  destruct (in_split_runtime _ _ O1) as (u1 & x & u2 & E1 & X).
  destruct (open_connects _ _ _ _ H1 _ _ _ _ _ _ E1 X) as (s0 & s2 & ch & H0 & H2 & EC & CH & K).
  assert (D0 : forall v w, from_peer b (datagrams (v ++ w)) = from_peer b (datagrams v) ++ from_peer b (datagrams w)).
  { intros v w. unfold datagrams. rewrite socket_app, arrivals_app, from_peer_app. reflexivity. }
  assert (EX : forall v, from_peer b (datagrams (x :: v)) = from_peer b (datagrams [x]) ++ from_peer b (datagrams v)) by (intros v; exact (D0 [x] v)).
  pose proof NP as NP'. rewrite E1, D0, EX in NP'. apply app_eq_nil in NP'. destruct NP' as [N1 N2]. apply app_eq_nil in N2. destruct N2 as [N2 N3].
  assert (PF0 : forall t, from_peer b (datagrams t) = [] -> UdpSpec.packets_from b 0 (socket_trace t) = []).
  { intros t E. unfold datagrams in E. rewrite <- (packets_from_data _ _ 0) in E. apply map_eq_nil in E. exact E. }
  assert (Q : UdpSpec.quiet (n_udp s0) b) by (eapply UdpContact.nothing_yet; [eapply socket_history; exact H0|apply PF0; exact N1]).
  assert (NA : forall l, e <> EAccept l b).
  { intros l ->. destruct K as [[_ INT]|(l' & k' & _ & XU)]; [discriminate INT|].
    apply (UdpContact.none_accepted _ _ _ k' ch (socket_history _ _ _ _ H1) (PF0 _ NP)). rewrite E1, socket_app. apply in_or_app. right.
    unfold socket_trace. cbn [flat_map]. rewrite XU. left. reflexivity. }
  assert (EQ : tr = u1 ++ x :: u2 ++ t2) by (rewrite ET, E1, <- app_assoc; reflexivity).
  assert (RT : runtime_trace tr = runtime_trace u1 ++ (e, OSpawned c b) :: runtime_trace (u2 ++ t2)).
  { rewrite EQ, runtime_app. f_equal. unfold runtime_trace at 1. cbn [flat_map]. rewrite X. reflexivity. }
  pose proof R as R'. rewrite RT in R'.
  assert (PC : proxy_connected (n_rt s) k).
  { destruct PE as (q & Qk & _). exists q. split; [exact Qk|].
    destruct (proxied_opened _ _ k id b R) as (q' & Q' & O'); [destruct PX as [e0 PX]; exists e0; apply UP; exact PX|].
    assert (q' = q) by congruence. subst q'. rewrite (OC _ O'). exact RUN. }
  pose proof H as H'. rewrite EQ in H'.
  destruct (proxy_complete _ _ _ _ _ _ _ _ _ _ _ k id H0 Q H' X NA) as (rest & U & A); try assumption.
  - rewrite <- E1. exact PX.
  - intros bs o I. assert (OP : opened c b (runtime_trace t1)) by (exists e; exact O1).
    pose proof (taken_subseq _ _ _ _ _ _ H1 OP) as SQ. rewrite NP in SQ. destruct (opened_is_peer _ _ _ _ _ _ H1 OP) as [LC _].
    destruct (conn_chan _ _ _ _ _ H1 LC) as (CC & _). destruct (reading _ _ _ _ H1) as (_ & _ & I3). unfold taken_by in SQ.
    pose proof (I3 _ _ CC) as PK. inversion SQ as [Z| |]. rewrite <- Z in PK.
    assert (J : In bs (packets_on c (runtime_trace t1))).
    { apply in_flat_map. exists (EPacket c bs, o). split; [|cbn; rewrite Nat.eqb_refl; left; reflexivity].
      rewrite E1, runtime_app. apply in_or_app. right. unfold runtime_trace. cbn [flat_map]. apply in_or_app. right. exact I. }
    rewrite PK in J. exact J.
  - intros e' d' I. exfalso. apply (proj2 (spawned_once _ _ _ _ _ _ R' e' b)). assert (d' = c) by (rewrite CD; apply OC; exists e'; rewrite RT; apply in_or_app; right; right; exact I).
    subst d'. exact I.
  - intros o I. apply (NL o). rewrite <- CD. rewrite RT. apply in_or_app. right. right. exact I.
  - rewrite CD. exact RUN.
  - rewrite <- EQ in A. rewrite (peaceful_read _ _ _ _ _ _ H P U) in A. cbn [flat_map filter] in A.
    rewrite (all_routed _ (nothing_to_do _ _ _ P)), (proxies_read _ (nothing_to_do _ _ _ P)) in A by exact PE.
    cbn in A. rewrite !app_nil_r in A.
    rewrite (by_address _ _ _ _ c H (proxy_got_all k _)); [|exists e; apply UP, O1|intros d' O; rewrite CD; apply OC, O].
    rewrite A, EQ, (D0 u1), EX, N1, N2. reflexivity.
Qed.

(** At rest everything accepted is with the network. *)
Lemma sent_at_peace tr w a b d : net_history tr w -> at_peace (w a) -> one_connection a b d tr w ->
  carried a b tr = map encode (from_peer b (accepted_for (at_node a tr))).
Proof.
  intros H P [OC RUN]. pose proof (at_history _ _ _ _ a H) as A. unfold carried.
  destruct (through_one _ _ _ _ b A) as (c & -> & -> & U); [intros d1 d2 O1 O2; apply OC in O1, O2; congruence|].
  assert (c = d) by (symmetry; apply U, OC; reflexivity). subst c.
  apply (sent_all _ _ _ _ _ _ (runtime_history _ _ _ _ A) (nothing_to_do _ _ _ P) RUN).
Qed.
Lemma brought_at_peace tr w a b d : net_history tr w -> at_peace (w a) -> one_connection a b d tr w -> sendable a tr -> all_brought a b tr ->
  flat_map packet_messages (from_peer a (datagrams (at_node b tr))) = map read_back (from_peer b (accepted_for (at_node a tr))).
Proof.
  intros H P OC S B. rewrite B, (sent_at_peace _ _ _ _ _ H P OC).
  assert (K : Forall (fun m => typed m /\ (8 + len (s_payload m) < 2 ^ 32)%N) (from_peer b (accepted_for (at_node a tr)))).
  { unfold sendable in S. rewrite Forall_forall in S |- *. intros m I. apply from_peer_in in I. exact (S _ I). }
  apply packets_all; (eapply Forall_impl; [|exact K]); intros m M; apply M.
Qed.

Lemma requests_arrive tr w a b d c t1 x t2 l n id : net_history tr w -> at_peace (w a) -> at_peace (w b) ->
  sendable a tr -> all_brought a b tr -> one_connection a b d tr w -> one_connection b a c tr w ->
  at_node b tr = t1 ++ x :: t2 -> e_rt x = Some (EAccept l a, OSpawned c a) -> served n id (runtime_trace t1) ->
  welcome a (socket_trace (at_node b tr)) -> (forall o, ~ In (ELagged c, o) (runtime_trace (at_node b tr))) ->
  stub_exists (n_rt (w b)) n -> stub_listening (n_rt (w b)) n ->
  from_addr a (stub_got n (runtime_trace (at_node b tr))) = filter (of_id id) (map read_back (from_peer b (accepted_for (at_node a tr)))).
Proof.
  intros H PA PB S B OA [OB RUN] ET X SV W NL SE SL. rewrite <- (brought_at_peace _ _ _ _ _ H PA OA S B).
  eapply stub_everything; try eassumption; [apply at_history; exact H|]. intros d' O. apply OB. exact O.
Qed.

Lemma answers_arrive tr w a b d c t1 t2 k id : net_history tr w -> at_peace (w a) -> at_peace (w b) ->
  sendable b tr -> all_brought b a tr -> one_connection a b d tr w -> one_connection b a c tr w ->
  at_node a tr = t1 ++ t2 -> proxied k id b (runtime_trace t1) -> from_peer b (datagrams t1) = [] ->
  (forall o, ~ In (ELagged d, o) (runtime_trace (at_node a tr))) -> proxy_exists (n_rt (w a)) k ->
  from_addr b (proxy_got k (runtime_trace (at_node a tr))) = filter (of_id id) (map read_back (from_peer a (accepted_for (at_node b tr)))).
Proof.
  intros H PA PB S B [OA RUN] OB ET PX NP NL PE. rewrite <- (brought_at_peace _ _ _ _ _ H PB OB S B).
  apply (proxy_everything _ (w a) t1 t2 d); try assumption; [apply at_history; exact H|]. intros d' O. apply OA. exact O.
Qed.

(** A service that answers every request, in order. *)
Lemma exchange tr w a b d c t1 x t2 u1 u2 l n k id reply : net_history tr w -> at_peace (w a) -> at_peace (w b) ->
  sendable a tr -> sendable b tr -> all_brought a b tr -> all_brought b a tr -> one_connection a b d tr w -> one_connection b a c tr w ->
  at_node b tr = t1 ++ x :: t2 -> e_rt x = Some (EAccept l a, OSpawned c a) -> served n id (runtime_trace t1) ->
  welcome a (socket_trace (at_node b tr)) -> (forall o, ~ In (ELagged c, o) (runtime_trace (at_node b tr))) ->
  stub_exists (n_rt (w b)) n -> stub_listening (n_rt (w b)) n ->
  at_node a tr = u1 ++ u2 -> proxied k id b (runtime_trace u1) -> from_peer b (datagrams u1) = [] ->
  (forall o, ~ In (ELagged d, o) (runtime_trace (at_node a tr))) -> proxy_exists (n_rt (w a)) k ->
  Forall (fun m => ordinary m /\ id_of m = id) (from_peer b (accepted_for (at_node a tr))) ->
  (forall m, id_of m = id -> id_of (reply m) = id /\ (ordinary m -> ordinary (reply m))) ->
  from_peer a (accepted_for (at_node b tr)) = map reply (from_addr a (stub_got n (runtime_trace (at_node b tr)))) ->
  from_addr b (proxy_got k (runtime_trace (at_node a tr))) = map reply (from_peer b (accepted_for (at_node a tr))).
Proof.
  intros H PA PB SA SB BA BB OA OB ET X SV W NL SE SL ET' PX NP NL' PE F RP AN.
  rewrite (answers_arrive _ _ _ _ _ _ _ _ _ _ H PA PB SB BB OA OB ET' PX NP NL' PE), AN.
  rewrite (requests_arrive _ _ _ _ _ _ _ _ _ _ _ _ H PA PB SA BA OA OB ET X SV W NL SE SL).
  induction F as [|m ms [O E] F IH]; [reflexivity|].
  assert (Q : forall m, id_of m = id -> of_id id m = true).
  { intros m' <-. unfold of_id, id_of. cbn. rewrite !N.eqb_refl. reflexivity. }
  destruct (RP m E) as [E1 E2]. cbn [map filter]. rewrite (read_back_id _ O), (Q _ E). cbn [map filter].
  rewrite (read_back_id _ (E2 O)), (Q _ E1). f_equal. exact IH.
Qed.
End Locks.
