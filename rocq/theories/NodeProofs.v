(** An endpoint over UDP: what one step does, and how the two halves hang together. *)
From Coq Require Import List NArith Bool PeanoNat Lia Permutation Sorted.
From Verif Require Import BytesModel MapModel RuntimeModel RuntimeSpec RuntimeProofs NodeModel NodeSpec.
From Verif Require UdpModel UdpSpec UdpProofs UdpTheorems.
Import ListNotations.
Open Scope nat_scope.

Ltac cases_in H :=
  repeat (match type of H with
  | context [match ?x with _ => _ end] =>
      lazymatch x with context [match _ with _ => _ end] => fail | _ => destruct x eqn:? end
  end; try discriminate H).

Section Locks.
Context (bk : iid -> N) (cbk : N -> N).
Local Notation step := (step bk cbk).
Local Notation history := (history bk cbk true).
Local Notation node_step := (node_step bk cbk).
Local Notation nhistory := (nhistory bk cbk).

Definition spawned (o : obs) : list N := match o with OSpawned _ a => [a] | _ => [] end.

Lemma step_addrs s e o s' : step s e = Some (s', o) ->
  map c_addr (r_conns s') = map c_addr (r_conns s) ++ spawned o.
Proof.
  intros H. pose proof (step_view bk cbk _ _ _ _ H) as V.
  assert (E : forall t, map c_addr (r_conns t) = map v_addr (a_conns (view t)))
    by (intros t; cbn; rewrite map_map; apply map_ext; intros x; reflexivity).
  rewrite 2 E. clear E H.
  assert (U : forall c f l, (forall x, v_addr (f x) = v_addr x) -> map v_addr (upd c f l) = map v_addr l)
    by (intros c f l F; apply map_upd_id; intros x _; apply F).
  destruct V; cbn; rewrite ?map_app, ?app_nil_r; try reflexivity; try (apply U; intros x'; reflexivity).
  all: try (match goal with H : quiet ?e ?o |- _ => destruct H as (_ & _ & Q & _); destruct o; cbn; rewrite ?app_nil_r end).
  all: try reflexivity; try (apply U; intros x'; reflexivity).
  1-3: exfalso; exact (Q _ _ eq_refl).
  - destruct (N.eqb (px_remote p) (it_addr it)); cbn; rewrite app_nil_r; reflexivity.
Qed.

Lemma spawn_event s e c a s' : step s e = Some (s', OSpawned c a) ->
  c = length (r_conns s) /\ ((exists ok, e = EEp ok) \/ (exists n ok, e = EStub n ok) \/ (exists l, e = EAccept l a) \/ (exists k ok, e = ETake k ok)).
Proof.
  intros H. destruct e; cbn in H; unfold step_ep, step_take, step_route, step_stub, i_recv, push_cmd in H; cases_in H;
  try (injection H as <- <- <-); split; eauto 6.
Qed.

(** What happens in the socket alone. *)
Definition socket_only (f : UdpModel.event) : bool :=
  match f with
  | UdpModel.EPacket _ _ | UdpModel.ETask | UdpModel.EError | UdpModel.EDropReceiver _ | UdpModel.EDropListener _
  | UdpModel.EDropSocket => true
  | _ => false
  end.

Inductive nstepped (s : node) : node -> entry -> Prop :=
| ns_rt e o r : internal e = true -> step (n_rt s) e = Some (r, o) -> spawned o = [] ->
    length (r_lsnrs r) <= length (r_lsnrs (n_rt s)) ->
    nstepped s (mkN r (n_udp s) (n_chan s) (n_lst s)) (mkE (Some (e, o)) None None)
| ns_connect e c a r u ch : internal e = true -> step (n_rt s) e = Some (r, OSpawned c a) ->
    UdpModel.step (n_udp s) (UdpModel.EConnect a) = Some (u, UdpModel.OConnected ch) ->
    nstepped s (mkN r u (n_chan s ++ [ch]) (n_lst s))
      (mkE (Some (e, OSpawned c a)) (Some (UdpModel.EConnect a, UdpModel.OConnected ch)) None)
| ns_listen e o r u l : internal e = true -> step (n_rt s) e = Some (r, o) -> spawned o = [] ->
    length (r_lsnrs (n_rt s)) < length (r_lsnrs r) ->
    UdpModel.step (n_udp s) (UdpModel.EListen 8) = Some (u, UdpModel.OListening l) ->
    nstepped s (mkN r u (n_chan s) (n_lst s ++ [l]))
      (mkE (Some (e, o)) (Some (UdpModel.EListen 8, UdpModel.OListening l)) None)
| ns_socket f u q : socket_only f = true -> UdpModel.step (n_udp s) f = Some (u, q) ->
    (forall ch, f = UdpModel.EDropReceiver ch -> exists c x, nth_error (n_chan s) c = Some ch /\ nth_error (r_conns (n_rt s)) c = Some x /\ c_alive x = false) ->
    (f = UdpModel.EDropSocket -> ep_strong (n_rt s) = false) ->
    nstepped s (mkN (n_rt s) u (n_chan s) (n_lst s)) (mkE None (Some (f, q)) None)
| ns_data c ch p u r o : nth_error (n_chan s) c = Some ch ->
    UdpModel.step (n_udp s) (UdpModel.ERecv ch) = Some (u, UdpModel.OData p) ->
    step (n_rt s) (EPacket c (UdpModel.p_data p)) = Some (r, o) ->
    nstepped s (mkN r u (n_chan s) (n_lst s))
      (mkE (Some (EPacket c (UdpModel.p_data p), o)) (Some (UdpModel.ERecv ch, UdpModel.OData p)) None)
| ns_lag c ch k u r o : nth_error (n_chan s) c = Some ch ->
    UdpModel.step (n_udp s) (UdpModel.ERecv ch) = Some (u, UdpModel.OLagged k) ->
    step (n_rt s) (ELagged c) = Some (r, o) ->
    nstepped s (mkN r u (n_chan s) (n_lst s))
      (mkE (Some (ELagged c, o)) (Some (UdpModel.ERecv ch, UdpModel.OLagged k)) None)
| ns_closed c ch u r o : nth_error (n_chan s) c = Some ch ->
    UdpModel.step (n_udp s) (UdpModel.ERecv ch) = Some (u, UdpModel.OClosed) ->
    step (n_rt s) (EEnd c) = Some (r, o) ->
    nstepped s (mkN r u (n_chan s) (n_lst s))
      (mkE (Some (EEnd c, o)) (Some (UdpModel.ERecv ch, UdpModel.OClosed)) None)
| ns_send c x k ch bs os r o : nth_error (r_conns (n_rt s)) c = Some x -> nth_error (n_chan s) c = Some k ->
    c_out x = Some bs -> nth_error (UdpModel.u_chans (n_udp s)) k = Some ch ->
    step (n_rt s) (ESocket c (fst (UdpModel.udp_send bs os))) = Some (r, o) ->
    nstepped s (mkN r (n_udp s) (n_chan s) (n_lst s))
      (mkE (Some (ESocket c (fst (UdpModel.udp_send bs os)), o)) None
           (if fst (UdpModel.udp_send bs os) then Some (UdpModel.c_addr ch, bs) else None))
| ns_accept l k ch a u r o : nth_error (n_lst s) l = Some k ->
    UdpModel.step (n_udp s) (UdpModel.EAccept k) = Some (u, UdpModel.OAccepted ch a) ->
    step (n_rt s) (EAccept l a) = Some (r, o) ->
    nstepped s (mkN r u (n_chan s ++ [ch]) (n_lst s))
      (mkE (Some (EAccept l a, o)) (Some (UdpModel.EAccept k, UdpModel.OAccepted ch a)) None)
| ns_accept_end l k u r o : nth_error (n_lst s) l = Some k ->
    UdpModel.step (n_udp s) (UdpModel.EAccept k) = Some (u, UdpModel.OAcceptEnd) ->
    step (n_rt s) (EAcceptEnd l) = Some (r, o) ->
    nstepped s (mkN r u (n_chan s) (n_lst s))
      (mkE (Some (EAcceptEnd l, o)) (Some (UdpModel.EAccept k, UdpModel.OAcceptEnd)) None).

Lemma node_step_inv s e s' x : node_step s e = Some (s', x) -> nstepped s s' x.
Proof.
  intros H. destruct e as [e|a d| | |c|c os|l|c|l|]; cbn [NodeModel.node_step] in H.
  - destruct (internal e) eqn:I; [|discriminate]. destruct (step (n_rt s) e) as [[r o]|] eqn:ST; [|discriminate].
    assert (G : (exists c a, o = OSpawned c a) \/ (spawned o = [] /\
      (if length (r_lsnrs (n_rt s)) <? length (r_lsnrs r) then
         match UdpModel.step (n_udp s) (UdpModel.EListen 8) with
         | Some (u, UdpModel.OListening l) => pair_step s e r o (UdpModel.EListen 8) u (UdpModel.OListening l) [] [l] None
         | _ => None
         end
       else Some (mkN r (n_udp s) (n_chan s) (n_lst s), mkE (Some (e, o)) None None)) = Some (s', x))).
    { destruct o; try (left; eauto; fail); right; (split; [reflexivity|exact H]). }
    destruct G as [(c & a & ->)|[N G]].
    + destruct (UdpModel.step (n_udp s) (UdpModel.EConnect a)) as [[u q]|] eqn:US; [|discriminate].
      destruct q; try discriminate. unfold pair_step in H. injection H as <- <-. rewrite app_nil_r. eapply ns_connect; eauto.
    + clear H. destruct (Nat.ltb_spec (length (r_lsnrs (n_rt s))) (length (r_lsnrs r))) as [L|L].
      * destruct (UdpModel.step (n_udp s) (UdpModel.EListen 8)) as [[u q]|] eqn:US; [|discriminate].
        destruct q; try discriminate. unfold pair_step in G. injection G as <- <-. rewrite app_nil_r. eapply ns_listen; eauto.
      * injection G as <- <-. apply ns_rt; assumption.
  - unfold socket_step in H. destruct (UdpModel.step (n_udp s) _) as [[u q]|] eqn:US; [|discriminate]. injection H as <- <-.
    apply ns_socket; try assumption; try reflexivity; discriminate.
  - unfold socket_step in H. destruct (UdpModel.step (n_udp s) _) as [[u q]|] eqn:US; [|discriminate]. injection H as <- <-.
    apply ns_socket; try assumption; try reflexivity; discriminate.
  - unfold socket_step in H. destruct (UdpModel.step (n_udp s) _) as [[u q]|] eqn:US; [|discriminate]. injection H as <- <-.
    apply ns_socket; try assumption; try reflexivity; discriminate.
  - destruct (nth_error (n_chan s) c) as [ch|] eqn:C; [|discriminate].
    destruct (UdpModel.step (n_udp s) (UdpModel.ERecv ch)) as [[u q]|] eqn:US; [|discriminate].
    destruct q; try discriminate; unfold answer in H;
    (destruct (step (n_rt s) _) as [[r o]|] eqn:ST; [|discriminate]); unfold pair_step in H; injection H as <- <-; rewrite 2 app_nil_r.
    + eapply ns_data; eauto.
    + eapply ns_lag; eauto.
    + eapply ns_closed; eauto.
  - destruct (nth_error (r_conns (n_rt s)) c) as [x0|] eqn:X; [|discriminate].
    destruct (nth_error (n_chan s) c) as [k|] eqn:C; [|discriminate].
    destruct (c_out x0) as [bs|] eqn:O; [|discriminate].
    destruct (nth_error (UdpModel.u_chans (n_udp s)) k) as [ch|] eqn:K; [|discriminate].
    destruct (UdpModel.udp_send bs os) as [ok out] eqn:U.
    destruct (step (n_rt s) (ESocket c ok)) as [[r o]|] eqn:ST; [|discriminate]. injection H as <- <-.
    assert (F : fst (UdpModel.udp_send bs os) = ok) by (rewrite U; reflexivity).
    assert (E : (if ok then option_map (pair (UdpModel.c_addr ch)) out else None) = if ok then Some (UdpModel.c_addr ch, bs) else None).
    { unfold UdpModel.udp_send in U. destruct (1400 <? length bs); injection U as <- <-; [reflexivity|destruct os; reflexivity]. }
    rewrite E, <- F. eapply ns_send; eauto. rewrite F. exact ST.
  - destruct (nth_error (n_lst s) l) as [k|] eqn:C; [|discriminate].
    destruct (UdpModel.step (n_udp s) (UdpModel.EAccept k)) as [[u q]|] eqn:US; [|discriminate].
    destruct q; try discriminate; unfold answer in H;
    (destruct (step (n_rt s) _) as [[r o]|] eqn:ST; [|discriminate]); unfold pair_step in H; injection H as <- <-; rewrite ?app_nil_r.
    + eapply ns_accept; eauto.
    + eapply ns_accept_end; eauto.
  - destruct (nth_error (r_conns (n_rt s)) c) as [x0|] eqn:X; [|discriminate].
    destruct (nth_error (n_chan s) c) as [k|] eqn:C; [|discriminate]. destruct (c_alive x0) eqn:A; [discriminate|].
    unfold socket_step in H. destruct (UdpModel.step (n_udp s) _) as [[u q]|] eqn:US; [|discriminate]. injection H as <- <-.
    apply ns_socket; try assumption; try reflexivity; [|discriminate]. intros ch E. injection E as <-. eauto.
  - destruct (nth_error (r_lsnrs (n_rt s)) l) as [x0|] eqn:X; [|discriminate].
    destruct (nth_error (n_lst s) l) as [k|] eqn:C; [|discriminate]. destruct (l_alive x0) eqn:A; [discriminate|].
    unfold socket_step in H. destruct (UdpModel.step (n_udp s) _) as [[u q]|] eqn:US; [|discriminate]. injection H as <- <-.
    apply ns_socket; try assumption; try reflexivity; discriminate.
  - destruct (ep_strong (n_rt s)) eqn:A; [discriminate|]. destruct (r_ep (n_rt s)); try discriminate. destruct (r_left (n_rt s)); [|discriminate].
    unfold socket_step in H. destruct (UdpModel.step (n_udp s) _) as [[u q]|] eqn:US; [|discriminate]. injection H as <- <-.
    apply ns_socket; try assumption; try reflexivity; [discriminate|]. intros _. exact A.
Qed.

(** ** Projections *)
Lemma runtime_snoc tr x : runtime_trace (tr ++ [x]) = runtime_trace tr ++ match e_rt x with Some p => [p] | None => [] end.
Proof. unfold runtime_trace. rewrite flat_map_app. cbn. rewrite app_nil_r. reflexivity. Qed.
Lemma socket_snoc tr x : socket_trace (tr ++ [x]) = socket_trace tr ++ match e_udp x with Some p => [p] | None => [] end.
Proof. unfold socket_trace. rewrite flat_map_app. cbn. rewrite app_nil_r. reflexivity. Qed.

Lemma stepped_runtime s s' x : nstepped s s' x ->
  match e_rt x with Some (e, o) => step (n_rt s) e = Some (n_rt s', o) | None => n_rt s' = n_rt s end.
Proof. intros H. destruct H; cbn; try assumption; reflexivity. Qed.
Lemma stepped_socket s s' x : nstepped s s' x ->
  match e_udp x with Some (e, o) => UdpModel.step (n_udp s) e = Some (n_udp s', o) | None => n_udp s' = n_udp s end.
Proof. intros H. destruct H; cbn; try assumption; reflexivity. Qed.

Lemma runtime_history tr s : nhistory tr s -> history (runtime_trace tr) (n_rt s).
Proof.
  induction 1 as [|tr s e s' x H IH ST]; [constructor|].
  apply node_step_inv, stepped_runtime in ST. rewrite runtime_snoc. destruct (e_rt x) as [[ev o]|].
  - econstructor; eassumption.
  - rewrite app_nil_r, ST. exact IH.
Qed.
Lemma socket_history tr s : nhistory tr s -> UdpModel.history (socket_trace tr) (n_udp s).
Proof.
  induction 1 as [|tr s e s' x H IH ST]; [constructor|].
  apply node_step_inv, stepped_socket in ST. rewrite socket_snoc. destruct (e_udp x) as [[ev o]|].
  - econstructor; eassumption.
  - rewrite app_nil_r, ST. exact IH.
Qed.

(** ** Channels and connections *)
Lemma opened_one f q : UdpSpec.opened [(f, q)] =
  match f, q with
  | UdpModel.EConnect a, UdpModel.OConnected c => [(c, a)]
  | _, UdpModel.OAccepted c a => [(c, a)]
  | _, _ => []
  end.
Proof. destruct f, q; reflexivity. Qed.

Lemma socket_only_opens u f u' q : UdpModel.step u f = Some (u', q) -> socket_only f = true -> UdpSpec.opened [(f, q)] = [].
Proof.
  intros H K. apply UdpProofs.step_inv in H. rewrite opened_one. destruct H; try discriminate K; try reflexivity; destruct f; reflexivity.
Qed.

Lemma runtime_answers s e o s' : step s e = Some (s', o) ->
  match e with EPacket _ _ | ELagged _ | EEnd _ | ESocket _ _ | EAcceptEnd _ => spawned o = [] | EAccept _ a => spawned o = [a] | _ => True end.
Proof.
  intros H. destruct e; try exact I; cbn in H; cases_in H; injection H as <- <-; reflexivity.
Qed.

Lemma opens tr s : nhistory tr s ->
  length (n_chan s) = length (r_conns (n_rt s)) /\
  UdpSpec.opened (socket_trace tr) = combine (n_chan s) (map c_addr (r_conns (n_rt s))).
Proof.
  induction 1 as [|tr s e s' x H [L IH] ST]; [split; reflexivity|].
  apply node_step_inv in ST. rewrite socket_snoc, UdpProofs.opened_app, IH. clear IH.
  assert (K : forall r ev o, step (n_rt s) ev = Some (r, o) -> spawned o = [] ->
    length (n_chan s) = length (r_conns r) /\ combine (n_chan s) (map c_addr (r_conns (n_rt s))) ++ [] = combine (n_chan s) (map c_addr (r_conns r))).
  { intros r ev o S N. apply step_addrs in S. rewrite N, app_nil_r in S. rewrite S, app_nil_r. split; [|reflexivity].
    rewrite <- (map_length c_addr (r_conns r)), S, map_length. exact L. }
  assert (J : forall r ev o a ch, step (n_rt s) ev = Some (r, o) -> spawned o = [a] ->
    length (n_chan s ++ [ch]) = length (r_conns r) /\
    combine (n_chan s) (map c_addr (r_conns (n_rt s))) ++ [(ch, a)] = combine (n_chan s ++ [ch]) (map c_addr (r_conns r))).
  { intros r ev o a ch S N. apply step_addrs in S. rewrite N in S. rewrite S. split.
    - rewrite <- (map_length c_addr (r_conns r)), S, !app_length, map_length, L. reflexivity.
    - assert (Q : length (n_chan s) = length (map c_addr (r_conns (n_rt s)))) by (rewrite map_length; exact L).
      revert Q. generalize (n_chan s) (map c_addr (r_conns (n_rt s))). intros u. induction u as [|y u IH]; intros [|z v] Q; try discriminate Q; [reflexivity|].
      cbn. f_equal. apply IH. injection Q as Q. exact Q. }
  destruct ST; cbn [e_udp n_chan n_rt]; rewrite ?opened_one.
  - eapply K; eassumption.
  - eapply J; [eassumption|reflexivity].
  - eapply K; eassumption.
  - rewrite <- opened_one. erewrite socket_only_opens by eassumption. rewrite app_nil_r. split; [exact L|reflexivity].
  - eapply K; [eassumption|]. apply runtime_answers in H2. exact H2.
  - eapply K; [eassumption|]. apply runtime_answers in H2. exact H2.
  - eapply K; [eassumption|]. apply runtime_answers in H2. exact H2.
  - eapply K; [eassumption|]. apply runtime_answers in H4. exact H4.
  - eapply J; [eassumption|]. apply runtime_answers in H2. exact H2.
  - eapply K; [eassumption|]. apply runtime_answers in H2. exact H2.
Qed.

Lemma chans_distinct tr s : nhistory tr s -> NoDup (n_chan s).
Proof.
  intros H. destruct (opens _ _ H) as [L O]. pose proof (UdpTheorems.connections_distinct _ _ (socket_history _ _ H)) as D.
  rewrite O in D. assert (E : forall (u : list nat) (v : list N), length u = length v -> map fst (combine u v) = u).
  { induction u as [|y u IH]; intros [|z v] Q; try discriminate Q; [reflexivity|]. cbn. f_equal. apply IH. injection Q as Q. exact Q. }
  rewrite E in D; [exact D|]. rewrite map_length. exact L.
Qed.

Lemma chan_opened tr s c ch x : nhistory tr s -> nth_error (n_chan s) c = Some ch -> nth_error (r_conns (n_rt s)) c = Some x ->
  In (ch, c_addr x) (UdpSpec.opened (socket_trace tr)).
Proof.
  intros H C X. destruct (opens _ _ H) as [_ ->]. apply (map_nth_error c_addr) in X. revert C X.
  generalize (n_chan s) (map c_addr (r_conns (n_rt s))) (c_addr x). intros u v a. revert c v.
  induction u as [|y u IH]; intros [|c] [|z v] C X; try discriminate.
  - injection C as ->. injection X as ->. left. reflexivity.
  - right. exact (IH _ _ C X).
Qed.

Lemma chan_exists tr s c x : nhistory tr s -> nth_error (r_conns (n_rt s)) c = Some x -> exists ch, nth_error (n_chan s) c = Some ch.
Proof.
  intros H X. destruct (opens _ _ H) as [L _]. apply nth_lt in X. rewrite <- L in X.
  destruct (nth_error (n_chan s) c) eqn:E; [eauto|]. apply nth_error_None in E. lia.
Qed.

(** ** What a connection reads *)
Definition packets_on (c : nat) (tr : list (event * obs)) : list (list N) :=
  flat_map (fun p => match fst p with EPacket d bs => if d =? c then [bs] else [] | _ => [] end) tr.
Lemma decoded_packets c tr : decoded c tr = flat_map packet_messages (packets_on c tr).
Proof.
  induction tr as [|[e o] tr IH]; [reflexivity|]. unfold decoded, packets_on in *. cbn. rewrite flat_map_app, <- IH. f_equal.
  destruct e; try reflexivity. destruct (c0 =? c); [cbn; rewrite app_nil_r|]; reflexivity.
Qed.

Lemma received_snoc ch tr f q : UdpSpec.received ch (tr ++ [(f, q)]) =
  UdpSpec.received ch tr ++ match f with UdpModel.ERecv c => if c =? ch then [q] else [] | _ => [] end.
Proof. rewrite UdpProofs.received_app. reflexivity. Qed.
Lemma data_app u v : UdpSpec.data_of (u ++ v) = UdpSpec.data_of u ++ UdpSpec.data_of v.
Proof. induction u as [|[] u IH]; cbn; rewrite ?IH; reflexivity. Qed.

Definition data_on (ch : nat) (tr : list (UdpModel.event * UdpModel.obs)) : list UdpModel.packet :=
  UdpSpec.data_of (UdpSpec.received ch tr).
Lemma data_on_snoc ch tr f q : data_on ch (tr ++ [(f, q)]) = data_on ch tr ++
  match f, q with UdpModel.ERecv c, UdpModel.OData p => if c =? ch then [p] else [] | _, _ => [] end.
Proof.
  unfold data_on. rewrite received_snoc, data_app. f_equal. destruct f; try reflexivity. destruct (c =? ch); destruct q; reflexivity.
Qed.
Lemma packets_on_snoc c tr e o : packets_on c (tr ++ [(e, o)]) = packets_on c tr ++
  match e with EPacket d bs => if d =? c then [bs] else [] | _ => [] end.
Proof. unfold packets_on. rewrite flat_map_app. cbn. rewrite app_nil_r. reflexivity. Qed.

Lemma reading tr s : nhistory tr s ->
  (forall c, nth_error (n_chan s) c = None -> packets_on c (runtime_trace tr) = []) /\
  (forall ch, ~ In ch (n_chan s) -> data_on ch (socket_trace tr) = []) /\
  (forall c ch, nth_error (n_chan s) c = Some ch -> packets_on c (runtime_trace tr) = map UdpModel.p_data (data_on ch (socket_trace tr))).
Proof.
  intros H. pose proof (chans_distinct _ _ H) as D. revert D. induction H as [|tr s e s' x H IH ST]; intros D.
  - split; [reflexivity|]. split; [reflexivity|]. intros [|c] ch C; discriminate C.
  - pose proof (n_more _ _ _ _ _ _ _ H ST) as H'. apply node_step_inv in ST.
    assert (IH' : NoDup (n_chan s)) by (eapply chans_distinct; exact H). specialize (IH IH'). destruct IH as (I1 & I2 & I3).
    rewrite runtime_snoc, socket_snoc.
    assert (QR : forall c e o, (forall d bs, e <> EPacket d bs) -> packets_on c (runtime_trace tr ++ [(e, o)]) = packets_on c (runtime_trace tr)).
    { intros c ev o N. rewrite packets_on_snoc. destruct ev; try (rewrite app_nil_r; reflexivity). exfalso. exact (N _ _ eq_refl). }
    assert (QU : forall ch f q, (forall d, f <> UdpModel.ERecv d) -> data_on ch (socket_trace tr ++ [(f, q)]) = data_on ch (socket_trace tr)).
    { intros c ev o N. rewrite data_on_snoc. destruct ev; try (rewrite app_nil_r; reflexivity). exfalso. exact (N _ eq_refl). }
    assert (QO : forall ch d q, (forall p, q <> UdpModel.OData p) -> data_on ch (socket_trace tr ++ [(UdpModel.ERecv d, q)]) = data_on ch (socket_trace tr)).
    { intros c d o N. rewrite data_on_snoc. destruct o; try (rewrite app_nil_r; reflexivity). exfalso. exact (N _ eq_refl). }
    assert (NI : forall e, internal e = true -> forall d bs, e <> EPacket d bs) by (intros ev I d bs ->; discriminate I).
    assert (KEEP : forall rtr str, (forall c, packets_on c rtr = packets_on c (runtime_trace tr)) -> (forall ch, data_on ch str = data_on ch (socket_trace tr)) ->
      (forall c, nth_error (n_chan s) c = None -> packets_on c rtr = []) /\
      (forall ch, ~ In ch (n_chan s) -> data_on ch str = []) /\
      (forall c ch, nth_error (n_chan s) c = Some ch -> packets_on c rtr = map UdpModel.p_data (data_on ch str))).
    { intros rtr str R U. repeat split; intros; rewrite ?R, ?U; auto. }
    assert (NEW : forall rtr str ch0, NoDup (n_chan s ++ [ch0]) -> (forall c, packets_on c rtr = packets_on c (runtime_trace tr)) -> (forall ch, data_on ch str = data_on ch (socket_trace tr)) ->
      (forall c, nth_error (n_chan s ++ [ch0]) c = None -> packets_on c rtr = []) /\
      (forall ch, ~ In ch (n_chan s ++ [ch0]) -> data_on ch str = []) /\
      (forall c ch, nth_error (n_chan s ++ [ch0]) c = Some ch -> packets_on c rtr = map UdpModel.p_data (data_on ch str))).
    { intros rtr str ch0 ND R U. repeat split; intros; rewrite ?R, ?U.
      - apply I1. destruct (nth_error (n_chan s) c) eqn:E; [|reflexivity]. apply (nth_snoc_old _ ch0) in E. congruence.
      - apply I2. intros I. apply H0. apply in_or_app. left. exact I.
      - apply nth_snoc in H0. destruct H0 as [H0|[-> ->]]; [apply I3; exact H0|].
        rewrite I1 by apply nth_length_none. rewrite I2; [reflexivity|].
        apply NoDup_remove in ND. rewrite app_nil_r in ND. tauto. }
    destruct ST; cbn [e_rt e_udp n_chan] in *; rewrite ?app_nil_r.
    + apply KEEP; intros; [apply QR, NI; assumption|reflexivity].
    + apply NEW; [exact D| |]; intros; [apply QR, NI; assumption|apply QU; discriminate].
    + apply KEEP; intros; [apply QR, NI; assumption|apply QU; discriminate].
    + apply KEEP; intros; [reflexivity|]. apply QU. intros d ->. discriminate.
    + assert (ND := IH'). repeat split; intros; rewrite ?packets_on_snoc, ?data_on_snoc.
      * rewrite I1 by assumption. destruct (Nat.eqb_spec c c0) as [<-|N]; [congruence|reflexivity].
      * rewrite I2 by assumption. destruct (Nat.eqb_spec ch ch0) as [<-|N]; [|reflexivity]. exfalso. apply H3. eapply nth_error_In. exact H0.
      * rewrite map_app, <- (I3 _ _ H3). f_equal.
        destruct (Nat.eqb_spec c c0) as [<-|N].
        -- rewrite H0 in H3. injection H3 as <-. rewrite Nat.eqb_refl. reflexivity.
        -- destruct (Nat.eqb_spec ch ch0) as [<-|M]; [|reflexivity]. exfalso. apply N.
           apply (proj1 (NoDup_nth_error (n_chan s)) ND); [apply nth_lt in H0; exact H0|]. congruence.
    + apply KEEP; intros; [apply QR; discriminate|apply QO; discriminate].
    + apply KEEP; intros; [apply QR; discriminate|apply QO; discriminate].
    + apply KEEP; intros; [apply QR; discriminate|reflexivity].
    + apply NEW; [exact D| |]; intros; [apply QR; discriminate|apply QU; discriminate].
    + apply KEEP; intros; [apply QR; discriminate|apply QU; discriminate].
Qed.

End Locks.
