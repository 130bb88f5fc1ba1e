(** Every endpoint over UDP comes to rest, or is jammed. *)
From Coq Require Import List NArith Bool PeanoNat Lia Wf_nat Inverse_Image.
From Verif Require Import BytesModel WireSpec SomeipModel SomeipSpec MapModel RuntimeModel RuntimeSpec NodeModel NodeSpec ExchangeSpec.
From Verif Require Import EndpointProofs RuntimeProofs RuntimeTheorems RuntimePacketTheorems RuntimeSendTheorems RuntimeAddrTheorems RuntimeProgressTheorems
  RuntimeWorkTheorems NodeProofs NodeTheorems NodeLossTheorems LexTheorems.
From Verif Require UdpModel UdpSpec UdpProofs UdpTheorems.
Import ListNotations.
Open Scope nat_scope.

Section Locks.
Context (bk : iid -> N) (cbk : N -> N).
Notation nhistory := (nhistory bk cbk).
Notation node_step := (node_step bk cbk).
Notation step := (step bk cbk).
Notation settling := (settling bk cbk).

Ltac cases_in H :=
  repeat (match type of H with
  | context [match ?x with _ => _ end] =>
      lazymatch x with context [match _ with _ => _ end] => fail | _ => destruct x eqn:? end
  end; try discriminate H).

(** ** The endpoint task whose callers are gone *)
Definition opens_pc (t : stub) : bool := match st_pc t with SConnect _ _ | SShare _ _ _ => st_alive t | _ => false end.
Definition over (s : rt) : Prop := ep_strong s = false /\ r_ep s = EpWait /\ r_left s = [].
Lemma existsb_upd {A} (p : A -> bool) n f l : existsb p l = false -> (forall x, nth_error l n = Some x -> p (f x) = false) -> existsb p (upd n f l) = false.
Proof.
  revert n. induction l as [|y l IH]; intros [|n] E F; cbn in *; try reflexivity; apply orb_false_iff in E; destruct E as [E1 E2]; apply orb_false_iff.
  - split; [apply F; reflexivity|exact E2].
  - split; [exact E1|]. apply IH; [exact E2|]. intros x X. apply F. exact X.
Qed.
Lemma existsb_at {A} (p : A -> bool) n l x : existsb p l = false -> nth_error l n = Some x -> p x = false.
Proof. intros E X. destruct (p x) eqn:P; [|reflexivity]. rewrite <- E. symmetry. apply existsb_exists. exists x. split; [eapply nth_error_In; exact X|exact P]. Qed.

Lemma over_step s e s' o : step s e = Some (s', o) -> over s -> over s'.
Proof.
  intros ST (E0 & P & L). assert (E := E0). unfold ep_strong in E. apply orb_false_iff in E. destruct E as [O E].
  change (existsb opens_pc (r_stubs s) = false) in E.
  assert (G : r_ep s' = EpWait /\ r_left s' = [] /\ r_open s' = false /\ existsb opens_pc (r_stubs s') = false).
  { destruct e; cbn [RuntimeModel.step] in ST; rewrite ?P, ?L, ?O in ST; try discriminate ST.
    all: unfold step_ep, step_take, step_route, i_recv, push_cmd in ST; rewrite ?P, ?L, ?O in ST; try discriminate ST.
    all: try (destruct k; discriminate ST).
    all: try (cases_in ST; injection ST as <- <-; cbn; repeat split; assumption).
    all: unfold step_stub, push_cmd in ST; rewrite ?E0 in ST; cases_in ST; try (injection ST as <- <-); cbn; repeat split; try assumption.
    all: try match goal with |- existsb _ (upd ?n _ _) = _ => apply existsb_upd; [exact E|]; intros t' T' end.
    all: try reflexivity.
    all: exfalso; match goal with X : nth_error (r_stubs _) _ = Some ?t |- _ => pose proof (existsb_at _ _ _ _ E X) as Z; unfold opens_pc in Z;
         match goal with Q : st_pc t = _ |- _ => rewrite Q in Z end; congruence end. }
  destruct G as (G1 & G2 & G3 & G4). split; [unfold ep_strong; rewrite G3; exact G4|auto].
Qed.
Lemma closed_over tr s : nhistory tr s -> UdpModel.u_open (n_udp s) = false -> over (n_rt s).
Proof.
  induction 1 as [|tr s e s' x H IH ST]; [discriminate|]. intros O.
  assert (DS : e = NDropSocket \/ e <> NDropSocket) by (destruct e; auto; right; discriminate). destruct DS as [->|N].
  - cbn in ST. destruct (ep_strong (n_rt s)) eqn:E; [discriminate|]. destruct (r_ep (n_rt s)) eqn:P; try discriminate. destruct (r_left (n_rt s)) eqn:L; [|discriminate].
    unfold socket_step in ST. destruct (UdpModel.step (n_udp s) _) as [[u q]|]; [|discriminate]. injection ST as <- <-. cbn. split; [exact E|auto].
  - assert (K : UdpModel.u_open (n_udp s) = false \/ UdpModel.u_open (n_udp s) = true) by (destruct (UdpModel.u_open (n_udp s)); auto).
    assert (OS : forall f u q, UdpModel.step (n_udp s) f = Some (u, q) -> f <> UdpModel.EDropSocket -> UdpModel.u_open u = UdpModel.u_open (n_udp s)).
    { intros f u q S F. apply UdpProofs.step_inv in S. destruct S; try reflexivity; try congruence.
      destruct (UdpProofs.drop_all_other (UdpModel.l_queue x0) (UdpModel.set_lst (n_udp s) l (UdpModel.mkL (UdpModel.l_cap x0) [] false))) as (-> & _). reflexivity. }
    pose proof ST as ST'. apply node_step_inv in ST. destruct ST; cbn [n_rt n_udp] in *.
    1-3,5-10: eapply over_step; [eassumption|]; apply IH; try exact O;
       match goal with S : UdpModel.step _ _ = Some _ |- _ => rewrite <- (OS _ _ _ S) by discriminate; exact O | _ => idtac end.
    apply IH. rewrite <- (OS _ _ _ H1); [exact O|]. intros ->.
    destruct e; try (apply N; reflexivity); cbn in ST'; unfold socket_step, answer, pair_step in ST'; cases_in ST'; congruence.
Qed.

(** ** How much is left to do *)
Definition unread_w (ch : UdpModel.chan) : nat := length (UdpModel.c_sent ch) - UdpModel.c_next ch.
Definition unreads (u : UdpModel.udp) : nat := total unread_w (UdpModel.u_chans u).
Definition task_w (u : UdpModel.udp) : nat := UdpTheorems.left (UdpModel.u_task u).
Definition pending_w (q : UdpModel.lst) : nat := length (UdpModel.l_queue q).
Definition pending (u : UdpModel.udp) : nat := total pending_w (UdpModel.u_lsts u).
Definition rx_w (ch : UdpModel.chan) : nat := if UdpModel.c_rx ch then 1 else 0.
Definition lrx_w (q : UdpModel.lst) : nat := if UdpModel.l_rx q then 1 else 0.
Definition held (u : UdpModel.udp) : nat :=
  total rx_w (UdpModel.u_chans u) + total lrx_w (UdpModel.u_lsts u) + if UdpModel.u_open u then 1 else 0.
Definition measure (s : node) : list nat :=
  [task_w (n_udp s); pending (n_udp s); unreads (n_udp s); left_to_do (n_rt s); held (n_udp s)].
Definition less (s' s : node) : Prop := lexl (measure s') (measure s).
Lemma less_wf : well_founded less.
Proof. exact (wf_inverse_image _ _ _ measure lex_wf). Qed.
Lemma less_not s : ~ less s s.
Proof. intros [_ L]. exact (lex_irrefl _ L). Qed.

Lemma total_set_nth {A} (w : A -> nat) n y l x : nth_error l n = Some x -> total w (UdpModel.set_nth n y l) + w x = total w l + w y.
Proof.
  unfold UdpModel.set_nth. revert n. induction l as [|z l IH]; intros [|n] X; try discriminate X; cbn in *.
  - injection X as ->. lia.
  - specialize (IH n X). lia.
Qed.
Lemma read_less u ch c o u' tr : UdpModel.history tr u -> nth_error (UdpModel.u_chans u) c = Some ch -> UdpModel.step u (UdpModel.ERecv c) = Some (u', o) ->
  task_w u' = task_w u /\ pending u' = pending u /\
  match o with
  | UdpModel.OData _ | UdpModel.OLagged _ => unreads u' < unreads u
  | _ => unreads u' = unreads u
  end.
Proof.
  intros H C S. destruct (UdpProofs.i_chan _ _ (UdpInv.inv_history _ _ H) _ _ C) as (_ & _ & _ & LE & _).
  cbn [UdpModel.step] in S. rewrite C in S. destruct (UdpModel.c_rx ch && _); [|discriminate].
  destruct (UdpModel.chan_recv _ ch) as [ch' q] eqn:R. injection S as <- <-. split; [reflexivity|]. split; [reflexivity|].
  pose proof (total_set_nth unread_w _ ch' _ _ C) as T. unfold UdpModel.chan_recv in R.
  unfold unreads. cbn [UdpModel.set_chan UdpModel.u_chans UdpModel.u_task].
  destruct (Nat.ltb_spec (UdpModel.c_next ch + UdpModel.c_cap ch) (length (UdpModel.c_sent ch))) as [L|L].
  - injection R as <- <-. unfold unread_w in T at 2 4. cbn in T. lia.
  - destruct (nth_error (UdpModel.c_sent ch) (UdpModel.c_next ch)) eqn:N.
    + injection R as <- <-. apply nth_lt in N. unfold unread_w in T at 2 4. cbn in T. lia.
    + injection R as <- <-. destruct (negb _); lia.
Qed.

(** What is dropped. *)
Lemma drop_all_less q u : task_w (UdpModel.drop_all q u) = task_w u /\ unreads (UdpModel.drop_all q u) = unreads u /\
  total rx_w (UdpModel.u_chans (UdpModel.drop_all q u)) <= total rx_w (UdpModel.u_chans u).
Proof.
  revert u. induction q as [|[c a] q IH]; intros u; cbn [UdpModel.drop_all]; [auto|].
  destruct (nth_error (UdpModel.u_chans u) c) as [ch|] eqn:C; [|apply IH].
  destruct (IH (UdpModel.set_chan u c (UdpModel.drop_rx ch))) as (A & B & D). rewrite A, B.
  pose proof (total_set_nth unread_w _ (UdpModel.drop_rx ch) _ _ C) as T1. pose proof (total_set_nth rx_w _ (UdpModel.drop_rx ch) _ _ C) as T2.
  unfold unread_w in T1 at 2 4. unfold rx_w in T2 at 2 4. unfold unreads. cbn in T1, T2, D |- *. split; [reflexivity|]. split; [lia|]. destruct (UdpModel.c_rx ch); lia.
Qed.
Definition dropping (f : UdpModel.event) : Prop :=
  match f with UdpModel.EDropReceiver _ | UdpModel.EDropListener _ | UdpModel.EDropSocket => True | _ => False end.
Lemma drop_less u f u' o : dropping f -> UdpModel.step u f = Some (u', o) ->
  task_w u' = task_w u /\ (pending u' < pending u \/ pending u' = pending u /\ unreads u' = unreads u /\ held u' < held u).
Proof.
  intros D S. destruct f; try contradiction D; clear D; cbn [UdpModel.step] in S.
  - destruct (nth_error (UdpModel.u_chans u) c) as [ch|] eqn:C; [|discriminate]. destruct (UdpModel.c_rx ch) eqn:R; [|discriminate]. cbn [andb] in S.
    destruct (UdpModel.waiting u c); [discriminate|]. cbn [negb] in S. injection S as <- <-. split; [reflexivity|]. right. split; [reflexivity|].
    pose proof (total_set_nth unread_w _ (UdpModel.drop_rx ch) _ _ C) as T1. pose proof (total_set_nth rx_w _ (UdpModel.drop_rx ch) _ _ C) as T2.
    unfold unread_w in T1 at 2 4. unfold rx_w in T2 at 2 4. unfold unreads, held. cbn in T1, T2 |- *. rewrite R in T2. lia.
  - destruct (nth_error (UdpModel.u_lsts u) l) as [x|] eqn:L; [|discriminate]. destruct (UdpModel.l_rx x) eqn:R; [|discriminate]. injection S as <- <-.
    set (u1 := UdpModel.set_lst u l (UdpModel.mkL (UdpModel.l_cap x) [] false)).
    destruct (drop_all_less (UdpModel.l_queue x) u1) as (A & B & D). destruct (UdpProofs.drop_all_other (UdpModel.l_queue x) u1) as (O & _ & _ & _ & LS & _).
    split; [exact A|]. unfold pending, held. rewrite B, LS, O. subst u1.
    pose proof (total_set_nth pending_w _ (UdpModel.mkL (UdpModel.l_cap x) [] false) _ _ L) as T1. pose proof (total_set_nth lrx_w _ (UdpModel.mkL (UdpModel.l_cap x) [] false) _ _ L) as T2.
    unfold pending_w in T1 at 2 4. unfold lrx_w in T2 at 2 4. cbn in T1, T2, D |- *. rewrite R in T2. unfold unreads. cbn. lia.
  - destruct (UdpModel.u_open u) eqn:O; [|discriminate]. injection S as <- <-. split; [reflexivity|]. right. split; [reflexivity|]. split; [reflexivity|].
    unfold held. cbn. rewrite O. lia.
Qed.

Lemma no_news_same s e s' o : cooperative e -> step s e = Some (s', o) -> o = OPending \/ o = OClosed -> s' = s.
Proof.
  intros C ST N. destruct e; try destruct C; cbn [RuntimeModel.step] in ST;
  unfold step_ep, step_take, step_route, step_stub, i_recv, push_cmd in ST; cases_in ST; injection ST as <- <-; destruct N; try discriminate; reflexivity.
Qed.
Lemma work_less s e s' o : brings e = None -> step s e = Some (s', o) -> o <> OPending -> o <> OClosed -> left_to_do s' < left_to_do s.
Proof.
  intros B S N1 N2. pose proof (work_step _ _ _ _ _ _ S) as W. unfold works in W. cbn [fst snd] in W. rewrite B in W. destruct o; try congruence; lia.
Qed.
Lemma quiet_obs (o : obs) : (o = OPending \/ o = OClosed) \/ (o <> OPending /\ o <> OClosed).
Proof. destruct o; auto; right; split; discriminate. Qed.
Lemma coop_brings e : cooperative e -> brings e = None.
Proof. destruct e; try reflexivity; intros []. Qed.

(** Whatever it does by itself leaves less to do, but for reads that find nothing. *)
Lemma settle_less tr s e s' x : nhistory tr s -> settles e -> node_step s e = Some (s', x) -> s' = s \/ less s' s.
Proof.
  intros H Q ST. pose proof (socket_history _ _ _ _ H) as HU.
  assert (E0 : forall r u ch ls, task_w u = task_w (n_udp s) -> pending u = pending (n_udp s) -> unreads u = unreads (n_udp s) ->
    left_to_do r < left_to_do (n_rt s) -> less (mkN r u ch ls) s).
  { intros r u ch ls E1 E2 E3 L. split; [reflexivity|]. cbn. tauto. }
  assert (ED : forall f u o, dropping f -> UdpModel.step (n_udp s) f = Some (u, o) -> less (mkN (n_rt s) u (n_chan s) (n_lst s)) s).
  { intros f u o D S. destruct (drop_less _ _ _ _ D S) as (E1 & [L|(E2 & E3 & L)]); (split; [reflexivity|]); cbn; tauto. }
  destruct e as [e| | | |c|c os|l|c|l|]; try contradiction Q; cbn [settles] in Q.
  - cbn [NodeModel.node_step] in ST. destruct (internal e); [|discriminate]. destruct (step (n_rt s) e) as [[r o]|] eqn:S; [|discriminate].
    destruct (quiet_obs o) as [N|[N1 N2]].
    + left. pose proof (no_news_same _ _ _ _ Q S N) as ->. rewrite Nat.ltb_irrefl in ST. destruct N as [->| ->]; injection ST as <- <-; destruct s; reflexivity.
    + right. pose proof (work_less _ _ _ _ (coop_brings _ Q) S N1 N2) as L.
      assert (EC : forall a u q, UdpModel.step (n_udp s) (UdpModel.EConnect a) = Some (u, q) -> task_w u = task_w (n_udp s) /\ pending u = pending (n_udp s) /\ unreads u = unreads (n_udp s)).
      { intros a u q US. cbn in US. destruct (UdpModel.u_open (n_udp s)); [|discriminate]. injection US as <- <-. split; [reflexivity|]. split; [reflexivity|].
        unfold unreads. cbn. rewrite total_snoc. cbn. lia. }
      assert (EL : forall u q, UdpModel.step (n_udp s) (UdpModel.EListen 8) = Some (u, q) -> task_w u = task_w (n_udp s) /\ pending u = pending (n_udp s) /\ unreads u = unreads (n_udp s)).
      { intros u q US. cbn in US. destruct (UdpModel.u_open (n_udp s)); [|discriminate]. destruct (UdpModel.listener_locked (n_udp s)); [discriminate|].
        injection US as <- <-. split; [reflexivity|]. split; [|reflexivity]. unfold pending. cbn. rewrite total_snoc. cbn. lia. }
      unfold pair_step in ST. cases_in ST; injection ST as <- <-; try (apply E0; auto; fail);
      try (match goal with U : UdpModel.step _ (UdpModel.EConnect _) = _ |- _ => destruct (EC _ _ _ U) as (? & ? & ?) end; apply E0; assumption);
      try (destruct (EL _ _ eq_refl) as (? & ? & ?); apply E0; assumption).
  - right. split; [reflexivity|]. left. cbn in ST. unfold socket_step in ST. cbn [UdpModel.step] in ST. destruct (UdpModel.task_step (n_udp s)) as [u|] eqn:T; [|discriminate]. injection ST as <- <-. cbn [n_udp].
    destruct (Nat.eq_dec (task_w (n_udp s)) 0) as [Z|Z].
    + exfalso. unfold UdpModel.task_step in T. unfold task_w in Z. destruct (UdpModel.u_task (n_udp s)); try discriminate.
    + destruct (UdpTheorems.task_moves _ _ (UdpInv.inv_history _ _ HU) Z) as (u' & T' & L). rewrite T in T'. injection T' as <-. exact L.
  - right. cbn [NodeModel.node_step] in ST. destruct (nth_error (n_chan s) c) as [ch|] eqn:C; [|discriminate].
    destruct (UdpModel.step (n_udp s) (UdpModel.ERecv ch)) as [[u q]|] eqn:US; [|discriminate].
    assert (IC : exists cc, nth_error (UdpModel.u_chans (n_udp s)) ch = Some cc).
    { pose proof US as US'. cbn in US'. destruct (nth_error (UdpModel.u_chans (n_udp s)) ch); [eauto|discriminate]. }
    destruct IC as (cc & CC). pose proof (read_less _ _ _ _ _ _ HU CC US) as RL. unfold answer in ST.
    destruct q; try discriminate; (destruct (step (n_rt s) _) as [[r o]|] eqn:S; [|discriminate]); unfold pair_step in ST; injection ST as <- <-; destruct RL as (R1 & R2 & R3).
    + split; [reflexivity|]. cbn. tauto.
    + split; [reflexivity|]. cbn. tauto.
    + apply E0; [exact R1|exact R2|exact R3|]. eapply work_less; [|exact S| |]; [reflexivity|..];
      intros ->; cbn in S; cases_in S.
  - right. destruct os; [|contradiction Q]. cbn [NodeModel.node_step] in ST.
    destruct (nth_error (r_conns (n_rt s)) c) as [y|] eqn:Y; [|discriminate]. destruct (nth_error (n_chan s) c) as [k|]; [|discriminate].
    destruct (c_out y) as [bs|]; [|discriminate]. destruct (nth_error (UdpModel.u_chans (n_udp s)) k); [|discriminate].
    destruct (UdpModel.udp_send bs true) as [ok out]. destruct (step (n_rt s) (ESocket c ok)) as [[r o]|] eqn:S; [|discriminate].
    injection ST as <- <-. apply E0; [reflexivity|reflexivity|reflexivity|]. eapply work_less; [|exact S| |]; [reflexivity|..];
    intros ->; cbn in S; cases_in S.
  - right. cbn [NodeModel.node_step] in ST. destruct (nth_error (n_lst s) l) as [k|]; [|discriminate].
    destruct (UdpModel.step (n_udp s) (UdpModel.EAccept k)) as [[u q]|] eqn:US; [|discriminate]. cbn in US.
    destruct (nth_error (UdpModel.u_lsts (n_udp s)) k) as [y|] eqn:Y; [|discriminate]. destruct (UdpModel.l_rx y); [|discriminate].
    unfold answer in ST. destruct (UdpModel.l_queue y) as [|[ch a] qs] eqn:QY.
    + injection US as <- <-. destruct (UdpModel.has_listener _ _); [discriminate|]. destruct (step (n_rt s) (EAcceptEnd l)) as [[r o]|] eqn:S; [|discriminate].
      unfold pair_step in ST. injection ST as <- <-. apply E0; [reflexivity|reflexivity|reflexivity|]. eapply work_less; [|exact S| |]; [reflexivity|..]; intros ->; cbn in S; cases_in S.
    + injection US as <- <-. destruct (step (n_rt s) (EAccept l a)) as [[r o]|] eqn:S; [|discriminate]. unfold pair_step in ST. injection ST as <- <-.
      split; [reflexivity|]. cbn. right. split; [reflexivity|]. left. pose proof (total_set_nth pending_w _ (UdpModel.mkL (UdpModel.l_cap y) qs true) _ _ Y) as T.
      unfold pending_w in T at 2 4. rewrite QY in T. unfold pending. cbn in *. lia.
  - right. cbn [NodeModel.node_step] in ST. destruct (nth_error (r_conns (n_rt s)) c) as [y|]; [|discriminate]. destruct (nth_error (n_chan s) c) as [k|]; [|discriminate].
    destruct (c_alive y); [discriminate|]. unfold socket_step in ST. destruct (UdpModel.step (n_udp s) _) as [[u q]|] eqn:US; [|discriminate]. injection ST as <- <-. refine (ED _ _ _ _ US). exact Logic.I.
  - right. cbn [NodeModel.node_step] in ST. destruct (nth_error (r_lsnrs (n_rt s)) l) as [y|]; [|discriminate]. destruct (nth_error (n_lst s) l) as [k|]; [|discriminate].
    destruct (l_alive y); [discriminate|]. unfold socket_step in ST. destruct (UdpModel.step (n_udp s) _) as [[u q]|] eqn:US; [|discriminate]. injection ST as <- <-. refine (ED _ _ _ _ US). exact Logic.I.
  - right. cbn [NodeModel.node_step] in ST. destruct (ep_strong (n_rt s)); [discriminate|]. destruct (r_ep (n_rt s)); try discriminate. destruct (r_left (n_rt s)); [|discriminate].
    unfold socket_step in ST. destruct (UdpModel.step (n_udp s) _) as [[u q]|] eqn:US; [|discriminate]. injection ST as <- <-. refine (ED _ _ _ _ US). exact Logic.I.
Qed.

(** ** The receivers of connections that run *)
Lemma opened_apart tr u c a : UdpModel.history tr u -> In (c, a) (UdpSpec.opened tr) -> forall b, ~ In (c, b) (UdpProofs.queued u).
Proof.
  intros H O b Q. pose proof (UdpProofs.i_ids _ _ (UdpInv.inv_history _ _ H)) as D. rewrite map_app in D.
  apply (in_map fst) in O. apply (in_map fst) in Q. cbn in O, Q. revert D O Q. generalize (map fst (UdpSpec.opened tr)) (map fst (UdpProofs.queued u)).
  intros l m D O Q. induction l as [|y l IH]; [contradiction|]. inversion D as [|? ? N D']; subst. destruct O as [->|O]; [apply N, in_or_app; right; exact Q|exact (IH D' O)].
Qed.
Lemma in_queued u l x c a : nth_error (UdpModel.u_lsts u) l = Some x -> In (c, a) (UdpModel.l_queue x) -> In (c, a) (UdpProofs.queued u).
Proof. intros X I. apply in_flat_map. exists x. split; [eapply nth_error_In; exact X|exact I]. Qed.
Lemma opened_rx tr u : UdpModel.history tr u -> forall c a ch, In (c, a) (UdpSpec.opened tr) -> (forall o, ~ In (UdpModel.EDropReceiver c, o) tr) ->
  nth_error (UdpModel.u_chans u) c = Some ch -> UdpModel.c_rx ch = true.
Proof.
  induction 1 as [|tr u e u' o H IH ST]; intros c a ch O ND C; [contradiction|].
  rewrite UdpProofs.opened_app in O. apply in_app_or in O.
  assert (ND' : forall o, ~ In (UdpModel.EDropReceiver c, o) tr) by (intros q I; apply (ND q), in_or_app; left; exact I).
  assert (ND1 : e <> UdpModel.EDropReceiver c) by (intros ->; apply (ND o), in_or_app; right; left; reflexivity).
  pose proof (UdpInv.inv_history _ _ H) as I. pose proof (opened_apart _ _ c a H) as AP. apply UdpProofs.step_inv in ST.
  assert (OLD : In (c, a) (UdpSpec.opened tr) -> exists ch0, nth_error (UdpModel.u_chans u) c = Some ch0 /\ UdpModel.c_rx ch0 = true).
  { intros J. destruct (UdpProofs.i_opened _ _ I _ _ J) as (ch0 & C0 & _). eauto. }
  assert (OO : In (c, a) (UdpSpec.opened tr) -> UdpModel.c_rx ch = true).
  { intros J. destruct (OLD J) as (ch0 & C0 & R0). destruct ST; cbn [UdpModel.u_chans UdpModel.set_task UdpModel.set_chan UdpModel.set_lst UdpModel.set_receivers UdpModel.set_listener UdpModel.add_chan UdpModel.add_lst] in C; try congruence.
    all: try (rewrite (UdpProofs.nth_app_old _ _ _ _ C0) in C; congruence).
    - apply UdpProofs.set_nth_cases in C. destruct C as [[-> ->]|[N C]]; cbn; congruence.
    - apply UdpProofs.set_nth_cases in C. destruct C as [[-> ->]|[N C]]; cbn; congruence.
    - destruct (UdpProofs.recv_cases _ _ _ _ H3) as (_ & _ & _ & R & _); [apply (UdpProofs.i_chan _ _ I _ _ H0)|].
      apply UdpProofs.set_nth_cases in C. destruct C as [[-> ->]|[N C]]; congruence.
    - apply UdpProofs.set_nth_cases in C. destruct C as [[-> ->]|[N C]]; [exfalso; exact (ND1 eq_refl)|congruence].
    - apply UdpProofs.drop_all_cases in C. destruct C as (ch1 & C1 & ->). cbn in C1.
      destruct (existsb _ (UdpModel.l_queue x)) eqn:E; [|congruence]. exfalso. apply UdpProofs.existsb_queue in E. destruct E as (b & E).
      exact (AP J b (in_queued _ _ _ _ _ H0 E)). }
  destruct O as [O|O]; [exact (OO O)|].
  destruct ST; cbn in O; try contradiction.
  - destruct O as [O|[]]. injection O as <- <-. cbn in C. rewrite UdpProofs.nth_app_last in C. injection C as <-. reflexivity.
  - destruct O as [O|[]]. injection O as <- <-. cbn in C. eapply (UdpProofs.i_alive _ _ I); [|exact C]. eapply in_queued; [exact H0|]. rewrite H2. left. reflexivity.
  - destruct H3 as [->| ->]; contradiction.
  - destruct (UdpProofs.recv_cases _ _ _ _ H3) as (_ & _ & _ & _ & _ & _ & _ & K); [apply (UdpProofs.i_chan _ _ I _ _ H0)|].
    destruct o; cbn in O; contradiction.
Qed.

(** ** The listening sockets of listeners *)
Lemma lsnr_back s e s' o : step s e = Some (s', o) -> length (r_lsnrs s) <= length (r_lsnrs s') <= S (length (r_lsnrs s)) /\
  forall l x', nth_error (r_lsnrs s') l = Some x' -> l_alive x' = true -> l < length (r_lsnrs s) -> exists x, nth_error (r_lsnrs s) l = Some x /\ l_alive x = true.
Proof.
  intros ST. assert (SAME : forall l x', nth_error (r_lsnrs s) l = Some x' -> l_alive x' = true -> l < length (r_lsnrs s) -> exists x, nth_error (r_lsnrs s) l = Some x /\ l_alive x = true) by eauto.
  destruct e; cbn [RuntimeModel.step] in ST; unfold step_ep, step_take, step_route, step_stub, i_recv, push_cmd in ST; cases_in ST; injection ST as <- <-;
  unfold upd_conn, upd_iface, upd_lsnr, upd_stub, upd_proxy, spawn; cbn [r_lsnrs set_open set_ep set_listener set_imap set_cmap set_ifaces set_conns set_lsnrs set_stubs set_proxies set_left];
  try (split; [lia|exact SAME]);
  rewrite ?length_upd, ?app_length; cbn [length];
  try (split; [lia|]; intros l' x' X A L; rewrite nth_error_app1 in X by exact L; eauto).
  all: split; [lia|]; intros l' x' X A L; apply upd_is in X; destruct X as [[N X]|[-> (y & Y & ->)]]; eauto.
Qed.
Lemma listens_open s e r o : step s e = Some (r, o) -> length (r_lsnrs s) < length (r_lsnrs r) -> exists ok, e = EEp ok.
Proof.
  intros S L. destruct e; try (eexists; reflexivity); exfalso; cbn in S; unfold step_take, step_route, step_stub, i_recv, push_cmd in S; cases_in S;
  injection S as <- <-; cbn in L; rewrite ?length_upd in L; lia.
Qed.
Lemma lst_kept u f u' o : UdpModel.step u f = Some (u', o) -> (forall n, f <> UdpModel.EListen n) -> length (UdpModel.u_lsts u') = length (UdpModel.u_lsts u) /\
  forall k q', nth_error (UdpModel.u_lsts u') k = Some q' -> exists q, nth_error (UdpModel.u_lsts u) k = Some q /\ (f <> UdpModel.EDropListener k -> UdpModel.l_rx q' = UdpModel.l_rx q).
Proof.
  intros S N. assert (SAME : forall k q', nth_error (UdpModel.u_lsts u) k = Some q' -> exists q, nth_error (UdpModel.u_lsts u) k = Some q /\ (f <> UdpModel.EDropListener k -> UdpModel.l_rx q' = UdpModel.l_rx q)) by eauto.
  apply UdpProofs.step_inv in S.
  destruct S; cbn [UdpModel.u_lsts UdpModel.set_task UdpModel.set_chan UdpModel.set_lst UdpModel.set_receivers UdpModel.set_listener UdpModel.add_chan UdpModel.add_lst];
  try (split; [reflexivity|exact SAME]); try (exfalso; eapply N; reflexivity).
  1,2: rewrite UdpProofs.set_nth_length; split; [reflexivity|]; intros k q' Q; apply UdpProofs.set_nth_cases in Q; destruct Q as [[-> ->]|[D Q]]; [|eauto]; eexists; split; [eassumption|cbn; congruence].
  destruct (UdpProofs.drop_all_other (UdpModel.l_queue x) (UdpModel.set_lst u l (UdpModel.mkL (UdpModel.l_cap x) [] false))) as (_ & _ & _ & _ & -> & _).
  cbn. rewrite UdpProofs.set_nth_length. split; [reflexivity|]. intros k q' Q. apply UdpProofs.set_nth_cases in Q. destruct Q as [[-> ->]|[D Q]]; [|eauto].
  eexists. split; [eassumption|]. congruence.
Qed.
Lemma lsts tr s : nhistory tr s -> n_lst s = seq 0 (length (UdpModel.u_lsts (n_udp s))) /\ length (r_lsnrs (n_rt s)) = length (UdpModel.u_lsts (n_udp s)) /\
  forall l x q, nth_error (r_lsnrs (n_rt s)) l = Some x -> l_alive x = true -> nth_error (UdpModel.u_lsts (n_udp s)) l = Some q -> UdpModel.l_rx q = true.
Proof.
  induction 1 as [|tr s e s' x H IH ST]; [repeat split; intros [|l] x q X; discriminate X|]. destruct IH as (N & L & A).
  assert (KEEP : forall f u q, UdpModel.step (n_udp s) f = Some (u, q) -> (forall n, f <> UdpModel.EListen n) ->
    (forall k, f = UdpModel.EDropListener k -> exists y, nth_error (r_lsnrs (n_rt s)) k = Some y /\ l_alive y = false) ->
    length (UdpModel.u_lsts u) = length (UdpModel.u_lsts (n_udp s)) /\
    forall l x q, nth_error (r_lsnrs (n_rt s)) l = Some x -> l_alive x = true -> nth_error (UdpModel.u_lsts u) l = Some q -> UdpModel.l_rx q = true).
  { intros f u q S F D. destruct (lst_kept _ _ _ _ S F) as [LE K]. split; [exact LE|]. intros l y q' Y AY Q. destruct (K _ _ Q) as (q0 & Q0 & E).
    rewrite E; [eapply A; eassumption|]. intros ->. destruct (D _ eq_refl) as (y' & Y' & AN). congruence. }
  assert (RT : forall r o e', step (n_rt s) e' = Some (r, o) -> length (r_lsnrs r) <= length (r_lsnrs (n_rt s)) -> forall u,
    length (UdpModel.u_lsts u) = length (UdpModel.u_lsts (n_udp s)) ->
    (forall l x q, nth_error (r_lsnrs (n_rt s)) l = Some x -> l_alive x = true -> nth_error (UdpModel.u_lsts u) l = Some q -> UdpModel.l_rx q = true) ->
    n_lst s = seq 0 (length (UdpModel.u_lsts u)) /\ length (r_lsnrs r) = length (UdpModel.u_lsts u) /\
    forall l x q, nth_error (r_lsnrs r) l = Some x -> l_alive x = true -> nth_error (UdpModel.u_lsts u) l = Some q -> UdpModel.l_rx q = true).
  { intros r o e' S LE u LU AU. destruct (lsnr_back _ _ _ _ S) as [LB B]. split; [congruence|]. split; [lia|]. intros l y q Y AY Q.
    assert (Ll : l < length (r_lsnrs (n_rt s))) by (apply nth_lt in Y; lia). destruct (B _ _ Y AY Ll) as (y0 & Y0 & A0). eapply AU; eassumption. }
  assert (NL : forall e' r o, step (n_rt s) e' = Some (r, o) -> (forall ok, e' <> EEp ok) -> length (r_lsnrs r) <= length (r_lsnrs (n_rt s))).
  { intros e' r o S NE. destruct (Compare_dec.le_lt_dec (length (r_lsnrs r)) (length (r_lsnrs (n_rt s)))) as [G|G]; [exact G|]. destruct (listens_open _ _ _ _ S G) as (ok & ->). destruct (NE _ eq_refl). }
  assert (DL : (exists l, e = NDropListener l) \/ forall l, e <> NDropListener l) by (destruct e; eauto; right; discriminate).
  destruct DL as [[l ->]|DL].
  { cbn in ST. destruct (nth_error (r_lsnrs (n_rt s)) l) as [y|] eqn:Y; [|discriminate]. destruct (nth_error (n_lst s) l) as [k|] eqn:K; [|discriminate].
    destruct (l_alive y) eqn:AY; [discriminate|]. unfold socket_step in ST. destruct (UdpModel.step (n_udp s) _) as [[u q]|] eqn:US; [|discriminate]. injection ST as <- <-. cbn [n_rt n_udp n_lst].
    assert (k = l) as ->. { rewrite N in K. assert (Z := K). apply nth_lt in Z. rewrite seq_length in Z. apply (nth_error_nth _ _ 0) in K. rewrite seq_nth in K by exact Z. lia. }
    destruct (KEEP _ _ _ US) as [LE AA]; [discriminate|intros k' E; injection E as <-; eauto|]. split; [congruence|]. split; [congruence|exact AA]. }
  pose proof ST as ST0. apply node_step_inv in ST. destruct ST as
    [e1 o r I S SP LE|e1 c a r u ch I S US|e1 o r u l I S SP LT US|f u q SO US DR DS|c ch p u r o C US S|c ch k u r o C US S|c ch u r o C US S|c y k ch bs os r o Y C O K S|l k ch a u r o LK US S|l k u r o LK US S]; cbn [n_rt n_udp n_lst].
  - eapply RT; eauto.
  - destruct (KEEP _ _ _ US) as [LU AU]; try discriminate. eapply RT; eauto.
    destruct (Compare_dec.le_lt_dec (length (r_lsnrs r)) (length (r_lsnrs (n_rt s)))) as [G|G]; [exact G|]. destruct (listens_open _ _ _ _ S G) as (ok & ->).
    cbn in S. unfold step_ep in S. cases_in S; injection S as <- <- <-; cbn in G; lia.
  - destruct (lsnr_back _ _ _ _ S) as [LB B]. cbn in US. destruct (UdpModel.u_open (n_udp s)); [|discriminate]. destruct (UdpModel.listener_locked (n_udp s)); [discriminate|]. injection US as <- <-.
    cbn. rewrite app_length. cbn. rewrite Nat.add_1_r, seq_S, N. split; [reflexivity|]. split; [lia|]. intros l y q Y AY Q. apply nth_snoc in Q. destruct Q as [Q|[-> ->]]; [|reflexivity].
    assert (Ll : l < length (r_lsnrs (n_rt s))) by (apply nth_lt in Q; lia). destruct (B _ _ Y AY Ll) as (y0 & Y0 & A0). eapply A; eassumption.
  - destruct (KEEP _ _ _ US) as [LU AU]; [intros n ->; discriminate SO| |split; [congruence|split; [congruence|exact AU]]].
    intros k ->. exfalso. destruct e; try (apply (DL _ eq_refl)); cbn in ST0; unfold socket_step, answer, pair_step in ST0; cases_in ST0; congruence.
  - destruct (KEEP _ _ _ US) as [LU AU]; try discriminate. eapply RT; eauto. eapply NL; [exact S|discriminate].
  - destruct (KEEP _ _ _ US) as [LU AU]; try discriminate. eapply RT; eauto. eapply NL; [exact S|discriminate].
  - destruct (KEEP _ _ _ US) as [LU AU]; try discriminate. eapply RT; eauto. eapply NL; [exact S|discriminate].
  - eapply RT; eauto. eapply NL; [exact S|discriminate].
  - destruct (KEEP _ _ _ US) as [LU AU]; try discriminate. eapply RT; eauto. eapply NL; [exact S|discriminate].
  - destruct (KEEP _ _ _ US) as [LU AU]; try discriminate. eapply RT; eauto. eapply NL; [exact S|discriminate].
Qed.
(** ** It goes on until there is nothing left *)
Lemma settle_history tr s : nhistory tr s -> forall tr' s', settling s tr' s' -> nhistory (tr ++ tr') s'.
Proof.
  intros H tr' s' S. revert tr H. induction S as [s|s e s1 x t s2 Q ST S IH]; intros tr H; [rewrite app_nil_r; exact H|].
  replace (tr ++ x :: t) with ((tr ++ [x]) ++ t) by (rewrite <- app_assoc; reflexivity). apply IH. eapply n_more; eassumption.
Qed.

Lemma run_goes tr s e r o : nhistory tr s -> task_w (n_udp s) = 0 -> cooperative e -> (forall c, e <> ESocket c true) -> step (n_rt s) e = Some (r, o) ->
  exists s' x, node_step s (NRun e) = Some (s', x) /\ n_rt s' = r.
Proof.
  intros H T Q N S.
  assert (I : internal e = true).
  { destruct e; try contradiction Q; try reflexivity; try (destruct ok; [reflexivity|contradiction Q]). destruct ok; [|contradiction Q]. exfalso. exact (N _ eq_refl). }
  assert (OP : (exists c a, o = OSpawned c a) \/ length (r_lsnrs (n_rt s)) < length (r_lsnrs r) -> UdpModel.u_open (n_udp s) = true).
  { intros K. destruct (UdpModel.u_open (n_udp s)) eqn:O; [reflexivity|]. exfalso. destruct (closed_over _ _ H O) as (E & P & L).
    assert (E1 := E). unfold ep_strong in E1. apply orb_false_iff in E1. destruct E1 as [_ E1]. change (existsb opens_pc (r_stubs (n_rt s)) = false) in E1.
    destruct K as [(c & a & ->)|K].
    - destruct (spawn_event _ _ _ _ _ _ _ S) as (_ & [(ok & ->)|[(n & ok & ->)|[(l & ->)|(k & ok & ->)]]]); cbn in S; unfold step_ep, step_take in S; rewrite ?P, ?L in S; try discriminate S; try (destruct k; discriminate S); [|contradiction Q].
      unfold step_stub, push_cmd in S. cases_in S.
      match goal with X : nth_error (r_stubs _) _ = Some ?t |- _ => pose proof (existsb_at _ _ _ _ E1 X) as Z; unfold opens_pc in Z;
         match goal with W : st_pc t = _ |- _ => rewrite W in Z end; congruence end.
    - destruct (listens_open _ _ _ _ S K) as (ok & ->). cbn in S. unfold step_ep in S. rewrite P in S. discriminate S. }
  assert (LK : UdpModel.listener_locked (n_udp s) = false).
  { unfold task_w in T. unfold UdpModel.listener_locked. destruct (UdpModel.u_task (n_udp s)); try discriminate; reflexivity. }
  cbn [NodeModel.node_step]. rewrite I, S.
  assert (EL : length (r_lsnrs (n_rt s)) < length (r_lsnrs r) -> exists u l, UdpModel.step (n_udp s) (UdpModel.EListen 8) = Some (u, UdpModel.OListening l)).
  { intros K. cbn. rewrite (OP (or_intror K)), LK. eauto. }
  assert (DL : length (r_lsnrs (n_rt s)) < length (r_lsnrs r) \/ (length (r_lsnrs (n_rt s)) <? length (r_lsnrs r)) = false).
  { destruct (Nat.ltb_spec (length (r_lsnrs (n_rt s))) (length (r_lsnrs r))); auto. }
  assert (NS : (exists c a, o = OSpawned c a) \/ ~ (exists c a, o = OSpawned c a)).
  { destruct o; try (left; eauto; fail); right; intros (? & ? & ?); discriminate. }
  destruct NS as [(c & a & ->)|NS].
  - assert (US : exists u k, UdpModel.step (n_udp s) (UdpModel.EConnect a) = Some (u, UdpModel.OConnected k)).
    { cbn. rewrite OP by (left; eauto). eauto. }
    destruct US as (u & k & ->). eexists. eexists. split; reflexivity.
  - assert (G : exists s' x, (if length (r_lsnrs (n_rt s)) <? length (r_lsnrs r) then
              match UdpModel.step (n_udp s) (UdpModel.EListen 8) with
              | Some (u, UdpModel.OListening l) =>
                  pair_step s e r o (UdpModel.EListen 8) u (UdpModel.OListening l) [] [l] None
              | _ => None
              end
            else Some (mkN r (n_udp s) (n_chan s) (n_lst s), mkE (Some (e, o)) None None)) = Some (s', x) /\ n_rt s' = r).
    { destruct DL as [K|K].
      - destruct (EL K) as (u & l & ->). apply Nat.ltb_lt in K. rewrite K. eexists. eexists. split; reflexivity.
      - rewrite K. eexists. eexists. split; reflexivity. }
    destruct o; try exact G. exfalso. apply NS. eauto.
Qed.
Lemma send_goes tr s c r o : nhistory tr s -> step (n_rt s) (ESocket c true) = Some (r, o) ->
  exists s' x, node_step s (NSend c true) = Some (s', x) /\ n_rt s' <> n_rt s.
Proof.
  intros H S. cbn in S. destruct (nth_error (r_conns (n_rt s)) c) as [y|] eqn:Y; [|discriminate]. destruct (c_alive y) eqn:A; [|discriminate].
  destruct (c_out y) as [bs|] eqn:O; [|discriminate]. clear S. destruct (chan_exists _ _ _ _ _ _ H Y) as (k & K).
  destruct (UdpProofs.i_opened _ _ (UdpInv.inv_history _ _ (socket_history _ _ _ _ H)) _ _ (chan_opened _ _ _ _ _ _ _ H K Y)) as (ch & C & _).
  cbn [NodeModel.node_step]. rewrite Y, K, O, C. destruct (UdpModel.udp_send bs true) as [ok out].
  cbn [RuntimeModel.step]. rewrite Y, A, O.
  assert (NE : forall f, (c_out (f y)) <> Some bs -> upd_conn c f (n_rt s) <> n_rt s).
  { intros f N E. apply N. assert (X : nth_error (r_conns (upd_conn c f (n_rt s))) c = Some (f y)) by (cbn; rewrite nth_upd_same, Y; reflexivity).
    rewrite E, Y in X. injection X as <-. exact O. }
  destruct ok; (eexists; eexists; split; [reflexivity|]; cbn [n_rt]; apply NE; cbn; discriminate).
Qed.

Lemma scan s (f : nat -> nevent) n : (exists i s' x, node_step s (f i) = Some (s', x)) \/ forall i, i < n -> node_step s (f i) = None.
Proof.
  induction n as [|n IH]; [right; intros i L; lia|]. destruct IH as [K|K]; [auto|]. destruct (node_step s (f n)) as [[s' x]|] eqn:E; [left; eauto|].
  right. intros i L. destruct (Nat.eq_dec i n) as [->|D]; [exact E|]. apply K. lia.
Qed.
Lemma accept_changes s l s' x : node_step s (NAccept l) = Some (s', x) -> s' <> s.
Proof.
  intros ST E. cbn [NodeModel.node_step] in ST. destruct (nth_error (n_lst s) l) as [k|]; [|discriminate].
  destruct (UdpModel.step (n_udp s) (UdpModel.EAccept k)) as [[u q]|]; [|discriminate]. unfold answer, pair_step in ST.
  destruct q; try discriminate; (destruct (step (n_rt s) _) as [[r o]|] eqn:S; [|discriminate]); injection ST as ST _; subst s'.
  - apply (f_equal (fun z => length (n_chan z))) in E. cbn in E. rewrite app_length in E. cbn in E. lia.
  - apply (f_equal n_rt) in E. cbn in E. subst r. assert (W : left_to_do (n_rt s) < left_to_do (n_rt s)); [|exact (Nat.lt_irrefl _ W)].
    eapply work_less; [|exact S| |]; [reflexivity|..]; intros ->; cbn in S; cases_in S.
Qed.
Lemma recv_changes tr s c s' x : nhistory tr s -> node_step s (NRecv c) = Some (s', x) -> s' <> s.
Proof.
  intros H ST E. pose proof (socket_history _ _ _ _ H) as HU. cbn [NodeModel.node_step] in ST. destruct (nth_error (n_chan s) c) as [ch|] eqn:C; [|discriminate].
  destruct (UdpModel.step (n_udp s) (UdpModel.ERecv ch)) as [[u q]|] eqn:US; [|discriminate].
  assert (IC : exists cc, nth_error (UdpModel.u_chans (n_udp s)) ch = Some cc).
  { pose proof US as US'. cbn in US'. destruct (nth_error (UdpModel.u_chans (n_udp s)) ch); [eauto|discriminate]. }
  destruct IC as (cc & CC). destruct (read_less _ _ _ _ _ _ HU CC US) as (_ & _ & RL). unfold answer, pair_step in ST. subst s'.
  destruct q; try discriminate; (destruct (step (n_rt s) _) as [[r o]|] eqn:S; [|discriminate]); injection ST as ST _.
  - apply (f_equal n_udp) in ST. cbn in ST. subst u. lia.
  - apply (f_equal n_udp) in ST. cbn in ST. subst u. lia.
  - apply (f_equal n_rt) in ST. cbn in ST. subst r. assert (W : left_to_do (n_rt s) < left_to_do (n_rt s)); [|exact (Nat.lt_irrefl _ W)].
    eapply work_less; [|exact S| |]; [reflexivity|..]; intros ->; cbn in S; cases_in S.
Qed.
Lemma drop_changes s f u o : dropping f -> UdpModel.step (n_udp s) f = Some (u, o) -> u <> n_udp s.
Proof. intros D S E. subst u. destruct (drop_less _ _ _ _ D S) as (_ & [L|(_ & _ & L)]); exact (Nat.lt_irrefl _ L). Qed.
Lemma dropping_changes s e s' x : match e with NDropReceiver _ | NDropListener _ | NDropSocket => True | _ => False end -> node_step s e = Some (s', x) -> s' <> s.
Proof.
  intros Q ST E. assert (K : exists f u o, dropping f /\ UdpModel.step (n_udp s) f = Some (u, o) /\ n_udp s' = u).
  { destruct e; try contradiction Q; cbn [NodeModel.node_step] in ST; unfold socket_step in ST;
    cases_in ST; injection ST as <- <-; match goal with US : UdpModel.step _ ?f = Some (?u, ?q) |- _ => exists f, u, q; split; [exact Logic.I|split; [exact US|reflexivity]] end. }
  destruct K as (f & u & o & D & S & U). subst s'. exact (drop_changes _ _ _ _ D S (eq_sym U)).
Qed.

Lemma step_on tr s : nhistory tr s ->
  (exists e s' x, settles e /\ node_step s e = Some (s', x) /\ s' <> s) \/ (at_peace bk cbk s /\ caught_up s) \/ exists c n, jammed bk (runtime_trace tr) (n_rt s) c n.
Proof.
  intros H. pose proof (socket_history _ _ _ _ H) as HU. pose proof (runtime_history _ _ _ _ H) as HR.
  destruct (Nat.eq_dec (task_w (n_udp s)) 0) as [Z|Z].
  2: { left. destruct (UdpTheorems.task_moves _ _ (UdpInv.inv_history _ _ HU) Z) as (u & T & L).
       exists NTask. cbn. unfold socket_step. cbn [UdpModel.step]. rewrite T. eexists. eexists. split; [exact I|]. split; [reflexivity|].
       intros E. apply (f_equal n_udp) in E. cbn in E. subst u. exact (Nat.lt_irrefl _ L). }
  destruct (progress _ _ _ _ _ HR) as [(e & r & o & Q & S & N1 & N2)|[P|J]]; [| |auto].
  - left. assert (SK : (exists c, e = ESocket c true) \/ forall c, e <> ESocket c true).
    { destruct e; try (right; intros ? ?; discriminate). destruct ok; [left; eauto|right; intros ? ?; discriminate]. }
    destruct SK as [(c & ->)|SK].
    + destruct (send_goes _ _ _ _ _ H S) as (s' & x & ST & NE). exists (NSend c true), s', x. split; [exact I|]. split; [exact ST|].
      intros ->. exact (NE eq_refl).
    + destruct (run_goes _ _ _ _ _ H Z Q SK S) as (s' & x & ST & E). exists (NRun e), s', x. split; [exact Q|]. split; [exact ST|].
      intros ->. pose proof (work_less _ _ _ _ (coop_brings _ Q) S N1 N2) as W. rewrite E in W. exact (Nat.lt_irrefl _ W).
  - destruct (scan s NRecv (length (n_chan s))) as [(c & s' & x & ST)|NR].
    + left. exists (NRecv c), s', x. split; [exact Logic.I|]. split; [exact ST|]. eapply recv_changes; eassumption.
    +
      assert (NRN : forall c s' x, node_step s (NRecv c) <> Some (s', x)).
      { intros c s' x ST. destruct (Nat.lt_ge_cases c (length (n_chan s))) as [L|L]; [rewrite NR in ST by exact L; discriminate|].
        cbn in ST. rewrite (proj2 (nth_error_None _ _) L) in ST. discriminate. }
      assert (RT : forall c x k ch, nth_error (r_conns (n_rt s)) c = Some x -> c_alive x = true -> nth_error (n_chan s) c = Some k ->
        nth_error (UdpModel.u_chans (n_udp s)) k = Some ch -> UdpModel.c_rx ch = true /\ UdpModel.waiting (n_udp s) k = false /\ c_recv x = RWait []).
      { intros c x k ch X A K C. pose proof (chan_opened _ _ _ _ _ _ _ H K X) as O. split; [|split].
        - eapply opened_rx; [exact HU|exact O| |exact C]. eapply undropped; [exact H|exact K|exists x; auto].
        - destruct (UdpModel.waiting (n_udp s) k) eqn:W; [|reflexivity]. exfalso. unfold UdpModel.waiting in W. apply existsb_exists in W.
          destruct W as (y & Y & W). apply UdpProofs.existsb_queue in W. destruct W as (b & W).
          apply (opened_apart _ _ _ _ HU O b). apply in_flat_map. eauto.
        - pose proof (all_routed _ P c) as AR. unfold waiting in AR. rewrite X in AR. destruct (c_recv x) as [todo|]; [rewrite AR; reflexivity|discriminate]. }
      assert (R : forall c x k ch, nth_error (r_conns (n_rt s)) c = Some x -> c_alive x = true -> nth_error (n_chan s) c = Some k ->
        nth_error (UdpModel.u_chans (n_udp s)) k = Some ch -> UdpModel.c_next ch = length (UdpModel.c_sent ch)).
      { intros c x k ch X A K C. destruct (UdpProofs.i_chan _ _ (UdpInv.inv_history _ _ HU) _ _ C) as (_ & _ & _ & LE & _).
        destruct (Nat.eq_dec (UdpModel.c_next ch) (length (UdpModel.c_sent ch))) as [D|D]; [exact D|exfalso].
        destruct (RT _ _ _ _ X A K C) as (RX & W & RW).
        assert (L : c < length (n_chan s)) by (apply nth_lt in K; exact K). specialize (NR c L). cbn [NodeModel.node_step] in NR. rewrite K in NR. cbn [UdpModel.step] in NR. rewrite C, RX, W in NR. cbn [negb andb] in NR.
        unfold UdpModel.chan_recv in NR. destruct (_ <? _).
        - unfold answer in NR. cbn [RuntimeModel.step] in NR. rewrite X, A, RW in NR. discriminate NR.
        - destruct (nth_error (UdpModel.c_sent ch) (UdpModel.c_next ch)) as [d|] eqn:N; [|apply nth_error_None in N; lia].
          unfold answer in NR. cbn [RuntimeModel.step] in NR. rewrite X, A, RW in NR. destruct (decode _) in NR; discriminate NR. }
      assert (SO : forall c x k, nth_error (r_conns (n_rt s)) c = Some x -> c_alive x = true -> nth_error (n_chan s) c = Some k -> UdpModel.has_sender (n_udp s) k = true).
      { intros c x k X A K. destruct (UdpProofs.i_opened _ _ (UdpInv.inv_history _ _ HU) _ _ (chan_opened _ _ _ _ _ _ _ H K X)) as (ch & C & _).
        destruct (UdpModel.has_sender (n_udp s) k) eqn:HS; [reflexivity|exfalso]. destruct (RT _ _ _ _ X A K C) as (RX & W & RW). pose proof (R _ _ _ _ X A K C) as E.
        assert (L : c < length (n_chan s)) by (apply nth_lt in K; exact K). specialize (NR c L). cbn [NodeModel.node_step] in NR. rewrite K in NR. cbn [UdpModel.step] in NR. rewrite C, RX, W in NR. cbn [negb andb] in NR.
        unfold UdpModel.chan_recv in NR. destruct (Nat.ltb_spec (UdpModel.c_next ch + UdpModel.c_cap ch) (length (UdpModel.c_sent ch))); [lia|].
        rewrite (proj2 (nth_error_None _ _)) in NR by lia. rewrite HS in NR. cbn [negb] in NR. unfold answer in NR. cbn [RuntimeModel.step] in NR. rewrite X, A, RW in NR. discriminate NR. }
      assert (TW : UdpModel.u_task (n_udp s) = UdpModel.Idle \/ UdpModel.u_task (n_udp s) = UdpModel.Stopped).
      { unfold task_w in Z. destruct (UdpModel.u_task (n_udp s)); try discriminate; auto. }
      destruct (lsts _ _ H) as (NL & LL & LA).
      assert (LK : forall l k, nth_error (n_lst s) l = Some k -> k = l).
      { intros l k K. rewrite NL in K. assert (Y := K). apply nth_lt in Y. rewrite seq_length in Y. apply (nth_error_nth _ _ 0) in K. rewrite seq_nth in K by exact Y. lia. }
      destruct (scan s NAccept (length (n_lst s))) as [(l & s' & x & ST)|NA].
      { left. exists (NAccept l), s', x. split; [exact Logic.I|]. split; [exact ST|]. eapply accept_changes. exact ST. }
      destruct (scan s NDropReceiver (length (n_chan s))) as [(l & s' & x & ST)|ND].
      { left. exists (NDropReceiver l), s', x. split; [exact Logic.I|]. split; [exact ST|]. eapply dropping_changes; [|exact ST]. exact Logic.I. }
      destruct (scan s NDropListener (length (n_lst s))) as [(l & s' & x & ST)|NDL].
      { left. exists (NDropListener l), s', x. split; [exact Logic.I|]. split; [exact ST|]. eapply dropping_changes; [|exact ST]. exact Logic.I. }
      destruct (scan s (fun _ => NDropSocket) 1) as [(l & s' & x & ST)|NDS].
      { left. exists NDropSocket, s', x. split; [exact Logic.I|]. split; [exact ST|]. eapply dropping_changes; [|exact ST]. exact Logic.I. }
      right. left. split.
      2: { constructor; [exact TW|exact R| |exact SO| | | |].
        - intros l x k q X A K Q. pose proof (LK _ _ K) as ->. assert (L : l < length (n_lst s)) by (apply nth_lt in K; exact K). specialize (NA l L).
          destruct (UdpModel.l_queue q) as [|[ch a] qs] eqn:QE; [reflexivity|exfalso]. pose proof (LA _ _ _ X A Q) as RX. destruct (all_shared _ P _ _ X) as [_ PC].
          cbn [NodeModel.node_step] in NA. rewrite K in NA. cbn [UdpModel.step] in NA. rewrite Q, RX, QE in NA. unfold answer, pair_step in NA. cbn [RuntimeModel.step] in NA. rewrite X, A, PC in NA. discriminate NA.
        - intros l x k X A K. pose proof (LK _ _ K) as ->. assert (L : l < length (n_lst s)) by (apply nth_lt in K; exact K). specialize (NA l L).
          destruct (UdpModel.has_listener (n_udp s) l) eqn:HL; [reflexivity|exfalso]. destruct (all_shared _ P _ _ X) as [_ PC].
          destruct (nth_error (UdpModel.u_lsts (n_udp s)) l) as [q|] eqn:Q; [|apply nth_error_None in Q; apply nth_lt in X; lia]. pose proof (LA _ _ _ X A Q) as RX.
          cbn [NodeModel.node_step] in NA. rewrite K in NA. cbn [UdpModel.step] in NA. rewrite Q, RX, HL in NA. unfold answer, pair_step in NA. cbn [RuntimeModel.step] in NA.
          destruct (UdpModel.l_queue q) as [|[ch a] qs]; rewrite X, A, PC in NA; discriminate NA.
        - intros c x k ch X A K C. assert (L : c < length (n_chan s)) by (apply nth_lt in K; exact K). specialize (ND c L). destruct (UdpModel.c_rx ch) eqn:RX; [exfalso|reflexivity].
          pose proof (chan_opened _ _ _ _ _ _ _ H K X) as O.
          assert (W : UdpModel.waiting (n_udp s) k = false).
          { destruct (UdpModel.waiting (n_udp s) k) eqn:W; [|reflexivity]. exfalso. unfold UdpModel.waiting in W. apply existsb_exists in W.
            destruct W as (y & Y & W). apply UdpProofs.existsb_queue in W. destruct W as (b & W).
            apply (opened_apart _ _ _ _ HU O b). apply in_flat_map. eauto. }
          cbn [NodeModel.node_step] in ND. rewrite X, K, A in ND. unfold socket_step in ND. cbn [UdpModel.step] in ND. rewrite C, RX, W in ND. discriminate ND.
        - intros l x k q X A K Q. assert (L : l < length (n_lst s)) by (apply nth_lt in K; exact K). specialize (NDL l L). destruct (UdpModel.l_rx q) eqn:RX; [exfalso|reflexivity].
          cbn [NodeModel.node_step] in NDL. rewrite X, K, A in NDL. unfold socket_step in NDL. cbn [UdpModel.step] in NDL. rewrite Q, RX in NDL. discriminate NDL.
        - intros ES. specialize (NDS 0 Nat.lt_0_1). cbn beta in NDS. destruct (UdpModel.u_open (n_udp s)) eqn:O; [exfalso|reflexivity].
          cbn [NodeModel.node_step] in NDS. destruct (no_call _ P) as [CD1 CD2]. rewrite ES, CD1, CD2 in NDS. unfold socket_step in NDS. cbn [UdpModel.step] in NDS. rewrite O in NDS. discriminate NDS. }
      constructor; [exact P| |].
      * intros s' x ST. cbn in ST. unfold socket_step in ST. cbn [UdpModel.step] in ST. destruct (UdpModel.task_step (n_udp s)) eqn:T; [|discriminate].
        unfold UdpModel.task_step in T. unfold task_w in Z. destruct (UdpModel.u_task (n_udp s)); discriminate.
      * intros c s' x ST. destruct (NRN _ _ _ ST).
Qed.
(** Left to itself an endpoint stops, whatever it does first ... *)
Theorem stops (f : nat -> node) tr : nhistory tr (f 0) ->
  ~ (forall n, f (S n) <> f n /\ exists e x, settles e /\ node_step (f n) e = Some (f (S n), x)).
Proof.
  intros H F. assert (HN : forall n, exists t, nhistory t (f n)).
  { induction n as [|n (t & IH)]; [eauto|]. destruct (F n) as (_ & e & x & _ & ST). eexists. eapply n_more; eassumption. }
  assert (L : forall n, less (f (S n)) (f n)).
  { intros n. destruct (HN n) as (t & Ht). destruct (F n) as (N & e & x & Q & ST). destruct (settle_less _ _ _ _ _ Ht Q ST); [contradiction|assumption]. }
  assert (A : forall s, Acc less s -> forall n, f n = s -> False).
  { induction 1 as [s _ IH]. intros n E. apply (IH (f (S n))) with (n := S n); [rewrite <- E; apply L|reflexivity]. }
  exact (A _ (less_wf (f 0)) 0 eq_refl).
Qed.
(** ... and then it is at peace, or jammed. *)
Theorem stopped tr s : nhistory tr s -> (forall e s' x, settles e -> node_step s e = Some (s', x) -> s' = s) ->
  (at_peace bk cbk s /\ caught_up s) \/ exists c n, jammed bk (runtime_trace tr) (n_rt s) c n.
Proof. intros H F. destruct (step_on _ _ H) as [(e & s' & x & Q & ST & N)|K]; [|exact K]. exfalso. exact (N (F _ _ _ Q ST)). Qed.
Theorem comes_to_peace tr s : nhistory tr s -> exists tr' s', settling s tr' s' /\ nhistory (tr ++ tr') s' /\
  ((at_peace bk cbk s' /\ caught_up s') \/ exists c n, jammed bk (runtime_trace (tr ++ tr')) (n_rt s') c n).
Proof.
  revert tr. induction s as [s IH] using (well_founded_induction less_wf). intros tr H.
  destruct (step_on _ _ H) as [(e & s1 & x & Q & ST & N)|K].
  - assert (L : less s1 s) by (destruct (settle_less _ _ _ _ _ H Q ST); [contradiction|assumption]).
    destruct (IH _ L _ (n_more _ _ _ _ _ _ _ H ST)) as (tr' & s' & S & HH & K). exists (x :: tr'), s'. split; [eapply g_more; eassumption|].
    rewrite <- app_assoc in K, HH. split; [exact HH|exact K].
  - exists [], s. rewrite app_nil_r. split; [constructor|]. split; [exact H|exact K].
Qed.
End Locks.
