(** Theorems about several endpoints over TCP and the streams between them. *)
From Coq Require Import List NArith Bool PeanoNat Lia Permutation.
From Verif Require Import BytesModel WireSpec SomeipModel SomeipSpec MapModel EndpointProofs
  RuntimeModel RuntimeSpec RuntimeProofs RuntimeTheorems RuntimeSendTheorems RuntimeAddrTheorems RuntimeOwnerTheorems
  NodeSpec NodeProofs TcpModel TcpSpec TcpNodeModel TcpNodeSpec TcpNodeTheorems TcpRestSpec TcpRestTheorems TcpNetModel TcpNetSpec.
Import ListNotations.
Open Scope nat_scope.

(** ** Ends of streams *)
Definition ends_of (x : wire) : list (N * nat) := (w_from x, w_fc x) :: match w_tc x with Some d => [(w_to x, d)] | None => [] end.
Definition ends (ws : list wire) : list (N * nat) := flat_map ends_of ws.
Lemma ends_app l m : ends (l ++ m) = ends l ++ ends m.
Proof. apply flat_map_app. Qed.
Lemma ends_in ws x p : In x ws -> In p (ends_of x) -> In p (ends ws).
Proof. intros I P. apply in_flat_map. eauto. Qed.
Lemma nodup_app {A} (l m : list A) p : NoDup (l ++ m) -> In p l -> In p m -> False.
Proof.
  induction l as [|y l IH]; [contradiction|]. cbn. intros D [->|I] J; inversion D as [|? ? N D']; subst.
  - apply N. apply in_app_iff. right. exact J.
  - exact (IH D' I J).
Qed.
Lemma nodup_tail {A} (l m : list A) : NoDup (l ++ m) -> NoDup m.
Proof. induction l as [|y l IH]; [auto|]. cbn. intros D. inversion D; auto. Qed.
Lemma one_wire ws i j x y p : NoDup (ends ws) -> nth_error ws i = Some x -> nth_error ws j = Some y ->
  In p (ends_of x) -> In p (ends_of y) -> i = j.
Proof.
  revert i j. induction ws as [|z ws IH]; intros i j D X Y P Q; [destruct i; discriminate X|].
  change (NoDup (ends_of z ++ ends ws)) in D. destruct i as [|i], j as [|j]; cbn in X, Y.
  - reflexivity.
  - injection X as <-. exfalso. eapply nodup_app; [exact D|exact P|]. eapply ends_in; [eapply nth_error_In; exact Y|exact Q].
  - injection Y as <-. exfalso. eapply nodup_app; [exact D|exact Q|]. eapply ends_in; [eapply nth_error_In; exact X|exact P].
  - f_equal. eapply IH; eauto. eapply nodup_tail. exact D.
Qed.
Lemma two_ends ws i x : NoDup (ends ws) -> nth_error ws i = Some x -> forall d, w_tc x = Some d -> (w_from x, w_fc x) <> (w_to x, d).
Proof.
  revert i. induction ws as [|z ws IH]; intros i D X d T; [destruct i; discriminate X|].
  change (NoDup (ends_of z ++ ends ws)) in D. destruct i as [|i]; cbn in X.
  - injection X as ->. unfold ends_of in D. rewrite T in D. cbn in D. inversion D as [|? ? N _]; subst. intros E. apply N. left. symmetry. exact E.
  - eapply IH; eauto. eapply nodup_tail. exact D.
Qed.
Lemma ends_same ws i f : (forall x, ends_of (f x) = ends_of x) -> ends (upd i f ws) = ends ws.
Proof.
  intros F. revert i. induction ws as [|z ws IH]; intros [|i]; try reflexivity.
  - change (ends_of (f z) ++ ends ws = ends_of z ++ ends ws). rewrite F. reflexivity.
  - change (ends_of z ++ ends (upd i f ws) = ends_of z ++ ends ws). rewrite IH. reflexivity.
Qed.
Lemma ends_carry a c out ws : ends (map (carry a c out) ws) = ends ws.
Proof.
  induction ws as [|x ws IH]; [reflexivity|].
  change (ends_of (carry a c out x) ++ ends (map (carry a c out) ws) = ends_of x ++ ends ws). rewrite IH. f_equal. unfold carry, ends_of.
  destruct (N.eqb (w_from x) a && (w_fc x =? c)); [reflexivity|]. destruct (w_tc x) as [d|] eqn:T; [|rewrite T; reflexivity].
  destruct (N.eqb (w_to x) a && (d =? c)); cbn; rewrite T; reflexivity.
Qed.
Lemma ends_accept ws i x c : nth_error ws i = Some x -> w_tc x = None -> Permutation (ends (upd i (w_with_tc c) ws)) ((w_to x, c) :: ends ws).
Proof.
  revert i. induction ws as [|z ws IH]; intros i X T; [destruct i; discriminate X|]. destruct i as [|i]; cbn in X.
  - injection X as ->. cbn. unfold ends_of. cbn. rewrite T. cbn. apply perm_swap.
  - change (Permutation (ends_of z ++ ends (upd i (w_with_tc c) ws)) ((w_to x, c) :: ends_of z ++ ends ws)).
    eapply Permutation_trans; [apply Permutation_app_head, IH; eassumption|]. apply Permutation_sym, Permutation_middle.
Qed.
Lemma nth_upd ws i j f (y : wire) : nth_error (upd i f ws) j = Some y ->
  (i = j /\ exists x, nth_error ws i = Some x /\ y = f x) \/ (i <> j /\ nth_error ws j = Some y).
Proof.
  intros E. destruct (Nat.eq_dec j i) as [->|N]; [|right; split; [congruence|]; rewrite nth_upd_other in E by exact N; exact E].
  left. split; [reflexivity|]. rewrite nth_upd_same in E. destruct (nth_error ws i) as [x|]; [|discriminate]. injection E as <-. eauto.
Qed.

Section Locks.
Context (bk : iid -> N) (cbk : N -> N).
Local Notation step := (step bk cbk).
Local Notation tnode_step := (tnode_step bk cbk).
Local Notation thistory := (thistory bk cbk).
Local Notation tnet_step := (tnet_step bk cbk).
Local Notation tnet_history := (tnet_history bk cbk).

(** ** What a step is *)
Inductive wired (w : tnet) (a : N) (e : tnevent) (x : tentry) : list wire -> Prop :=
| wd_run : from_network e = false -> wired w a e x
    ((match e with TWrite c _ => map (carry a c (te_out x)) (tn_wires w) | _ => tn_wires w end) ++
     (match te_rt x with Some (_, OSpawned c b) => [mkWire a c b None [] []] | _ => [] end))
| wd_accept i l y : nth_error (tn_wires w) i = Some y -> w_tc y = None -> w_to y = a -> e = TRun (EAccept l (w_from y)) ->
    wired w a e x (match te_rt x with Some (_, OSpawned c _) => upd i (w_with_tc c) (tn_wires w) | _ => tn_wires w end)
| wd_there i n y c : nth_error (tn_wires w) i = Some y -> w_tc y = Some c -> w_to y = a -> e = TBytes c (firstn n (w_there y)) ->
    wired w a e x (upd i (w_with_there (skipn n (w_there y))) (tn_wires w))
| wd_back i n y : nth_error (tn_wires w) i = Some y -> w_from y = a -> e = TBytes (w_fc y) (firstn n (w_back y)) ->
    wired w a e x (upd i (w_with_back (skipn n (w_back y))) (tn_wires w))
| wd_end_there i y c : nth_error (tn_wires w) i = Some y -> w_tc y = Some c -> w_to y = a -> w_there y = [] ->
    dropped_conn (tn_node w (w_from y)) (w_fc y) = true -> e = TEnd c -> wired w a e x (tn_wires w)
| wd_end_back i y c : nth_error (tn_wires w) i = Some y -> w_tc y = Some c -> w_from y = a -> w_back y = [] ->
    dropped_conn (tn_node w (w_to y)) c = true -> e = TEnd (w_fc y) -> wired w a e x (tn_wires w).

Lemma net_stepped w ev w' p : tnet_step w ev = Some (w', p) -> exists a e x s',
  p = (a, (e, x)) /\ tnode_step (tn_node w a) e = Some (s', x) /\ tn_node w' = set_tnode a s' (tn_node w) /\ wired w a e x (tn_wires w').
Proof.
  intros H. destruct ev; unfold TcpNetModel.tnet_step in H.
  - destruct (from_network e) eqn:F; [discriminate|]. destruct (tnode_step (tn_node w a) e) as [[s' x]|] eqn:E; [|discriminate].
    injection H as <- <-. exists a, e, x, s'. repeat split; [exact E|]. cbn [tn_wires]. apply wd_run. exact F.
  - destruct (nth_error (tn_wires w) i) as [y|] eqn:Y; [|discriminate]. destruct (w_tc y) eqn:T; [discriminate|].
    destruct (N.eqb_spec (w_to y) a) as [A|]; [|discriminate].
    destruct (tnode_step (tn_node w a) (TRun (EAccept l (w_from y)))) as [[s' x]|] eqn:E; [|discriminate]. injection H as <- <-.
    eexists _, _, _, _. repeat split; [exact E|]. cbn [tn_wires]. eapply wd_accept; eauto.
  - destruct (nth_error (tn_wires w) i) as [y|] eqn:Y; [|discriminate]. destruct (w_tc y) as [c|] eqn:T; [|discriminate].
    destruct (tnode_step (tn_node w (w_to y)) (TBytes c (firstn n (w_there y)))) as [[s' x]|] eqn:E; [|discriminate]. injection H as <- <-.
    eexists _, _, _, _. repeat split; [exact E|]. cbn [tn_wires]. eapply wd_there; eauto.
  - destruct (nth_error (tn_wires w) i) as [y|] eqn:Y; [|discriminate].
    destruct (tnode_step (tn_node w (w_from y)) (TBytes (w_fc y) (firstn n (w_back y)))) as [[s' x]|] eqn:E; [|discriminate]. injection H as <- <-.
    eexists _, _, _, _. repeat split; [exact E|]. cbn [tn_wires]. eapply wd_back; eauto.
  - destruct (nth_error (tn_wires w) i) as [y|] eqn:Y; [|discriminate]. destruct (w_tc y) as [c|] eqn:T; [|discriminate].
    destruct (w_there y) eqn:TH; [|discriminate]. destruct (dropped_conn (tn_node w (w_from y)) (w_fc y)) eqn:D; [|discriminate].
    destruct (tnode_step (tn_node w (w_to y)) (TEnd c)) as [[s' x]|] eqn:E; [|discriminate]. injection H as <- <-.
    eexists _, _, _, _. repeat split; [exact E|]. cbn [tn_wires]. eapply wd_end_there; eauto.
  - destruct (nth_error (tn_wires w) i) as [y|] eqn:Y; [|discriminate]. destruct (w_tc y) as [c|] eqn:T; [|discriminate].
    destruct (w_back y) eqn:TH; [|discriminate]. destruct (dropped_conn (tn_node w (w_to y)) c) eqn:D; [|discriminate].
    destruct (tnode_step (tn_node w (w_from y)) (TEnd (w_fc y))) as [[s' x]|] eqn:E; [|discriminate]. injection H as <- <-.
    eexists _, _, _, _. repeat split; [exact E|]. cbn [tn_wires]. eapply wd_end_back; eauto.
Qed.

Lemma at_tcp_snoc b tr a p : at_tcp b (tr ++ [(a, p)]) = at_tcp b tr ++ if N.eqb a b then [p] else [].
Proof. unfold at_tcp. rewrite flat_map_app. cbn. rewrite app_nil_r. reflexivity. Qed.
Lemma tcp_at_history tr w a : tnet_history tr w -> thistory (at_tcp a tr) (tn_node w a).
Proof.
  induction 1 as [|tr w ev w' p H IH ST]; [constructor|]. destruct (net_stepped _ _ _ _ ST) as (b & e & x & s' & -> & E & -> & _).
  rewrite at_tcp_snoc. unfold set_tnode. rewrite (N.eqb_sym a b). destruct (N.eqb_spec b a) as [->|]; [econstructor; eassumption|].
  rewrite app_nil_r. exact IH.
Qed.

(** ** What is at the ends *)
Definition rx (tr : list (N * (tnevent * tentry))) (p : N * nat) : list N := bytes_in (snd p) (at_tcp (fst p) tr).
Definition tx (tr : list (N * (tnevent * tentry))) (p : N * nat) : list N := bytes_out (snd p) (at_tcp (fst p) tr).
Lemma pair_dec (p q : N * nat) : {p = q} + {p <> q}.
Proof. decide equality; [apply Nat.eq_dec|apply N.eq_dec]. Qed.
Lemma rx_snoc tr a e x p : rx (tr ++ [(a, (e, x))]) p = rx tr p ++ match e with TBytes d b => if pair_dec (a, d) p then b else [] | _ => [] end.
Proof.
  destruct p as [q c]. unfold rx. cbn [fst snd]. rewrite at_tcp_snoc. destruct (N.eqb_spec a q) as [->|N].
  - rewrite bytes_in_snoc. f_equal. destruct e; try reflexivity. destruct (Nat.eqb_spec c0 c) as [->|]; destruct (pair_dec _ _); congruence.
  - rewrite app_nil_r. destruct e; rewrite ?app_nil_r; try reflexivity. destruct (pair_dec _ _); [congruence|]. rewrite app_nil_r. reflexivity.
Qed.
Lemma tx_snoc tr a e x p : tx (tr ++ [(a, (e, x))]) p = tx tr p ++ match e with TWrite d _ => if pair_dec (a, d) p then te_out x else [] | _ => [] end.
Proof.
  destruct p as [q c]. unfold tx. cbn [fst snd]. rewrite at_tcp_snoc. destruct (N.eqb_spec a q) as [->|N].
  - rewrite bytes_out_snoc. f_equal. destruct e; try reflexivity. destruct (Nat.eqb_spec c0 c) as [->|]; destruct (pair_dec _ _); congruence.
  - rewrite app_nil_r. destruct e; rewrite ?app_nil_r; try reflexivity. destruct (pair_dec _ _); [congruence|]. rewrite app_nil_r. reflexivity.
Qed.
Lemma rx_still tr a e x p : (forall c d, e <> TBytes c d) -> rx (tr ++ [(a, (e, x))]) p = rx tr p.
Proof. intros N. rewrite rx_snoc. destruct e; try apply app_nil_r. destruct (N _ _ eq_refl). Qed.
Lemma tx_still tr a e x p : (forall c d, e <> TWrite c d) -> tx (tr ++ [(a, (e, x))]) p = tx tr p.
Proof. intros N. rewrite tx_snoc. destruct e; try apply app_nil_r. destruct (N _ _ eq_refl). Qed.

Definition nconns (s : tnode) : nat := length (r_conns (t_rt s)).
Lemma nothing_yet tr s c : thistory tr s -> nconns s <= c -> bytes_in c tr = [] /\ bytes_out c tr = [].
Proof.
  intros H L. split.
  - revert L. induction H as [|tr s e s' x H IH ST]; intros L; [reflexivity|]. rewrite bytes_in_snoc.
    assert (M : nconns s <= nconns s').
    { unfold nconns. pose proof (tcp_step_rt _ _ _ _ _ _ ST) as R. destruct (te_rt x) as [[f o]|]; [|rewrite R; lia].
      apply step_addrs in R. apply (f_equal (@length N)) in R. rewrite app_length, !map_length in R. lia. }
    rewrite IH by lia. cbn. pose proof (links_length _ _ _ _ H) as LL.
    destruct (tnode_stepped _ _ _ _ _ _ ST) as [| c0 d k K| | | | | |]; try reflexivity.
    destruct (Nat.eqb_spec c0 c) as [->|]; [|reflexivity]. apply nth_lt in K. unfold nconns in *. lia.
  - pose proof (writing _ _ _ _ H c) as W. unfold wrote in W. replace (nth_error (r_conns (t_rt s)) c) with (@None conn) in W by (symmetry; apply nth_error_None; exact L). apply W.
Qed.
Lemma step_conns s e s' x : tnode_step s e = Some (s', x) ->
  (exists f b, te_rt x = Some (f, OSpawned (nconns s) b) /\ nconns s' = S (nconns s) /\ exists f', e = TRun f') \/
  ((forall f c b, te_rt x <> Some (f, OSpawned c b)) /\ nconns s' = nconns s).
Proof.
  intros ST. pose proof (tcp_step_rt _ _ _ _ _ _ ST) as R. unfold nconns. destruct (te_rt x) as [[f o]|] eqn:X; [|right; split; [discriminate|congruence]].
  pose proof (step_addrs _ _ _ _ _ _ R) as A. apply (f_equal (@length N)) in A. rewrite app_length, !map_length in A.
  destruct o; cbn in A; try (right; split; [intros; discriminate|lia]).
  destruct (spawn_event _ _ _ _ _ _ _ R) as [-> EV]. left. exists f, a. split; [reflexivity|]. split; [lia|].
  destruct (tnode_stepped _ _ _ _ _ _ ST); cbn in X; try discriminate X; injection X as <- _; eauto;
  exfalso; destruct EV as [[? ?]|[(? & ? & ?)|[[? ?]|(? & ? & ?)]]]; discriminate.
Qed.

(** A dropped connection stays so, and nothing is written to it. *)
Lemma dropped_is s c : dropped_conn s c = true <-> exists y, nth_error (r_conns (t_rt s)) c = Some y /\ c_alive y = false.
Proof.
  unfold dropped_conn. destruct (nth_error (r_conns (t_rt s)) c) as [y|]; [|split; [discriminate|intros (y & Y & _); discriminate]].
  rewrite negb_true_iff. split; [eauto|]. intros (z & Z & A). congruence.
Qed.
Lemma dropped_stays s e s' x c : tnode_step s e = Some (s', x) -> dropped_conn s c = true -> dropped_conn s' c = true.
Proof.
  rewrite 2 dropped_is. intros ST (y & Y & A). pose proof (tcp_step_rt _ _ _ _ _ _ ST) as R. destruct (te_rt x) as [[f o]|]; [|rewrite R; eauto].
  destruct (ended_step bk cbk false _ _ _ _ _ _ R Y A) as [K _]; exact K.
Qed.
Lemma dropped_silent tr s c q s' x : thistory tr s -> dropped_conn s c = true -> tnode_step s (TWrite c q) = Some (s', x) -> False.
Proof.
  rewrite dropped_is. intros H (y & Y & A) ST. pose proof (writing _ _ _ _ H c) as W. unfold wrote in W. rewrite Y, A in W.
  destruct W as [W _]. cbn in ST. rewrite Y, W in ST. destruct (nth_error (t_links s) c); discriminate ST.
Qed.
Lemma no_bytes_after tr s c d s' x : thistory tr s -> peer_closed c tr -> tnode_step s (TBytes c d) = Some (s', x) -> False.
Proof.
  intros H P ST. destruct (reading _ _ _ _ H c) as (_ & F & _). apply F in P. cbn in ST. destruct (nth_error (t_links s) c) as [k|] eqn:K; [|discriminate].
  rewrite (lk_is _ _ _ K) in P. rewrite P in ST. discriminate.
Qed.

(** ** The invariant *)
Definition flows tr (x : wire) : Prop :=
  match w_tc x with
  | Some d => tx tr (w_from x, w_fc x) = rx tr (w_to x, d) ++ w_there x /\ tx tr (w_to x, d) = rx tr (w_from x, w_fc x) ++ w_back x
  | None => tx tr (w_from x, w_fc x) = w_there x /\ rx tr (w_from x, w_fc x) = [] /\ w_back x = []
  end.
Definition named tr (x : wire) : Prop :=
  (exists ok, In (EEp ok, OSpawned (w_fc x) (w_to x)) (rt_tcp (w_from x) tr)) /\
  match w_tc x with Some d => exists l, In (EAccept l (w_from x), OSpawned d (w_from x)) (rt_tcp (w_to x) tr) | None => True end.
Definition finished tr (w : tnet) (x : wire) : Prop :=
  (forall d, w_tc x = Some d -> peer_closed d (at_tcp (w_to x) tr) -> w_there x = [] /\ dropped_conn (tn_node w (w_from x)) (w_fc x) = true) /\
  (peer_closed (w_fc x) (at_tcp (w_from x) tr) -> exists d, w_tc x = Some d /\ w_back x = [] /\ dropped_conn (tn_node w (w_to x)) d = true).
Record netinv tr (w : tnet) : Prop := {
  ni_nodup : NoDup (ends (tn_wires w));
  ni_ends : forall a c, In (a, c) (ends (tn_wires w)) <-> c < nconns (tn_node w a);
  ni_flows : forall i x, nth_error (tn_wires w) i = Some x -> flows tr x;
  ni_named : forall i x, nth_error (tn_wires w) i = Some x -> named tr x;
  ni_fin : forall i x, nth_error (tn_wires w) i = Some x -> finished tr w x }.

Lemma rt_tcp_snoc b tr a e x : rt_tcp b (tr ++ [(a, (e, x))]) = rt_tcp b tr ++ if N.eqb a b then match te_rt x with Some q => [q] | None => [] end else [].
Proof. unfold rt_tcp. rewrite at_tcp_snoc. destruct (N.eqb a b); [apply tcp_trace_snoc|]. rewrite 2 app_nil_r. reflexivity. Qed.
Lemma named_later tr p x : named tr x -> named (tr ++ [p]) x.
Proof.
  destruct p as [a [e q]]. unfold named. intros [[ok A] B]. split; [exists ok; rewrite rt_tcp_snoc; apply in_app_iff; auto|].
  destruct (w_tc x); [|exact B]. destruct B as [l B]. exists l. rewrite rt_tcp_snoc. apply in_app_iff. auto.
Qed.
Lemma named_same tr x y : w_from x = w_from y -> w_fc x = w_fc y -> w_to x = w_to y -> w_tc x = w_tc y -> named tr x -> named tr y.
Proof. unfold named. intros -> -> -> ->. auto. Qed.
Lemma closed_net d b tr a e x : peer_closed d (at_tcp b (tr ++ [(a, (e, x))])) -> peer_closed d (at_tcp b tr) \/ (a = b /\ e = TEnd d).
Proof.
  rewrite at_tcp_snoc. destruct (N.eqb_spec a b) as [->|]; [|rewrite app_nil_r; auto]. intros P. apply closed_snoc in P. destruct P; auto.
Qed.
(** What of a wire does not change with what is under way. *)
Lemma nth_carry ws j a c out y : nth_error (map (carry a c out) ws) j = Some y -> exists x, nth_error ws j = Some x /\ y = carry a c out x.
Proof. rewrite nth_error_map. destruct (nth_error ws j) as [x|]; [|discriminate]. intros E. injection E as <-. eauto. Qed.
Lemma carry_frame a c out x : w_from (carry a c out x) = w_from x /\ w_fc (carry a c out x) = w_fc x /\ w_to (carry a c out x) = w_to x /\ w_tc (carry a c out x) = w_tc x.
Proof.
  unfold carry. destruct (N.eqb (w_from x) a && (w_fc x =? c)); [auto|]. destruct (w_tc x) as [d|] eqn:T; [|auto].
  destruct (N.eqb (w_to x) a && (d =? c)); cbn; auto.
Qed.
Lemma here_dec a c b d : (N.eqb b a && (d =? c)) = if pair_dec (a, c) (b, d) then true else false.
Proof. destruct (N.eqb_spec b a), (Nat.eqb_spec d c), (pair_dec (a, c) (b, d)); cbn; congruence. Qed.
Lemma never_closed tr s c : thistory tr s -> nconns s <= c -> ~ peer_closed c tr.
Proof.
  intros H L P. destruct (reading _ _ _ _ H c) as (_ & F & _). apply F in P. unfold lk in P.
  rewrite nth_overflow in P by (rewrite (links_length _ _ _ _ H); exact L). discriminate P.
Qed.
Lemma run_rt s f s' x : tnode_step s (TRun f) = Some (s', x) -> exists o, te_rt x = Some (f, o) /\ step (t_rt s) f = Some (t_rt s', o).
Proof.
  cbn. destruct (tcp_internal f); [|discriminate]. unfold tcp_answer. destruct (step (t_rt s) f) as [[r o]|] eqn:S; [|discriminate].
  intros E. injection E as <- <-. exists o. auto.
Qed.
Lemma fst_end x : In (w_from x, w_fc x) (ends_of x).
Proof. left. reflexivity. Qed.
Lemma snd_end x d : w_tc x = Some d -> In (w_to x, d) (ends_of x).
Proof. intros T. unfold ends_of. rewrite T. right. left. reflexivity. Qed.

Section Step.
Context (tr : list (N * (tnevent * tentry))) (w w' : tnet) (a : N) (e : tnevent) (x : tentry) (s' : tnode).
Context (H : thistory (at_tcp a tr) (tn_node w a)) (V : netinv tr w) (ST : tnode_step (tn_node w a) e = Some (s', x))
  (NW : tn_node w' = set_tnode a s' (tn_node w)).
Local Notation tr' := (tr ++ [(a, (e, x))]).

Lemma nconns_step b : nconns (tn_node w' b) = if N.eqb b a then nconns s' else nconns (tn_node w b).
Proof. rewrite NW. unfold set_tnode. destruct (N.eqb b a); reflexivity. Qed.
Lemma drop_step b c : dropped_conn (tn_node w b) c = true -> dropped_conn (tn_node w' b) c = true.
Proof. intros D. rewrite NW. unfold set_tnode. destruct (N.eqb_spec b a) as [->|]; [|exact D]. eapply dropped_stays; eassumption. Qed.
Lemma flows_still y : (forall c d, e <> TBytes c d) -> (forall c q, e <> TWrite c q) -> flows tr y -> flows tr' y.
Proof. intros N1 N2. unfold flows. rewrite !(rx_still tr a e x), !(tx_still tr a e x) by assumption. destruct (w_tc y); rewrite ?(rx_still tr a e x), ?(tx_still tr a e x) by assumption; auto. Qed.
Lemma fin_still y : (forall c, e <> TEnd c) -> finished tr w y -> finished tr' w' y.
Proof.
  intros N [A B]. split.
  - intros d T P. apply closed_net in P. destruct P as [P|[_ P]]; [|destruct (N _ P)]. destruct (A d T P) as [A1 A2]. split; [exact A1|]. apply drop_step. exact A2.
  - intros P. apply closed_net in P. destruct P as [P|[_ P]]; [|destruct (N _ P)]. destruct (B P) as (d & T & B1 & B2). exists d. split; [exact T|]. split; [exact B1|]. apply drop_step. exact B2.
Qed.

Definition carried_on : list wire := match e with TWrite c _ => map (carry a c (te_out x)) (tn_wires w) | _ => tn_wires w end.
Lemma run_ends : ends carried_on = ends (tn_wires w).
Proof. unfold carried_on. destruct e; try reflexivity. apply ends_carry. Qed.
Lemma run_flows i y : from_network e = false -> nth_error carried_on i = Some y -> flows tr' y /\ named tr' y /\ finished tr' w' y.
Proof.
  intros F Y. assert (NB : forall c d, e <> TBytes c d) by (intros c d ->; discriminate F). assert (NE : forall c, e <> TEnd c) by (intros c ->; discriminate F).
  assert (C : (exists c q, e = TWrite c q) \/ (carried_on = tn_wires w /\ forall c q, e <> TWrite c q)).
  { unfold carried_on. destruct e; try (right; split; [reflexivity|discriminate]). eauto. }
  destruct C as [(c & q & E)|[C NT]].
  - unfold carried_on in Y. rewrite E in Y. destruct (nth_carry _ _ _ _ _ _ Y) as (z & Z & ->).
    destruct (carry_frame a c (te_out x) z) as (F1 & F2 & F3 & F4). pose proof (two_ends _ _ _ (ni_nodup _ _ V) Z) as TE.
    pose proof (ni_flows _ _ V _ _ Z) as FL. pose proof (ni_fin _ _ V _ _ Z) as FI.
    assert (DS : forall b d, (a, c) = (b, d) -> dropped_conn (tn_node w b) d = true -> False).
    { intros b d P D. injection P as <- <-. subst e. exact (dropped_silent _ _ _ _ _ _ H D ST). }
    split; [|split].
    + unfold flows in *. rewrite F1, F2, F3, F4, ?(rx_still tr a e x) by exact NB. rewrite tx_snoc. rewrite E. unfold carry. rewrite here_dec.
      destruct (pair_dec (a, c) (w_from z, w_fc z)) as [P|P].
      * cbn [w_there w_back w_with_there]. destruct (w_tc z) as [d|] eqn:T.
        -- rewrite <- E, !(rx_still tr a e x) by exact NB. rewrite tx_snoc, E. destruct FL as [FL1 FL2]. rewrite FL1, FL2, app_assoc. split; [reflexivity|].
           destruct (pair_dec (a, c) (w_to z, d)) as [P'|]; [destruct (TE _ eq_refl); congruence|]. rewrite app_nil_r. reflexivity.
        -- destruct FL as (FL1 & FL2 & FL3). rewrite FL1. auto.
      * rewrite app_nil_r. destruct (w_tc z) as [d|] eqn:T.
        -- rewrite here_dec, <- E, !(rx_still tr a e x) by exact NB. rewrite tx_snoc, E. destruct FL as [FL1 FL2].
           destruct (pair_dec (a, c) (w_to z, d)) as [P'|]; cbn [w_there w_back w_with_back]; [rewrite FL1, FL2, app_assoc; auto|rewrite app_nil_r; auto].
        -- exact FL.
    + apply named_later. eapply named_same; [symmetry; exact F1|symmetry; exact F2|symmetry; exact F3|symmetry; exact F4|exact (ni_named _ _ V _ _ Z)].
    + destruct (fin_still z NE FI) as [A B]. destruct FI as [A0 B0]. unfold finished. rewrite F1, F2, F3, F4. unfold carry. rewrite here_dec. split.
      * intros d T P. destruct (A d T P) as [A1 A2]. split; [|exact A2]. rewrite T. rewrite here_dec.
        destruct (pair_dec (a, c) (w_from z, w_fc z)) as [Q|Q]; cbn [w_there w_with_there].
        -- exfalso. apply closed_net in P. destruct P as [P|[_ P]]; [|destruct (NE _ P)]. apply (DS _ _ Q). apply (A0 d T P).
        -- destruct (pair_dec (a, c) (w_to z, d)); exact A1.
      * intros P. destruct (B P) as (d & T & B1 & B2). exists d. split; [exact T|]. split; [|exact B2]. rewrite T, here_dec.
        destruct (pair_dec (a, c) (w_from z, w_fc z)) as [Q|Q]; [exact B1|].
        destruct (pair_dec (a, c) (w_to z, d)) as [Q'|]; [|exact B1].
        exfalso. apply closed_net in P. destruct P as [P|[_ P]]; [|destruct (NE _ P)]. destruct (B0 P) as (d' & T' & _ & D). rewrite T in T'. injection T' as <-. exact (DS _ _ Q' D).
  - rewrite C in Y. split; [|split].
    + apply flows_still; [exact NB|exact NT|exact (ni_flows _ _ V _ _ Y)].
    + apply named_later. exact (ni_named _ _ V _ _ Y).
    + apply fin_still; [exact NE|exact (ni_fin _ _ V _ _ Y)].
Qed.

(** The new connection, if any. *)
Lemma new_history : thistory (at_tcp a tr') s'.
Proof. rewrite at_tcp_snoc, N.eqb_refl. econstructor; eassumption. Qed.
Lemma ends_quiet ws : nconns s' = nconns (tn_node w a) -> ends ws = ends (tn_wires w) ->
  NoDup (ends ws) /\ forall b c, In (b, c) (ends ws) <-> c < nconns (tn_node w' b).
Proof.
  intros Q ->. split; [exact (ni_nodup _ _ V)|]. intros b c. rewrite (ni_ends _ _ V), nconns_step. destruct (N.eqb_spec b a) as [->|]; [rewrite Q|]; reflexivity.
Qed.
Lemma ends_new ws : nconns s' = S (nconns (tn_node w a)) -> Permutation (ends ws) ((a, nconns (tn_node w a)) :: ends (tn_wires w)) ->
  NoDup (ends ws) /\ forall b c, In (b, c) (ends ws) <-> c < nconns (tn_node w' b).
Proof.
  intros Q P. split.
  - eapply Permutation_NoDup; [apply Permutation_sym; exact P|]. constructor; [|exact (ni_nodup _ _ V)]. rewrite (ni_ends _ _ V). lia.
  - intros b c. rewrite nconns_step. split.
    + intros I. apply (Permutation_in _ P) in I. destruct I as [I|I].
      * injection I as <- <-. rewrite N.eqb_refl. lia.
      * apply (ni_ends _ _ V) in I. destruct (N.eqb_spec b a) as [->|]; lia.
    + intros L. apply (Permutation_in _ (Permutation_sym P)). destruct (N.eqb_spec b a) as [->|].
      * destruct (Nat.eq_dec c (nconns (tn_node w a))) as [->|]; [left; reflexivity|]. right. apply (ni_ends _ _ V). lia.
      * right. apply (ni_ends _ _ V). exact L.
Qed.

Lemma inv_step : wired w a e x (tn_wires w') -> netinv tr' w'.
Proof.
  intros W. pose proof (step_conns _ _ _ _ ST) as SC. remember (tn_wires w') as ws' eqn:WS. 
  assert (BUILD : (NoDup (ends ws') /\ forall b c, In (b, c) (ends ws') <-> c < nconns (tn_node w' b)) ->
    (forall i y, nth_error ws' i = Some y -> flows tr' y /\ named tr' y /\ finished tr' w' y) -> netinv tr' w').
  { intros [B1 B2] B3. rewrite WS in *. constructor; try assumption; intros i y Y; apply (B3 i y Y). }
  assert (NEW : bytes_in (nconns (tn_node w a)) (at_tcp a tr) = [] /\ bytes_out (nconns (tn_node w a)) (at_tcp a tr) = []) by (eapply nothing_yet; [exact H|lia]).
  assert (NC : ~ peer_closed (nconns (tn_node w a)) (at_tcp a tr)) by (eapply never_closed; [exact H|lia]).
  destruct W as [F|i l y Y T A E|i n y c Y T A E|i n y Y A E|i y c Y T A TH D E|i y c Y T A TH D E].
  - change (match e with TWrite c _ => map (carry a c (te_out x)) (tn_wires w) | _ => tn_wires w end) with carried_on in *.
    destruct SC as [(f & b & X & Q & f' & E)|[X Q]].
    + rewrite X in *. apply BUILD.
      * apply ends_new; [exact Q|]. rewrite ends_app, run_ends. cbn. apply Permutation_sym, Permutation_cons_append.
      * intros i y Y. destruct (Nat.lt_ge_cases i (length carried_on)) as [L|L]; [rewrite nth_error_app1 in Y by exact L; eapply run_flows; eassumption|].
        rewrite nth_error_app2 in Y by exact L. destruct (i - length carried_on) as [|[|]]; cbn in Y; try discriminate Y. injection Y as <-.
        split; [|split].
        -- unfold flows. cbn. rewrite rx_still, tx_still by (rewrite E; discriminate). unfold rx, tx. cbn. destruct NEW as [-> ->]. auto.
        -- split; [|exact Logic.I]. cbn. assert (I : In (f, OSpawned (nconns (tn_node w a)) b) (rt_tcp a tr')).
           { rewrite rt_tcp_snoc, N.eqb_refl, X. apply in_app_iff. right. left. reflexivity. }
           destruct (tcp_opened _ _ _ _ _ _ _ new_history I) as [[ok ->]|[l ->]]; [eauto|].
           exfalso. pose proof ST as ST'. rewrite E in ST'. destruct (run_rt _ _ _ _ ST') as (o & X' & _). rewrite X in X'. injection X' as <- _.
           rewrite E in F. discriminate F.
        -- split; cbn; [discriminate|]. intros P. apply closed_net in P. destruct P as [P|[_ P]]; [destruct (NC P)|rewrite E in P; discriminate P].
    + assert (Z : match te_rt x with Some (_, OSpawned c b) => [mkWire a c b None [] []] | _ => [] end = []).
      { destruct (te_rt x) as [[f o]|]; [|reflexivity]. destruct o; try reflexivity. destruct (X _ _ _ eq_refl). }
      rewrite Z, app_nil_r in *. apply BUILD; [apply ends_quiet; [exact Q|apply run_ends]|]. intros i y Y. eapply run_flows; eassumption.
  - destruct SC as [(f & b & X & Q & f' & E')|[X Q]].
    2:{ exfalso. pose proof ST as ST'. rewrite E in ST'. destruct (run_rt _ _ _ _ ST') as (o & X' & S). cbn in S. cases_in S. injection S as _ S. subst o. exact (X _ _ _ X'). }
    rewrite X in *. set (n := nconns (tn_node w a)) in *.
    assert (XE : f = EAccept l (w_from y) /\ b = w_from y).
    { pose proof ST as ST'. rewrite E in ST'. destruct (run_rt _ _ _ _ ST') as (o & X' & S). rewrite X in X'. injection X' as -> <-.
      cbn in S. cases_in S. injection S as _ S. auto. }
    destruct XE as [-> ->]. apply BUILD.
    + apply ends_new; [exact Q|]. subst a. apply ends_accept; assumption.
    + intros j z Z. assert (FS : forall k v, nth_error (tn_wires w) k = Some v -> flows tr' v /\ named tr' v /\ finished tr' w' v).
      { intros k v K. split; [|split].
        - apply flows_still; [rewrite E; discriminate|rewrite E; discriminate|exact (ni_flows _ _ V _ _ K)].
        - apply named_later. exact (ni_named _ _ V _ _ K).
        - apply fin_still; [rewrite E; discriminate|exact (ni_fin _ _ V _ _ K)]. }
      destruct (nth_upd _ _ _ _ _ Z) as [(<- & y' & Y' & ->)|[_ K]]; [|exact (FS _ _ K)]. rewrite Y in Y'. injection Y' as <-.
      destruct (FS _ _ Y) as (F1 & F2 & F3). split; [|split].
      * unfold flows in *. rewrite T in F1. cbn. destruct F1 as (G1 & G2 & G3). rewrite G1, G2, G3, A.
        rewrite rx_still, tx_still by (rewrite E; discriminate). unfold rx, tx. cbn. destruct NEW as [-> ->]. auto.
      * destruct F2 as [G1 _]. split; [exact G1|]. cbn. exists l. rewrite A, rt_tcp_snoc, N.eqb_refl, X. apply in_app_iff. right. left. reflexivity.
      * destruct F3 as [G1 G2]. split; cbn.
        -- intros d Ed P. injection Ed as <-. rewrite A in P. apply closed_net in P. destruct P as [P|[_ P]]; [destruct (NC P)|rewrite E in P; discriminate P].
        -- intros P. destruct (G2 P) as (d & T' & _). congruence.
  - assert (Q : nconns s' = nconns (tn_node w a)) by (destruct SC as [(? & ? & _ & _ & f' & E')|[_ Q]]; [rewrite E in E'; discriminate E'|exact Q]).
    apply BUILD; [apply ends_quiet; [exact Q|apply ends_same; reflexivity]|]. intros j z Z.
    assert (NT : forall c q, e <> TWrite c q) by (rewrite E; discriminate). assert (NE : forall c, e <> TEnd c) by (rewrite E; discriminate).
    assert (RX : forall p, rx tr' p = rx tr p ++ if pair_dec (a, c) p then firstn n (w_there y) else []) by (intros p; rewrite rx_snoc, E; reflexivity).
    destruct (nth_upd _ _ _ _ _ Z) as [(<- & y' & Y' & ->)|[N K]].
    + rewrite Y in Y'. injection Y' as <-. pose proof (two_ends _ _ _ (ni_nodup _ _ V) Y _ T) as TE. split; [|split].
      * pose proof (ni_flows _ _ V _ _ Y) as FL. unfold flows in *. cbn. rewrite T in *. destruct FL as [G1 G2].
        rewrite !(tx_still tr a e x) by exact NT. rewrite 2 RX, G1, G2, A. destruct (pair_dec (a, c) (a, c)); [|congruence].
        destruct (pair_dec (a, c) (w_from y, w_fc y)); [congruence|]. rewrite app_nil_r, <- app_assoc, firstn_skipn. auto.
      * apply named_later. eapply named_same; [..|exact (ni_named _ _ V _ _ Y)]; reflexivity.
      * pose proof (ni_fin _ _ V _ _ Y) as FI. destruct (fin_still y NE FI) as [G1 G2]. split; cbn; [|exact G2]. intros d T' P.
        exfalso. rewrite T in T'. injection T' as <-. rewrite A in P. apply closed_net in P. destruct P as [P|[_ P]]; [|destruct (NE _ P)].
        pose proof ST as ST'. rewrite E in ST'. exact (no_bytes_after _ _ _ _ _ _ H P ST').
    + split; [|split].
      * assert (NI : forall p, In p (ends_of z) -> rx tr' p = rx tr p).
        { intros p P. rewrite RX. destruct (pair_dec (a, c) p) as [<-|]; [|apply app_nil_r]. exfalso. apply N.
          eapply one_wire; [exact (ni_nodup _ _ V)|exact Y|exact K| |exact P]. rewrite <- A. apply snd_end. exact T. }
        pose proof (ni_flows _ _ V _ _ K) as FL. unfold flows in *. rewrite !(tx_still tr a e x), (NI _ (fst_end z)) by exact NT.
        destruct (w_tc z) as [d|] eqn:Tz; [|exact FL]. rewrite !(tx_still tr a e x), (NI _ (snd_end z _ Tz)) by exact NT. exact FL.
      * apply named_later. exact (ni_named _ _ V _ _ K).
      * apply fin_still; [exact NE|exact (ni_fin _ _ V _ _ K)].
  - assert (Q : nconns s' = nconns (tn_node w a)) by (destruct SC as [(? & ? & _ & _ & f' & E')|[_ Q]]; [rewrite E in E'; discriminate E'|exact Q]).
    apply BUILD; [apply ends_quiet; [exact Q|apply ends_same; reflexivity]|]. intros j z Z.
    assert (NT : forall c q, e <> TWrite c q) by (rewrite E; discriminate). assert (NE : forall c, e <> TEnd c) by (rewrite E; discriminate).
    assert (RX : forall p, rx tr' p = rx tr p ++ if pair_dec (a, w_fc y) p then firstn n (w_back y) else []) by (intros p; rewrite rx_snoc, E; reflexivity).
    destruct (nth_upd _ _ _ _ _ Z) as [(<- & y' & Y' & ->)|[N K]].
    + rewrite Y in Y'. injection Y' as <-. split; [|split].
      * pose proof (ni_flows _ _ V _ _ Y) as FL. unfold flows in *. cbn. rewrite !(tx_still tr a e x), RX, A by exact NT. rewrite A in FL.
        destruct (pair_dec (a, w_fc y) (a, w_fc y)); [|congruence]. destruct (w_tc y) as [d|] eqn:T.
        -- pose proof (two_ends _ _ _ (ni_nodup _ _ V) Y _ T) as TE. destruct FL as [G1 G2].
           rewrite !(tx_still tr a e x), RX, G1, G2 by exact NT. destruct (pair_dec (a, w_fc y) (w_to y, d)); [congruence|].
           rewrite app_nil_r, <- app_assoc, firstn_skipn. auto.
        -- destruct FL as (G1 & G2 & G3). rewrite G1, G2, G3, firstn_nil, skipn_nil. auto.
      * apply named_later. eapply named_same; [..|exact (ni_named _ _ V _ _ Y)]; reflexivity.
      * pose proof (ni_fin _ _ V _ _ Y) as FI. destruct (fin_still y NE FI) as [G1 G2]. split; cbn; [exact G1|]. intros P.
        exfalso. rewrite A in P. apply closed_net in P. destruct P as [P|[_ P]]; [|destruct (NE _ P)].
        pose proof ST as ST'. rewrite E in ST'. exact (no_bytes_after _ _ _ _ _ _ H P ST').
    + split; [|split].
      * assert (NI : forall p, In p (ends_of z) -> rx tr' p = rx tr p).
        { intros p P. rewrite RX. destruct (pair_dec (a, w_fc y) p) as [<-|]; [|apply app_nil_r]. exfalso. apply N.
          eapply one_wire; [exact (ni_nodup _ _ V)|exact Y|exact K| |exact P]. rewrite <- A. apply fst_end. }
        pose proof (ni_flows _ _ V _ _ K) as FL. unfold flows in *. rewrite !(tx_still tr a e x), (NI _ (fst_end z)) by exact NT.
        destruct (w_tc z) as [d|] eqn:Tz; [|exact FL]. rewrite !(tx_still tr a e x), (NI _ (snd_end z _ Tz)) by exact NT. exact FL.
      * apply named_later. exact (ni_named _ _ V _ _ K).
      * apply fin_still; [exact NE|exact (ni_fin _ _ V _ _ K)].
  - assert (Q : nconns s' = nconns (tn_node w a)) by (destruct SC as [(? & ? & _ & _ & f' & E')|[_ Q]]; [rewrite E in E'; discriminate E'|exact Q]).
    apply BUILD; [apply ends_quiet; [exact Q|reflexivity]|]. intros j z Z. split; [|split].
    + apply flows_still; [rewrite E; discriminate|rewrite E; discriminate|exact (ni_flows _ _ V _ _ Z)].
    + apply named_later. exact (ni_named _ _ V _ _ Z).
    + destruct (ni_fin _ _ V _ _ Z) as [G1 G2].
      assert (ONE : forall p, (a, c) = p -> In p (ends_of z) -> z = y).
      { intros p <- P. assert (i = j) by (eapply one_wire; [exact (ni_nodup _ _ V)|exact Y|exact Z| |exact P]; rewrite <- A; apply snd_end; exact T). congruence. }
      split.
      * intros d Td P. apply closed_net in P. destruct P as [P|[P1 P2]].
        -- destruct (G1 d Td P) as [K1 K2]. split; [exact K1|apply drop_step; exact K2].
        -- rewrite E in P2. injection P2 as <-. assert (z = y) by (eapply ONE; [|apply snd_end; exact Td]; congruence). subst z. split; [exact TH|apply drop_step; exact D].
      * intros P. apply closed_net in P. destruct P as [P|[P1 P2]].
        -- destruct (G2 P) as (d & Td & K1 & K2). exists d. split; [exact Td|]. split; [exact K1|apply drop_step; exact K2].
        -- rewrite E in P2. injection P2 as P2. assert (z = y) by (eapply ONE; [|apply fst_end]; congruence). subst z.
           exfalso. apply (two_ends _ _ _ (ni_nodup _ _ V) Y _ T). congruence.
  - assert (Q : nconns s' = nconns (tn_node w a)) by (destruct SC as [(? & ? & _ & _ & f' & E')|[_ Q]]; [rewrite E in E'; discriminate E'|exact Q]).
    apply BUILD; [apply ends_quiet; [exact Q|reflexivity]|]. intros j z Z. split; [|split].
    + apply flows_still; [rewrite E; discriminate|rewrite E; discriminate|exact (ni_flows _ _ V _ _ Z)].
    + apply named_later. exact (ni_named _ _ V _ _ Z).
    + destruct (ni_fin _ _ V _ _ Z) as [G1 G2].
      assert (ONE : forall p, (a, w_fc y) = p -> In p (ends_of z) -> z = y).
      { intros p <- P. assert (i = j) by (eapply one_wire; [exact (ni_nodup _ _ V)|exact Y|exact Z| |exact P]; rewrite <- A; apply fst_end). congruence. }
      split.
      * intros d Td P. apply closed_net in P. destruct P as [P|[P1 P2]].
        -- destruct (G1 d Td P) as [K1 K2]. split; [exact K1|apply drop_step; exact K2].
        -- rewrite E in P2. injection P2 as P2. assert (z = y) by (eapply ONE; [|apply snd_end; exact Td]; congruence). subst z.
           exfalso. apply (two_ends _ _ _ (ni_nodup _ _ V) Y _ Td). congruence.
      * intros P. apply closed_net in P. destruct P as [P|[P1 P2]].
        -- destruct (G2 P) as (d & Td & K1 & K2). exists d. split; [exact Td|]. split; [exact K1|apply drop_step; exact K2].
        -- rewrite E in P2. injection P2 as P2. assert (z = y) by (eapply ONE; [|apply fst_end]; congruence). subst z. exists c. split; [exact T|]. split; [exact TH|apply drop_step; exact D].
Qed.
End Step.

Lemma net_inv tr w : tnet_history tr w -> netinv tr w.
Proof.
  induction 1 as [|tr w ev w' p H IH ST].
  - constructor; cbn; try (intros [|i] x X; discriminate X); [constructor|]. intros a c. unfold nconns. cbn. split; [contradiction|lia].
  - destruct (net_stepped _ _ _ _ ST) as (a & e & x & s' & -> & E & NW & W). eapply inv_step; try eassumption. apply tcp_at_history. exact H.
Qed.

(** ** Joined ends *)
Lemma joined_sym w a c b d : joined w a c b d -> joined w b d a c.
Proof. intros (x & I & [K|K]); exists x; tauto. Qed.
Lemma joined_stream tr w a c b d : tnet_history tr w -> joined w a c b d -> exists q,
  bytes_out c (at_tcp a tr) = bytes_in d (at_tcp b tr) ++ q /\ (nothing_under_way w -> q = []).
Proof.
  intros H (x & I & J). pose proof (net_inv _ _ H) as V. destruct (In_nth_error _ _ I) as [i X]. pose proof (ni_flows _ _ V _ _ X) as F. unfold flows in F.
  destruct J as [(<- & <- & <- & T)|(<- & <- & <- & T)]; rewrite T in F; destruct F as [F1 F2]; [exists (w_there x)|exists (w_back x)];
  split; try assumption; intros Q; destruct (Q x I) as [Q1 Q2]; try assumption; rewrite T; discriminate.
Qed.
Theorem joined_once tr w a c b d b' d' : tnet_history tr w -> joined w a c b d -> joined w a c b' d' -> b = b' /\ d = d'.
Proof.
  intros H (x & I & J) (x' & I' & J'). pose proof (net_inv _ _ H) as V. destruct (In_nth_error _ _ I) as [i X]. destruct (In_nth_error _ _ I') as [i' X'].
  assert (P : forall y b d, (w_from y = a /\ w_fc y = c /\ w_to y = b /\ w_tc y = Some d) \/ (w_from y = b /\ w_fc y = d /\ w_to y = a /\ w_tc y = Some c) -> In (a, c) (ends_of y)).
  { intros y b0 d0 [(<- & <- & _)|(_ & _ & <- & T)]; [apply fst_end|apply snd_end; exact T]. }
  assert (i = i') by (eapply one_wire; [exact (ni_nodup _ _ V)|exact X|exact X'|eapply P; exact J|eapply P; exact J']). subst i'.
  rewrite X in X'. injection X' as <-. pose proof (two_ends _ _ _ (ni_nodup _ _ V) X) as TE.
  destruct J as [(E1 & E2 & E3 & T)|(E1 & E2 & E3 & T)], J' as [(E1' & E2' & E3' & T')|(E1' & E2' & E3' & T')]; split; congruence.
Qed.
Theorem joined_made tr w a c b d : tnet_history tr w -> joined w a c b d ->
  (exists ok l, In (EEp ok, OSpawned c b) (rt_tcp a tr) /\ In (EAccept l a, OSpawned d a) (rt_tcp b tr)) \/
  (exists ok l, In (EEp ok, OSpawned d a) (rt_tcp b tr) /\ In (EAccept l b, OSpawned c b) (rt_tcp a tr)).
Proof.
  intros H (x & I & J). pose proof (net_inv _ _ H) as V. destruct (In_nth_error _ _ I) as [i X]. pose proof (ni_named _ _ V _ _ X) as [[ok A] B].
  destruct J as [(<- & <- & <- & T)|(<- & <- & <- & T)]; rewrite T in B; destruct B as [l B]; [left|right]; exists ok, l; auto.
Qed.
Theorem joined_ends tr w a c b d : tnet_history tr w -> joined w a c b d ->
  joined w b d a c /\ (forall b' d', joined w a c b' d' -> b' = b /\ d' = d) /\
  ((exists ok l, In (EEp ok, OSpawned c b) (rt_tcp a tr) /\ In (EAccept l a, OSpawned d a) (rt_tcp b tr)) \/
   (exists ok l, In (EEp ok, OSpawned d a) (rt_tcp b tr) /\ In (EAccept l b, OSpawned c b) (rt_tcp a tr))).
Proof.
  intros H J. split; [apply joined_sym; exact J|]. split; [|eapply joined_made; eassumption].
  intros b' d' J'. destruct (joined_once _ _ _ _ _ _ _ _ H J J') as [-> ->]. split; reflexivity.
Qed.
Lemma joined_opened tr w a c b d : tnet_history tr w -> joined w a c b d -> opened c b (rt_tcp a tr) /\ opened d a (rt_tcp b tr).
Proof. intros H J. destruct (joined_made _ _ _ _ _ _ H J) as [(ok & l & A & B)|(ok & l & A & B)]; split; eexists; eassumption. Qed.
Theorem every_end tr w a c b : tnet_history tr w -> opened c b (rt_tcp a tr) ->
  (exists d, joined w a c b d) \/ ((exists ok, In (EEp ok, OSpawned c b) (rt_tcp a tr)) /\ bytes_in c (at_tcp a tr) = [] /\ ~ peer_closed c (at_tcp a tr)).
Proof.
  intros H O. pose proof (net_inv _ _ H) as V. pose proof (tcp_history _ _ _ _ (tcp_at_history _ _ a H)) as R.
  destruct (opened_is _ _ _ _ _ _ _ R O) as (y & Y & _). assert (L : c < nconns (tn_node w a)) by (apply nth_lt in Y; exact Y).
  apply (ni_ends _ _ V) in L. apply in_flat_map in L. destruct L as (x & I & E). destruct (In_nth_error _ _ I) as [i X].
  pose proof (ni_named _ _ V _ _ X) as [[ok A] B]. unfold ends_of in E. destruct (w_tc x) as [d|] eqn:T.
  - left. destruct B as [l B]. destruct E as [E|[E|[]]]; injection E as E1 E2.
    + exists d, x. split; [exact I|]. left. repeat split; try assumption.
      rewrite E1, E2 in A. eapply one_address; [exact R|exists (EEp ok); exact A|exact O].
    + exists (w_fc x), x. split; [exact I|]. right. repeat split; try congruence.
      rewrite E1, E2 in B. eapply one_address; [exact R|eexists; exact B|exact O].
  - right. destruct E as [E|[]]. injection E as E1 E2. pose proof (ni_flows _ _ V _ _ X) as F. unfold flows in F. rewrite T in F. destruct F as (_ & F & _).
    unfold rx in F. cbn in F. rewrite E1, E2 in *. assert (w_to x = b) by (eapply one_address; [exact R|exists (EEp ok); exact A|exact O]). subst b.
    split; [eauto|]. split; [exact F|]. intros P. destruct (ni_fin _ _ V _ _ X) as [_ K]. rewrite E1, E2 in K. destruct (K P) as (d & T' & _). congruence.
Qed.
Theorem joined_prefix tr w a c b d : tnet_history tr w -> joined w a c b d -> prefix (bytes_in d (at_tcp b tr)) (bytes_out c (at_tcp a tr)).
Proof. intros H J. destruct (joined_stream _ _ _ _ _ _ H J) as (q & E & _). exists q. exact E. Qed.
Theorem joined_closed tr w a c b d : tnet_history tr w -> joined w a c b d -> peer_closed d (at_tcp b tr) ->
  bytes_in d (at_tcp b tr) = bytes_out c (at_tcp a tr) /\ ~ conn_runs (t_rt (tn_node w a)) c.
Proof.
  intros H (x & I & J) P. pose proof (net_inv _ _ H) as V. destruct (In_nth_error _ _ I) as [i X]. pose proof (ni_flows _ _ V _ _ X) as F. unfold flows in F.
  destruct (ni_fin _ _ V _ _ X) as [K1 K2].
  assert (D : forall q e, dropped_conn (tn_node w q) e = true -> ~ conn_runs (t_rt (tn_node w q)) e).
  { intros q e0 D (y & Y & A). apply dropped_is in D. destruct D as (z & Z & B). congruence. }
  destruct J as [(<- & <- & <- & T)|(<- & <- & <- & T)]; rewrite T in F; destruct F as [F1 F2].
  - destruct (K1 _ T P) as [E Dr]. unfold tx, rx in F1. cbn in F1. rewrite E, app_nil_r in F1. auto.
  - destruct (K2 P) as (d' & T' & E & Dr). rewrite T in T'. injection T' as <-. unfold tx, rx in F2. cbn in F2. rewrite E, app_nil_r in F2. auto.
Qed.

(** ** Messages *)
Theorem net_authentic tr w b it : tnet_history tr w -> (forall a, ordinary_at a tr) -> never_cut w tr -> In it (all_got (rt_tcp b tr)) ->
  exists c, joined w (it_addr it) c b (it_conn it) /\ In (it_msg it) (accepted c (rt_tcp (it_addr it) tr)).
Proof.
  intros H O NC G. pose proof (tcp_at_history _ _ b H) as HB. destruct (tcp_given _ _ _ _ _ HB G) as [IN OP].
  destruct (every_end _ _ _ _ _ H OP) as [[c J]|(_ & E & _)].
  - apply joined_sym in J. exists c. split; [exact J|]. pose proof (tcp_at_history _ _ (it_addr it) H) as HA.
    destruct (joined_prefix _ _ _ _ _ _ H J) as [q P]. destruct (written_prefix _ _ _ _ _ HA (O _ c)) as [q' P'].
    assert (PP : prefix (bytes_in (it_conn it) (at_tcp b tr)) (concat (map s_form (accepted c (rt_tcp (it_addr it) tr))))) by (exists (q ++ q'); unfold rt_tcp; rewrite P', P, app_assoc; reflexivity).
    destruct (tcp_whole _ _ _ _ _ _ HB (O _ c) PP (NC _ _ _ _ J)) as [k K]. rewrite K in IN. rewrite <- (firstn_skipn k). apply in_app_iff. left. exact IN.
  - exfalso. destruct (tcp_reads _ _ _ _ (it_conn it) HB) as [[rest R] _]. rewrite E in R. symmetry in R. apply app_eq_nil in R. destruct R as [R _].
    apply in_flat_map in IN. destruct IN as (d & D & IN). assert (d = []). { apply in_split in D. destruct D as (l1 & l2 & D). rewrite D, concat_app in R. cbn in R. apply app_eq_nil in R. destruct R as [_ R]. apply app_eq_nil in R. apply R. }
    subst d. destruct IN.
Qed.
Theorem net_in_order tr w a c b d n : tnet_history tr w -> ordinary_at a tr -> never_cut w tr -> joined w a c b d ->
  subseq (map it_msg (from_conn d (stub_got n (rt_tcp b tr)))) (accepted c (rt_tcp a tr)) /\
  subseq (map it_msg (from_conn d (proxy_got n (rt_tcp b tr)))) (accepted c (rt_tcp a tr)).
Proof.
  intros H O NC J. eapply tcp_end_to_end; [apply tcp_at_history; exact H|apply tcp_at_history; exact H|eapply joined_prefix; eassumption|apply O|apply NC; exact J].
Qed.
Lemma at_tcp_app a t1 t2 : at_tcp a (t1 ++ t2) = at_tcp a t1 ++ at_tcp a t2.
Proof. apply flat_map_app. Qed.
Theorem net_all_got tr1 tr2 w a c b d n id : tnet_history (tr1 ++ tr2) w -> ordinary_at a (tr1 ++ tr2) -> never_cut w (tr1 ++ tr2) -> joined w a c b d ->
  idle (t_rt (tn_node w a)) -> conn_runs (t_rt (tn_node w a)) c ->
  idle (t_rt (tn_node w b)) -> conn_runs (t_rt (tn_node w b)) d -> all_read (at_tcp b (tr1 ++ tr2)) (tn_node w b) -> nothing_under_way w ->
  served n id (rt_tcp b tr1) -> reads d (at_tcp b tr1) = [] -> stub_exists (t_rt (tn_node w b)) n -> stub_listening (t_rt (tn_node w b)) n ->
  map it_msg (from_conn d (stub_got n (rt_tcp b (tr1 ++ tr2)))) = filter (of_id id) (accepted c (rt_tcp a (tr1 ++ tr2))).
Proof.
  intros H O NC J IA RA IB RB AR Q SV NO X L. destruct (joined_stream _ _ _ _ _ _ H J) as (q & E & K). rewrite (K Q), app_nil_r in E.
  pose proof (tcp_at_history _ _ a H) as HA. pose proof (tcp_at_history _ _ b H) as HB. specialize (NC _ _ _ _ J). specialize (AR _ RB). specialize (O c).
  unfold rt_tcp in *. rewrite (at_tcp_app b) in *. eapply tcp_all_got; try eassumption. symmetry. exact E.
Qed.
Theorem net_exchange tr1 tr2 w a c b d n k id reply : tnet_history (tr1 ++ tr2) w -> (forall e, ordinary_at e (tr1 ++ tr2)) -> never_cut w (tr1 ++ tr2) -> joined w a c b d ->
  (forall e, e = a \/ e = b -> idle (t_rt (tn_node w e)) /\ all_read (at_tcp e (tr1 ++ tr2)) (tn_node w e)) ->
  conn_runs (t_rt (tn_node w a)) c -> conn_runs (t_rt (tn_node w b)) d -> nothing_under_way w ->
  served n id (rt_tcp b tr1) -> reads d (at_tcp b tr1) = [] -> stub_exists (t_rt (tn_node w b)) n -> stub_listening (t_rt (tn_node w b)) n ->
  proxied k id b (rt_tcp a tr1) -> reads c (at_tcp a tr1) = [] -> proxy_exists (t_rt (tn_node w a)) k -> proxy_connected (t_rt (tn_node w a)) k ->
  Forall (fun m => of_id id m = true) (accepted c (rt_tcp a (tr1 ++ tr2))) -> (forall m, of_id id m = true -> of_id id (reply m) = true) ->
  accepted d (rt_tcp b (tr1 ++ tr2)) = map reply (map it_msg (from_conn d (stub_got n (rt_tcp b (tr1 ++ tr2))))) ->
  map it_msg (from_conn c (proxy_got k (rt_tcp a (tr1 ++ tr2)))) = map reply (accepted c (rt_tcp a (tr1 ++ tr2))).
Proof.
  intros H O NC J IR RA RB Q SV NB X L PV NA PX PC FI RE AN.
  destruct (IR a (or_introl eq_refl)) as [IA AA]. destruct (IR b (or_intror eq_refl)) as [IB AB].
  destruct (joined_stream _ _ _ _ _ _ H J) as (q & E & K). rewrite (K Q), app_nil_r in E. pose proof (joined_sym _ _ _ _ _ J) as J'.
  destruct (joined_stream _ _ _ _ _ _ H J') as (q' & E' & K'). rewrite (K' Q), app_nil_r in E'.
  pose proof (tcp_at_history _ _ a H) as HA. pose proof (tcp_at_history _ _ b H) as HB. pose proof (NC _ _ _ _ J) as NC1. pose proof (NC _ _ _ _ J') as NC2.
  destruct (joined_opened _ _ _ _ _ _ H J) as [OP _]. pose proof (O a c) as Oa. pose proof (O b d) as Ob. clear O NC IR.
  unfold rt_tcp in *. rewrite (at_tcp_app a), (at_tcp_app b) in *. eapply tcp_exchange with (b := tn_node w b) (cb := d) (n := n) (id := id) (p := b) (tb1 := at_tcp b tr1) (tb2 := at_tcp b tr2);
  try eassumption; symmetry; assumption.
Qed.

Theorem rest_all_got tr1 tr2 w a c b d n id : tnet_history (tr1 ++ tr2) w -> ordinary_at a (tr1 ++ tr2) -> never_cut w (tr1 ++ tr2) -> net_at_rest (tr1 ++ tr2) w ->
  joined w a c b d -> conn_runs (t_rt (tn_node w a)) c -> conn_runs (t_rt (tn_node w b)) d ->
  served n id (rt_tcp b tr1) -> reads d (at_tcp b tr1) = [] -> stub_exists (t_rt (tn_node w b)) n -> stub_listening (t_rt (tn_node w b)) n ->
  map it_msg (from_conn d (stub_got n (rt_tcp b (tr1 ++ tr2)))) = filter (of_id id) (accepted c (rt_tcp a (tr1 ++ tr2))).
Proof. intros H O NC (U & _ & _ & R) J RA RB. eapply net_all_got; try eassumption; apply R. Qed.
Theorem rest_exchange tr1 tr2 w a c b d n k id reply : tnet_history (tr1 ++ tr2) w ->
  (forall e, ordinary_at e (tr1 ++ tr2)) -> never_cut w (tr1 ++ tr2) -> net_at_rest (tr1 ++ tr2) w ->
  joined w a c b d -> conn_runs (t_rt (tn_node w a)) c -> conn_runs (t_rt (tn_node w b)) d ->
  served n id (rt_tcp b tr1) -> reads d (at_tcp b tr1) = [] -> stub_exists (t_rt (tn_node w b)) n -> stub_listening (t_rt (tn_node w b)) n ->
  proxied k id b (rt_tcp a tr1) -> reads c (at_tcp a tr1) = [] -> proxy_exists (t_rt (tn_node w a)) k -> proxy_connected (t_rt (tn_node w a)) k ->
  Forall (fun m => of_id id m = true) (accepted c (rt_tcp a (tr1 ++ tr2))) -> (forall m, of_id id m = true -> of_id id (reply m) = true) ->
  accepted d (rt_tcp b (tr1 ++ tr2)) = map reply (map it_msg (from_conn d (stub_got n (rt_tcp b (tr1 ++ tr2))))) ->
  map it_msg (from_conn c (proxy_got k (rt_tcp a (tr1 ++ tr2)))) = map reply (accepted c (rt_tcp a (tr1 ++ tr2))).
Proof. intros H O NC (U & _ & _ & R) J RA RB. eapply net_exchange; try eassumption. intros e _. apply R. Qed.

Lemma tnet_run_history es : forall tr w w' tr', tnet_history tr w -> tnet_run bk cbk w es = Some (w', tr') -> tnet_history (tr ++ tr') w'.
Proof.
  induction es as [|e es IH]; intros tr w w' tr' H R; cbn [tnet_run] in R.
  - injection R as <- <-. rewrite app_nil_r. exact H.
  - destruct (tnet_step w e) as [[w1 x]|] eqn:E; [|discriminate R].
    destruct (tnet_run bk cbk w1 es) as [[w2 tr2]|] eqn:R2; [|discriminate R]. injection R as <- <-.
    change (x :: tr2) with ([x] ++ tr2). rewrite app_assoc. eapply IH; [|exact R2]. eapply tw_more; eassumption.
Qed.
End Locks.
