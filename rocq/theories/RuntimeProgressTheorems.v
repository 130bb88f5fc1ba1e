(** Theorems about who waits for whom in the v1 runtime. *)
From Coq Require Import List NArith Bool PeanoNat Lia.
From Verif Require Import BytesModel WireSpec UniverseModel SomeipModel SomeipSpec MapModel EndpointProofs RuntimeModel RuntimeSpec
  RuntimeProofs RuntimeTheorems RuntimePacketTheorems RuntimeSendTheorems RuntimeAddrTheorems.
Import ListNotations.
Open Scope nat_scope.

Section Locks.
Context (bk : iid -> N) (cbk : N -> N) (dg : bool).
Notation history := (history bk cbk dg).
Notation step := (step bk cbk).
Notation steps := (steps bk cbk).

Ltac cases_in H :=
  repeat (match type of H with
  | context [match ?x with _ => _ end] =>
      lazymatch x with context [match _ with _ => _ end] => fail | _ => destruct x eqn:? end
  end; try discriminate H).
Ltac step_cases H :=
  unfold RuntimeModel.step, step_ep, step_take, step_route, step_stub, i_recv, push_cmd in H; cases_in H;
  injection H as <- <-.
Ltac acbn := cbn [a_ep a_imap a_ifaces a_conns a_lsnrs a_stubs a_proxies set_vep set_vimap set_vifaces set_vconns
                  set_vlsnrs set_vstubs set_vproxies v_addr v_alive v_takes v_local v_recv v_count vl_alive vl_cmds vl_local
                  vs_iface vs_lst vs_alive v_with_recv v_with_takes v_with_local v_end v_new v_pack vs_end px_iface px_conn px_remote px_alive end_proxy] in *.
Ltac split_nth := acbn;
  repeat match goal with
  | H : nth_error (upd _ _ _) _ = Some _ |- _ => apply upd_is in H; destruct H as [[? H]|[? (? & ? & ?)]]; try subst
  | H : nth_error (_ ++ [_]) _ = Some _ |- _ => apply nth_snoc in H; destruct H as [H|[? ?]]; try subst
  end; acbn.
Ltac same_nth :=
  repeat match goal with
  | H : nth_error ?l ?n = Some ?x, K : nth_error ?l ?n = Some ?y |- _ =>
      tryif constr_eq x y then fail else (assert (x = y) by congruence; subst y)
  end.

(** ** A full queue *)
Ltac rcbn := unfold upd_conn, upd_iface, upd_lsnr, upd_stub, upd_proxy, spawn in *;
  cbn [r_open r_datagram r_ep r_listener r_imap r_cmap r_ifaces r_conns r_lsnrs r_stubs r_proxies r_left
       set_ep set_open set_listener set_imap set_cmap set_ifaces set_conns set_lsnrs set_stubs set_proxies set_left
       st_iface st_lst st_conns st_pc st_alive st_with_pc st_with_conns end_stub l_alive l_cmds l_local l_conns l_pc
       l_with_cmds l_with_local l_with_conns l_with_pc end_lsnr new_lsnr px_iface px_conn px_remote px_alive end_proxy
       c_addr c_alive c_cmds c_out c_local c_recv c_count c_with_cmds c_with_out c_with_local c_with_recv c_with_count new_conn end_conn] in *.
Record stall (s : rt) (c i : nat) (it : item) (todo : list item) : Prop := {
  sl_conn : exists x, nth_error (r_conns s) c = Some x /\ c_alive x = true /\ c_recv x = RHold i it todo;
  sl_full : exists y, nth_error (r_ifaces s) i = Some y /\ i_rx y = true /\ length (i_queue y) = 16 }.
Inductive frees (s : rt) (i : nat) : event -> Prop :=
| fr_recv n t : nth_error (r_stubs s) n = Some t -> st_iface t = i -> st_pc t = SFree -> frees s i (ERecvFrom n)
| fr_drop n t : nth_error (r_stubs s) n = Some t -> st_iface t = i -> frees s i (EDropStub n)
| fr_precv n p : nth_error (r_proxies s) n = Some p -> px_iface p = i -> frees s i (EProxyRecv n)
| fr_pdrop n p : nth_error (r_proxies s) n = Some p -> px_iface p = i -> frees s i (EDropProxy n)
| fr_untaken ok ow id : r_ep s = EpTake ow id i -> frees s i (EEp ok).

Lemma conn_after s e o s' c x : step s e = Some (s', o) -> nth_error (r_conns s) c = Some x ->
  exists x', nth_error (r_conns s') c = Some x' /\
    (c_alive x' = false \/ (c_alive x' = c_alive x /\ c_recv x' = c_recv x /\ e <> ERoute c /\ forall bs, e <> EPacket c bs) \/
     e = ERoute c \/ (exists bs, e = EPacket c bs /\ c_recv x = RWait [])).
Proof.
  intros ST X. destruct e; step_cases ST; rcbn;
  first
  [ solve [exists x; split; [first [exact X|apply nth_snoc_old; exact X]|];
           first [right; left; split; [reflexivity|split; [reflexivity|split; discriminate]] | right; right; right; eexists; split; [reflexivity|congruence]]]
  | match goal with |- exists x', nth_error (upd ?d _ _) _ = Some x' /\ _ => destruct (Nat.eq_dec c d) as [Ed|Ed] end;
    [rewrite <- Ed in *; rewrite nth_upd_same, X; eexists; split; [reflexivity|]
    |rewrite nth_upd_other by exact Ed; exists x; split; [exact X|]];
    rcbn;
    first [ solve [right; left; split; [reflexivity|split; [reflexivity|split; [congruence|intros; congruence]]]]
          | solve [left; reflexivity] | solve [right; right; left; congruence]
          | solve [right; right; right; eexists; split; [reflexivity|congruence]] ]
  | idtac ].
  all: exists x; split; [exact X|].
  all: match goal with |- context [EPacket ?d _] => destruct (Nat.eq_dec d c) as [Ed|Ed] end;
   [rewrite Ed in *; right; right; right; eexists; split; [reflexivity|congruence]
   |right; left; split; [reflexivity|split; [reflexivity|split; [discriminate|congruence]]]].
Qed.
Lemma iface_after s e o s' i y : step s e = Some (s', o) -> nth_error (r_ifaces s) i = Some y ->
  exists y', nth_error (r_ifaces s') i = Some y' /\
    ((i_rx y' = i_rx y /\ i_queue y' = i_queue y) \/ frees s i e \/ (i_rx y = true /\ length (i_queue y) < 16)).
Proof.
  intros ST Y. destruct e; step_cases ST; rcbn;
  first
  [ solve [exists y; split; [first [exact Y|apply nth_snoc_old; exact Y]|left; split; reflexivity]]
  | match goal with |- exists y', nth_error (upd ?d _ _) _ = Some y' /\ _ => destruct (Nat.eq_dec i d) as [Ed|Ed] end;
    [rewrite <- Ed in *; rewrite nth_upd_same, Y; eexists; split; [reflexivity|]
    |rewrite nth_upd_other by exact Ed; exists y; split; [exact Y|left; split; reflexivity]];
    first [ solve [right; left; eauto using fr_recv, fr_drop, fr_precv, fr_pdrop, fr_untaken]
          | solve [right; right; split; [congruence|apply Nat.ltb_lt; congruence]] ]
  | idtac ].
Qed.
Lemma stall_step s e o s' c i it todo : step s e = Some (s', o) -> stall s c i it todo ->
  (stall s' c i it todo /\ e <> ERoute c /\ (forall bs, e <> EPacket c bs)) \/ frees s i e \/ ~ conn_runs s' c.
Proof.
  intros ST [(x & X & A & R) (y & Y & RX & F)].
  destruct (iface_after _ _ _ _ _ _ ST Y) as (y' & Y' & [[E1 E2]|[K|[_ K]]]); [|right; left; exact K|lia].
  destruct (conn_after _ _ _ _ _ _ ST X) as (x' & X' & [D|[(A' & R' & N1 & N2)|[->|(bs & -> & W)]]]).
  - right. right. intros (z & Z & D'). congruence.
  - left. split; [|split; assumption]. constructor; [exists x'; repeat split; congruence|exists y'; repeat split; congruence].
  - exfalso. cbn in ST. rewrite X, A in ST. unfold step_route in ST. rewrite R, Y, RX, F in ST. discriminate ST.
  - congruence.
Qed.

Lemma frees_stub tr s n t e : history tr s -> nth_error (r_stubs s) n = Some t -> frees s (st_iface t) e ->
  (e = ERecvFrom n /\ st_pc t = SFree) \/ e = EDropStub n.
Proof.
  intros H T F. pose proof (in3 _ _ _ (history_inv _ _ _ _ _ H)) as [_ U W].
  assert (R : reads_from (view s) (st_iface t) (RStub n) (st_alive t)) by (eapply rf_stub with (t := vs t); [apply nth_vs; exact T|reflexivity]).
  destruct F as [m u M E P|m u M E|m p M E|m p M E|ok ow id E].
  - assert (Q : RStub n = RStub m) by (eapply U; [exact R|eapply rf_stub with (t := vs u); [apply nth_vs; exact M|exact E]]). injection Q as <-.
    left. split; [reflexivity|congruence].
  - assert (Q : RStub n = RStub m) by (eapply U; [exact R|eapply rf_stub with (t := vs u); [apply nth_vs; exact M|exact E]]). injection Q as <-.
    right. reflexivity.
  - assert (Q : RStub n = RProxy m) by (eapply U; [exact R|eapply rf_proxy; [exact M|exact E]]). discriminate Q.
  - assert (Q : RStub n = RProxy m) by (eapply U; [exact R|eapply rf_proxy; [exact M|exact E]]). discriminate Q.
  - destruct (proj2 (W ow id (st_iface t) E) _ _ R).
Qed.
Lemma frees_proxy tr s n p e : history tr s -> nth_error (r_proxies s) n = Some p -> frees s (px_iface p) e ->
  e = EProxyRecv n \/ e = EDropProxy n.
Proof.
  intros H T F. pose proof (in3 _ _ _ (history_inv _ _ _ _ _ H)) as [_ U W].
  assert (R : reads_from (view s) (px_iface p) (RProxy n) (px_alive p)) by (eapply rf_proxy; [exact T|reflexivity]).
  destruct F as [m u M E P|m u M E|m q M E|m q M E|ok ow id E].
  - assert (Q : RProxy n = RStub m) by (eapply U; [exact R|eapply rf_stub with (t := vs u); [apply nth_vs; exact M|exact E]]). discriminate Q.
  - assert (Q : RProxy n = RStub m) by (eapply U; [exact R|eapply rf_stub with (t := vs u); [apply nth_vs; exact M|exact E]]). discriminate Q.
  - assert (Q : RProxy n = RProxy m) by (eapply U; [exact R|eapply rf_proxy; [exact M|exact E]]). injection Q as <-. auto.
  - assert (Q : RProxy n = RProxy m) by (eapply U; [exact R|eapply rf_proxy; [exact M|exact E]]). injection Q as <-. auto.
  - destruct (proj2 (W ow id (px_iface p) E) _ _ R).
Qed.
Lemma runs_before s tr s' c x : steps s tr s' -> nth_error (r_conns s) c = Some x -> conn_runs s' c -> c_alive x = true.
Proof. intros S X R. destruct (c_alive x) eqn:A; [reflexivity|]. destruct (proj1 (ended_silent bk cbk dg s tr s' c x S X A) R). Qed.
Lemma conn_kept s e o s' c x : step s e = Some (s', o) -> nth_error (r_conns s) c = Some x -> exists x', nth_error (r_conns s') c = Some x'.
Proof. intros ST X. destruct (conn_after _ _ _ _ _ _ ST X) as (x' & X' & _). eauto. Qed.

Lemma stalled_stub_is tr s c n : history tr s ->
  stalled_stub s c n <-> exists t it todo, nth_error (r_stubs s) n = Some t /\ st_alive t = true /\ stall s c (st_iface t) it todo.
Proof.
  intros H. pose proof (history_inv _ _ _ _ _ H) as V. split.
  - intros (x & t & it & todo & X & A & T & R & (t' & T' & L) & B). assert (t' = t) by congruence. subst t'.
    exists t, it, todo. split; [exact T|]. split; [exact L|]. constructor; [exists x; auto|].
    destruct (stub_iface _ _ _ _ _ V T) as (y & Y & RX & _). exists y. unfold stub_backlog in B. rewrite T, Y in B. repeat split; congruence.
  - intros (t & it & todo & T & L & [(x & X & A & R) (y & Y & RX & F)]). exists x, t, it, todo. repeat split; try assumption.
    + exists t. auto.
    + unfold stub_backlog. rewrite T, Y. exact F.
Qed.
Lemma stalled_proxy_is tr s c n : history tr s ->
  stalled_proxy s c n <-> exists t it todo, nth_error (r_proxies s) n = Some t /\ px_alive t = true /\ stall s c (px_iface t) it todo.
Proof.
  intros H. pose proof (history_inv _ _ _ _ _ H) as V. split.
  - intros (x & t & it & todo & X & A & T & R & (t' & T' & L) & B). assert (t' = t) by congruence. subst t'.
    exists t, it, todo. split; [exact T|]. split; [exact L|]. constructor; [exists x; auto|].
    destruct (proxy_iface _ _ _ _ _ V T) as (y & Y & RX & _). exists y. unfold proxy_backlog in B. rewrite T, Y in B. repeat split; congruence.
  - intros (t & it & todo & T & L & [(x & X & A & R) (y & Y & RX & F)]). exists x, t, it, todo. repeat split; try assumption.
    + exists t. auto.
    + unfold proxy_backlog. rewrite T, Y. exact F.
Qed.
Lemma stub_after s e o s' n t : step s e = Some (s', o) -> nth_error (r_stubs s) n = Some t ->
  exists t', nth_error (r_stubs s') n = Some t' /\ st_iface t' = st_iface t /\
    (e = EDropStub n \/ (st_alive t' = st_alive t /\ (st_pc t' = st_pc t \/ (exists a m, e = ESendTo n a m /\ st_pc t = SFree) \/
     (exists ok, e = EStub n ok /\ forall a m, st_pc t = SConnect a m -> r_ep s = EpWait) \/ exists b, e = ECancel n b))).
Proof.
  intros ST T. destruct e; step_cases ST; rcbn;
  first
  [ solve [exists t; split; [first [exact T|apply nth_snoc_old; exact T]|split; [reflexivity|right; split; [reflexivity|left; reflexivity]]]]
  | match goal with |- exists y', nth_error (upd ?d _ _) _ = Some y' /\ _ => destruct (Nat.eq_dec n d) as [Ed|Ed] end;
    [rewrite <- Ed in *; rewrite nth_upd_same, T; eexists; split; [reflexivity|split; [reflexivity|]]
    |rewrite nth_upd_other by exact Ed; exists t; split; [exact T|split; [reflexivity|right; split; [reflexivity|left; reflexivity]]]];
    first [ solve [left; reflexivity] | right; split; [rcbn; congruence|];
      first [ solve [right; left; eexists; eexists; split; [reflexivity|congruence]] | solve [right; right; right; eexists; reflexivity] | right; right; left; eexists; split; [reflexivity|intros; congruence] ]]
  | idtac ].
Qed.
Lemma proxy_after s e o s' n t : step s e = Some (s', o) -> nth_error (r_proxies s) n = Some t ->
  exists t', nth_error (r_proxies s') n = Some t' /\ px_iface t' = px_iface t /\ (e = EDropProxy n \/ px_alive t' = px_alive t).
Proof.
  intros ST T. destruct e; step_cases ST; rcbn;
  first
  [ solve [exists t; split; [first [exact T|apply nth_snoc_old; exact T]|split; [reflexivity|right; reflexivity]]]
  | match goal with |- exists y', nth_error (upd ?d _ _) _ = Some y' /\ _ => destruct (Nat.eq_dec n d) as [Ed|Ed] end;
    [rewrite <- Ed in *; rewrite nth_upd_same, T; eexists; split; [reflexivity|split; [reflexivity|left; reflexivity]]
    |rewrite nth_upd_other by exact Ed; exists t; split; [exact T|split; [reflexivity|right; reflexivity]]]
  | idtac ].
Qed.

Lemma head_of_line_stub tr s c n tr' s' : history tr s -> stalled_stub s c n -> steps s tr' s' ->
  (forall o, ~ In (ERecvFrom n, o) tr') -> (forall o, ~ In (EDropStub n, o) tr') -> conn_runs s' c ->
  stalled_stub s' c n /\ waiting s' c = waiting s c /\ (forall o, ~ In (ERoute c, o) tr') /\ (forall bs o, ~ In (EPacket c bs, o) tr').
Proof.
  intros H ST S. revert tr H ST. induction S as [s|s e o s1 tr' s' E S IH]; intros tr H ST N1 N2 R.
  - split; [exact ST|]. split; [reflexivity|]. split; intros; intros [].
  - pose proof (h_more _ _ _ _ _ _ _ _ H E) as H1.
    apply (stalled_stub_is _ _ _ _ H) in ST. destruct ST as (t & it & todo & T & L & ST).
    destruct (stall_step _ _ _ _ _ _ _ _ E ST) as [(ST1 & M1 & M2)|[F|D]].
    + destruct (stub_after _ _ _ _ _ _ E T) as (t1 & T1 & I1 & [->|[A1 _]]); [destruct (N2 o); left; reflexivity|].
      destruct (IH _ H1) as (J1 & J2 & J3 & J4).
      * apply (stalled_stub_is _ _ _ _ H1). exists t1, it, todo. rewrite I1. split; [exact T1|]. split; [congruence|exact ST1].
      * intros o0 I. apply (N1 o0). right. exact I.
      * intros o0 I. apply (N2 o0). right. exact I.
      * exact R.
      * split; [exact J1|]. split.
        { rewrite J2. destruct ST1 as [(x1 & X1 & _ & R1) _]. destruct ST as [(x & X & _ & R0) _]. unfold waiting. rewrite X, X1, R0, R1. reflexivity. }
        split; [intros o0 [I|I]; [injection I as -> _; exact (M1 eq_refl)|exact (J3 _ I)]|intros bs o0 [I|I]; [injection I as -> _; exact (M2 bs eq_refl)|exact (J4 _ _ I)]].
    + destruct (frees_stub _ _ _ _ _ H T F) as [[-> _]| ->]; [destruct (N1 o); left; reflexivity|destruct (N2 o); left; reflexivity].
    + destruct ST as [(x & X & A & _) _]. destruct (conn_kept _ _ _ _ _ _ E X) as (x1 & X1). destruct D. exists x1. split; [exact X1|].
      eapply runs_before; eassumption.
Qed.
Lemma head_of_line_proxy tr s c n tr' s' : history tr s -> stalled_proxy s c n -> steps s tr' s' ->
  (forall o, ~ In (EProxyRecv n, o) tr') -> (forall o, ~ In (EDropProxy n, o) tr') -> conn_runs s' c ->
  stalled_proxy s' c n /\ waiting s' c = waiting s c /\ (forall o, ~ In (ERoute c, o) tr') /\ (forall bs o, ~ In (EPacket c bs, o) tr').
Proof.
  intros H ST S. revert tr H ST. induction S as [s|s e o s1 tr' s' E S IH]; intros tr H ST N1 N2 R.
  - split; [exact ST|]. split; [reflexivity|]. split; intros; intros [].
  - pose proof (h_more _ _ _ _ _ _ _ _ H E) as H1.
    apply (stalled_proxy_is _ _ _ _ H) in ST. destruct ST as (t & it & todo & T & L & ST).
    destruct (stall_step _ _ _ _ _ _ _ _ E ST) as [(ST1 & M1 & M2)|[F|D]].
    + destruct (proxy_after _ _ _ _ _ _ E T) as (t1 & T1 & I1 & [->|A1]); [destruct (N2 o); left; reflexivity|].
      destruct (IH _ H1) as (J1 & J2 & J3 & J4).
      * apply (stalled_proxy_is _ _ _ _ H1). exists t1, it, todo. rewrite I1. split; [exact T1|]. split; [congruence|exact ST1].
      * intros o0 I. apply (N1 o0). right. exact I.
      * intros o0 I. apply (N2 o0). right. exact I.
      * exact R.
      * split; [exact J1|]. split.
        { rewrite J2. destruct ST1 as [(x1 & X1 & _ & R1) _]. destruct ST as [(x & X & _ & R0) _]. unfold waiting. rewrite X, X1, R0, R1. reflexivity. }
        split; [intros o0 [I|I]; [injection I as -> _; exact (M1 eq_refl)|exact (J3 _ I)]|intros bs o0 [I|I]; [injection I as -> _; exact (M2 bs eq_refl)|exact (J4 _ _ I)]].
    + destruct (frees_proxy _ _ _ _ _ H T F) as [-> | ->]; [destruct (N1 o); left; reflexivity|destruct (N2 o); left; reflexivity].
    + destruct ST as [(x & X & A & _) _]. destruct (conn_kept _ _ _ _ _ _ E X) as (x1 & X1). destruct D. exists x1. split; [exact X1|].
      eapply runs_before; eassumption.
Qed.
(** Its id, and every id in the same bucket, is locked. *)
Lemma stalled_locked tr s c n id id' : history tr s -> served n id tr -> stalled_stub s c n -> bk id' = bk id -> locked bk s id' = true.
Proof.
  intros H SV ST B. pose proof (history_inv _ _ _ _ _ H) as V. destruct (proj1 (stalled_stub_is _ _ _ _ H) ST) as (t & it & todo & T & L & [(x & X & A & R) (y & Y & RX & F)]).
  assert (Ei : iid_of (it_msg it) = id).
  { assert (K := v_ids _ _ (in1 _ _ _ V) _ _ (held_recv _ _ _ _ _ _ _ (nth_vc _ _ _ X) R eq_refl)).
    destruct (stub_of_served _ _ _ _ _ V SV) as (t' & T' & E'). congruence. }
  unfold locked. apply existsb_nth. exists c, x. split; [exact X|]. unfold recv_locks. rewrite R, Ei, B. apply N.eqb_refl.
Qed.
Lemma stalled_blocks tr s c n id id' : history tr s -> served n id tr -> stalled_stub s c n -> bk id' = bk id ->
  (creating s id' -> forall ok, step s (EEp ok) = None) /\
  (forall d it rest, waiting s d = it :: rest -> iid_of (it_msg it) = id' -> step s (ERoute d) = None).
Proof.
  intros H SV ST B. pose proof (stalled_locked _ _ _ _ _ _ H SV ST B) as LK.
  pose proof (history_inv _ _ _ _ _ H) as V. destruct (proj1 (stalled_stub_is _ _ _ _ H) ST) as (t & it & todo & T & L & [(x & X & A & R) (y & Y & RX & F)]).
  split.
  - intros [(k & E)|(o & E)] ok; cbn; unfold step_ep; rewrite E, LK; reflexivity.
  - intros d ju rest W E. unfold waiting in W. cbn. destruct (nth_error (r_conns s) d) as [z|] eqn:Z; [|reflexivity].
    destruct (c_alive z); [|reflexivity]. unfold step_route. destruct (c_recv z) as [[|j' r']|j ju' r'] eqn:RZ; [reflexivity| |].
    + injection W as -> ->. rewrite E, LK. reflexivity.
    + injection W as -> ->. assert (c = d).
      { assert (Ei : iid_of (it_msg it) = id).
        { assert (K := v_ids _ _ (in1 _ _ _ V) _ _ (held_recv _ _ _ _ _ _ _ (nth_vc _ _ _ X) R eq_refl)).
          destruct (stub_of_served _ _ _ _ _ V SV) as (t' & T' & E'). congruence. }
        eapply (v_one _ _ (in1 _ _ _ V)); [apply (nth_vc _ _ _ X)|apply (nth_vc _ _ _ Z)|exact R|exact RZ|]. congruence. }
      subst d. assert (z = x) by congruence. subst z. assert (j = st_iface t) by congruence. subst j. rewrite Y, RX, F. reflexivity.
Qed.
Lemma stalled_proxy_blocks tr s c n id a id' : history tr s -> proxied n id a tr -> stalled_proxy s c n -> bk id' = bk id ->
  (creating s id' -> forall ok, step s (EEp ok) = None) /\
  (forall d it rest, waiting s d = it :: rest -> iid_of (it_msg it) = id' -> step s (ERoute d) = None).
Proof.
  intros H SV ST B. pose proof (history_inv _ _ _ _ _ H) as V.
  destruct (proj1 (stalled_proxy_is _ _ _ _ H) ST) as (t & it & todo & T & L & [(x & X & A & R) (y & Y & RX & F)]).
  assert (Ei : iid_of (it_msg it) = id).
  { assert (K := v_ids _ _ (in1 _ _ _ V) _ _ (held_recv _ _ _ _ _ _ _ (nth_vc _ _ _ X) R eq_refl)).
    destruct (v_proxied _ _ (in6 _ _ _ V) _ _ _ SV) as (t' & T' & _ & E'). cbn in T'. congruence. }
  assert (LK : locked bk s id' = true).
  { unfold locked. apply existsb_nth. exists c, x. split; [exact X|]. unfold recv_locks. rewrite R, Ei, B. apply N.eqb_refl. }
  split.
  - intros [(k & E)|(o & E)] ok; cbn; unfold step_ep; rewrite E, LK; reflexivity.
  - intros d ju rest W E. unfold waiting in W. cbn. destruct (nth_error (r_conns s) d) as [z|] eqn:Z; [|reflexivity].
    destruct (c_alive z); [|reflexivity]. unfold step_route. destruct (c_recv z) as [[|j' r']|j ju' r'] eqn:RZ; [reflexivity| |].
    + injection W as -> ->. rewrite E, LK. reflexivity.
    + injection W as -> ->. assert (c = d).
      { eapply (v_one _ _ (in1 _ _ _ V)); [apply (nth_vc _ _ _ X)|apply (nth_vc _ _ _ Z)|exact R|exact RZ|]. congruence. }
      subst d. assert (z = x) by congruence. subst z. assert (j = px_iface t) by congruence. subst j. rewrite Y, RX, F. reflexivity.
Qed.

(** ** A deadlock *)
Lemma deadlock tr s c n tr' s' : history tr s -> jammed bk tr s c n -> steps s tr' s' -> (forall o, ~ In (EDropStub n, o) tr') -> (forall b o, ~ In (ECancel n b, o) tr') -> conn_runs s' c ->
  jammed bk (tr ++ tr') s' c n /\ r_ep s' = r_ep s /\
  (forall e o, In (e, o) tr' -> match e with EStub m _ | ERecvFrom m => m <> n | EServe _ | EProxy _ _ | EEp _ | ETake _ _ => False | _ => True end).
Proof.
  intros H J S. revert tr H J. induction S as [s|s e o s1 tr' s' E S IH]; intros tr H J N NC R.
  - rewrite app_nil_r. split; [exact J|]. split; [reflexivity|]. intros e o [].
  - pose proof (h_more _ _ _ _ _ _ _ _ H E) as H1. destruct J as (id & id' & SV & ST & CN & EP & B).
    destruct (proj1 (stalled_stub_is _ _ _ _ H) ST) as (t & it & todo & T & L & ST').
    destruct (stalled_blocks _ _ _ _ _ _ H SV ST B) as [LK _]. specialize (LK EP).
    destruct CN as (t' & a & m & T' & P). assert (t' = t) by congruence. subst t'.
    assert (NW : r_ep s <> EpWait) by (destruct EP as [(k & EP)|(k & EP)]; congruence).
    assert (NO : match e with EStub m _ | ERecvFrom m => m <> n | EServe _ | EProxy _ _ | EEp _ | ETake _ _ => False | _ => True end).
    { destruct e; try exact I; try rewrite (LK ok) in E; try discriminate E; cbn in E;
      try solve [destruct (r_open s); [destruct (r_ep s); congruence|discriminate E]];
      try solve [unfold step_take in E; destruct (r_ep s); congruence].
      - intros ->. rewrite T, L in E. unfold step_stub in E. rewrite P in E. destruct (r_ep s); congruence.
      - intros ->. rewrite T, L, P in E. discriminate E. }
    assert (EP1 : r_ep s1 = r_ep s). { clear - E NO NW. destruct e; try contradiction; step_cases E; rcbn; first [reflexivity|congruence]. }
    destruct (stall_step _ _ _ _ _ _ _ _ E ST') as [(ST1 & _ & _)|[F|D]].
    + destruct (stub_after _ _ _ _ _ _ E T) as (t1 & T1 & I1 & [->|[A1 PC]]); [destruct (N o); left; reflexivity|].
      assert (P1 : st_pc t1 = SConnect a m). { destruct PC as [PC|[(? & ? & _ & PC)|[(ok & -> & _)|(b & ->)]]]; [congruence|congruence|destruct (NO eq_refl)|destruct (NC b o); left; reflexivity]. }
      destruct (IH _ H1) as (J1 & J2 & J3).
      * exists id, id'. split; [|split; [|split; [|split; [|exact B]]]].
        -- destruct SV as (e0 & I). exists e0. apply in_app_iff. left. exact I.
        -- apply (stalled_stub_is _ _ _ _ H1). exists t1, it, todo. rewrite I1. split; [exact T1|]. split; [congruence|exact ST1].
        -- exists t1, a, m. auto.
        -- unfold creating. rewrite EP1. exact EP.
      * intros o0 I. apply (N o0). right. exact I.
      * intros b o0 I. apply (NC b o0). right. exact I.
      * exact R.
      * rewrite <- app_assoc in J1. split; [exact J1|]. split; [congruence|]. intros e0 o0 [I|I]; [injection I as -> ->; exact NO|exact (J3 _ _ I)].
    + destruct (frees_stub _ _ _ _ _ H T F) as [[-> P']| ->]; [congruence|destruct (N o); left; reflexivity].
    + destruct ST' as [(x & X & A & _) _]. destruct (conn_kept _ _ _ _ _ _ E X) as (x1 & X1). destruct D. exists x1. split; [exact X1|].
      eapply runs_before; eassumption.
Qed.
End Locks.
