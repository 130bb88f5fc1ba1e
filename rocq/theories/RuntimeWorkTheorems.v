(** Theorems about how much the v1 runtime does, and when it stops. *)
From Coq Require Import List NArith Bool PeanoNat Lia Wf_nat.
From Verif Require Import BytesModel WireSpec UniverseModel SomeipModel SomeipSpec MapModel EndpointProofs RuntimeModel RuntimeSpec
  RuntimeProofs RuntimeTheorems RuntimePacketTheorems RuntimeSendTheorems RuntimeAddrTheorems RuntimeProgressTheorems.
Import ListNotations.
Open Scope nat_scope.

Section Locks.
Context (bk : iid -> N) (cbk : N -> N) (dg : bool).
Notation history := (history bk cbk dg).
Notation step := (step bk cbk).
Notation steps := (steps bk cbk).

Ltac cases_in H :=
  repeat (match type of H with
  | context [match ?x with _ => _ end] =>
      lazymatch x with context [match _ with _ => _ end] => fail | _ => destruct x eqn:? end
  end; try discriminate H).
Ltac step_cases H :=
  unfold RuntimeModel.step, step_ep, step_take, step_route, step_stub, i_recv, push_cmd in H; cases_in H;
  injection H as <- <-.
Ltac acbn := cbn [a_ep a_imap a_ifaces a_conns a_lsnrs a_stubs a_proxies set_vep set_vimap set_vifaces set_vconns
                  set_vlsnrs set_vstubs set_vproxies v_addr v_alive v_takes v_local v_recv v_count vl_alive vl_cmds vl_local
                  vs_iface vs_lst vs_alive v_with_recv v_with_takes v_with_local v_end v_new v_pack vs_end px_iface px_conn px_remote px_alive end_proxy] in *.
Ltac split_nth := acbn;
  repeat match goal with
  | H : nth_error (upd _ _ _) _ = Some _ |- _ => apply upd_is in H; destruct H as [[? H]|[? (? & ? & ?)]]; try subst
  | H : nth_error (_ ++ [_]) _ = Some _ |- _ => apply nth_snoc in H; destruct H as [H|[? ?]]; try subst
  end; acbn.
Ltac same_nth :=
  repeat match goal with
  | H : nth_error ?l ?n = Some ?x, K : nth_error ?l ?n = Some ?y |- _ =>
      tryif constr_eq x y then fail else (assert (x = y) by congruence; subst y)
  end.

Ltac rcbn := unfold upd_conn, upd_iface, upd_lsnr, upd_stub, upd_proxy, spawn in *;
  cbn [r_open r_datagram r_ep r_listener r_imap r_cmap r_ifaces r_conns r_lsnrs r_stubs r_proxies r_left
       set_ep set_open set_listener set_imap set_cmap set_ifaces set_conns set_lsnrs set_stubs set_proxies set_left
       st_iface st_lst st_conns st_pc st_alive st_with_pc st_with_conns end_stub l_alive l_cmds l_local l_conns l_pc
       l_with_cmds l_with_local l_with_conns l_with_pc end_lsnr new_lsnr px_iface px_conn px_remote px_alive end_proxy
       c_addr c_alive c_cmds c_out c_local c_recv c_count c_with_cmds c_with_out c_with_local c_with_recv c_with_count new_conn end_conn] in *.

(** ** A measure of the work left *)
Definition ep_w (p : epc) : nat :=
  match p with EpWait => 0 | EpCheck _ _ => 8 | EpReady _ _ => 7 | EpShare _ _ => 5 | EpTake _ _ _ => 4 end.
Definition pc_w (p : spc) : nat :=
  match p with SFree => 0 | SCheck _ _ => 8 | SConnect _ _ => 7 | SShare _ _ _ => 5 | SSend _ _ => 4 | SHold _ _ _ => 3 end.
Definition left_w (q : ecmd) : nat := match q with KConnect _ => 2 | KCall _ _ => 9 end.
Definition bool_w (b : bool) : nat := if b then 1 else 0.
Definition stub_w (t : stub) : nat := bool_w (st_alive t) + pc_w (st_pc t).
Definition recv_w (r : rstate) : nat := match r with RWait todo => 3 * length todo | RHold _ _ todo => 2 + 3 * length todo end.
Definition conn_w (x : conn) : nat :=
  bool_w (c_alive x) + 2 * length (c_cmds x) + match c_out x with Some _ => 1 | None => 0 end + recv_w (c_recv x).
Definition lsnr_w (x : lsnr) : nat :=
  bool_w (l_alive x) + length (l_cmds x) + match l_pc x with AWait => 0 | AShare _ _ => 1 end.
Definition iface_w (y : iface) : nat := length (i_queue y).
Definition proxy_w (p : proxy) : nat := bool_w (px_alive p).
Fixpoint total {A} (w : A -> nat) (l : list A) : nat := match l with [] => 0 | x :: l' => w x + total w l' end.
Definition left_to_do (s : rt) : nat :=
  bool_w (r_open s) + ep_w (r_ep s) + total stub_w (r_stubs s) + total conn_w (r_conns s) + total lsnr_w (r_lsnrs s) +
  total iface_w (r_ifaces s) + total proxy_w (r_proxies s) + total left_w (r_left s).

Lemma total_snoc {A} (w : A -> nat) l x : total w (l ++ [x]) = total w l + w x.
Proof. induction l as [|y l IH]; cbn; [lia|rewrite IH; lia]. Qed.
Lemma total_upd {A} (w : A -> nat) n f l x : nth_error l n = Some x -> total w (upd n f l) + w x = total w l + w (f x).
Proof.
  revert n. induction l as [|y l IH]; intros [|n] E; try discriminate E.
  - injection E as ->. cbn. lia.
  - cbn in E. apply IH in E. cbn. lia.
Qed.
Lemma total_upd_same {A} (w : A -> nat) n f l : (forall x, w (f x) = w x) -> total w (upd n f l) = total w l.
Proof. intros E. revert n. induction l as [|y l IH]; intros [|n]; cbn; rewrite ?E, ?IH; reflexivity. Qed.
Lemma upd_none {A} n (f : A -> A) l : nth_error l n = None -> upd n f l = l.
Proof. revert n. induction l as [|y l IH]; intros [|n] E; cbn in *; [reflexivity..|discriminate|rewrite IH by exact E; reflexivity]. Qed.
Lemma put_w it y : iface_w (i_put it y) <= S (iface_w y).
Proof.
  unfold iface_w, i_queue, i_put. cbn [i_next i_log]. rewrite !skipn_length, app_length. cbn. lia.
Qed.
Lemma take_w y it q : i_queue y = it :: q -> S (iface_w (i_take y)) = iface_w y.
Proof.
  unfold iface_w, i_queue, i_take. cbn [i_next i_log]. intros E. assert (K := f_equal (@length item) E). rewrite !skipn_length in *. cbn in K. lia.
Qed.
Lemma number_length c a n ms : length (number c a n ms) = length ms.
Proof. revert n. induction ms as [|m ms IH]; intros n; cbn; [reflexivity|rewrite IH; reflexivity]. Qed.

Lemma shut_w y : iface_w (i_shut y) = iface_w y.
Proof. reflexivity. Qed.
Ltac one_total :=
  match goal with
  | |- context [total ?w (?l ++ [?x])] => rewrite (total_snoc w l x)
  | |- context [total iface_w (upd ?n i_shut ?l)] => rewrite (total_upd_same iface_w n i_shut l shut_w)
  | H : nth_error ?l ?n = Some ?x |- context [total ?w (upd ?n ?f ?l)] =>
      let K := fresh "K" in pose proof (total_upd w n f l x H) as K;
      let v := fresh "v" in set (v := total w (upd n f l)) in *; clearbody v
  end.
Ltac hide := repeat match goal with
  | |- context [total ?w ?l] => let v := fresh "v" in set (v := total w l) in *; clearbody v
  end.
Ltac wcbn := unfold stub_w, conn_w, lsnr_w, proxy_w in *; rcbn; cbn [total left_w bool_w ep_w pc_w recv_w brings works fst snd length app] in *.
Ltac known := repeat match goal with
  | H : nth_error _ _ = _ |- _ => clear H
  | H : i_queue ?y = _ :: _ |- _ => apply take_w in H
  | K : context [iface_w (i_put ?it ?y)] |- _ => pose proof (put_w it y); let v := fresh "v" in set (v := iface_w (i_put it y)) in *; clearbody v
  end.
Ltac values := repeat match goal with
  | H : ?a = _ |- _ => lazymatch type of a with nat => fail | _ => rewrite H in *; clear H end
  end.
Lemma total_drop {A} (w : A -> nat) (x : A) l : forall k, nth_error l k = Some x -> total w l = w x + total w (drop_nth k l).
Proof. induction l as [|y l IH]; intros [|k] I; cbn in *; try discriminate; [injection I as ->; reflexivity|]. rewrite (IH _ I). lia. Qed.
Lemma work_step s e o s' : step s e = Some (s', o) ->
  left_to_do s' + (if works (e, o) then 1 else 0) <= left_to_do s + match brings e with Some k => k | None => 0 end.
Proof.
  intros ST. destruct e; step_cases ST; unfold left_to_do; rcbn; repeat one_total;
  repeat match goal with H : nth_error (r_left _) _ = _ |- _ => rewrite (total_drop left_w _ _ _ H); clear H end; cbn [total left_w]; hide; known; wcbn; values; wcbn;
  rewrite ?app_length in *; cbn [length] in *; try lia.
  - cbn. lia.
  - unfold packet_messages. rewrite Heqo1. rewrite number_length in K. lia.
Qed.
Lemma brought_app t1 t2 : brought (t1 ++ t2) = brought t1 + brought t2.
Proof. unfold brought. rewrite map_app, list_sum_app. reflexivity. Qed.
Lemma worked_app t1 t2 : worked (t1 ++ t2) = worked t1 + worked t2.
Proof. unfold worked. rewrite filter_app, app_length. reflexivity. Qed.
Lemma brought_cons e o tr : brought ((e, o) :: tr) = match brings e with Some k => k | None => 0 end + brought tr.
Proof. reflexivity. Qed.
Lemma worked_cons e o tr : worked ((e, o) :: tr) = (if works (e, o) then 1 else 0) + worked tr.
Proof. unfold worked. cbn [filter]. destruct (works (e, o)); reflexivity. Qed.
Lemma work_left tr s : history tr s -> left_to_do s + worked tr <= 1 + brought tr.
Proof.
  induction 1 as [|tr s e s' o H IH ST]; [cbn; lia|]. apply work_step in ST. rewrite brought_app, worked_app, brought_cons, worked_cons.
  change (brought []) with 0. change (worked []) with 0. lia.
Qed.
Lemma no_busy_loop tr s : history tr s -> worked tr <= 1 + brought tr.
Proof. intros H. apply work_left in H. lia. Qed.
Lemma work_bound s tr s' : steps s tr s' -> left_to_do s' + worked tr <= left_to_do s + brought tr.
Proof.
  induction 1 as [s|s e o s1 tr s2 ST S IH]; [cbn; lia|]. apply work_step in ST. rewrite brought_cons, worked_cons. lia.
Qed.

(** ** What is always there *)
Definition lsnr_there (s : rt) : Prop :=
  (forall l, r_listener s = Some l -> l < length (r_lsnrs s)) /\
  (forall l id, r_ep s = EpShare (OwnListener l) id -> l < length (r_lsnrs s)) /\
  (forall l id i, r_ep s = EpTake (OwnListener l) id i -> l < length (r_lsnrs s)).
Record Tidy (s : rt) : Prop := {
  t_stub : forall n t, nth_error (r_stubs s) n = Some t -> st_alive t = false -> st_pc t = SFree;
  t_conn : forall c x, nth_error (r_conns s) c = Some x -> c_alive x = false -> c_cmds x = [] /\ c_out x = None /\ c_recv x = RWait [];
  t_lsnr : forall l x, nth_error (r_lsnrs s) l = Some x -> l_alive x = false -> l_cmds x = [] /\ l_pc x = AWait;
  t_there : lsnr_there s }.
Ltac nsplit := rcbn;
  repeat match goal with
  | H : nth_error (upd _ _ _) _ = Some _ |- _ => apply upd_is in H; destruct H as [[? H]|[? (? & ? & ?)]]; try subst
  | H : nth_error (_ ++ [_]) _ = Some _ |- _ => apply nth_snoc in H; destruct H as [H|[? ?]]; try subst
  end; rcbn.
Lemma live_lsnr_is s l : live_lsnr s = Some l -> r_listener s = Some l.
Proof. unfold live_lsnr. destruct (r_listener s) as [k|]; [|discriminate]. destruct (lsnr_strong s k); congruence. Qed.
Lemma Tidy_step s e o s' : step s e = Some (s', o) -> Tidy s -> Tidy s'.
Proof.
  intros ST [T1 T2 T3 (T4 & T5 & T6)]. constructor.
  - intros n t X D. destruct e; step_cases ST; nsplit; same_nth; try congruence; try solve [eapply T1; eassumption].
  - intros n t X D. destruct e; step_cases ST; nsplit; same_nth; try congruence; try solve [eapply T2; eassumption]; try solve [auto].
  - intros n t X D. destruct e; step_cases ST; nsplit; same_nth; try congruence; try solve [eapply T3; eassumption]; try solve [auto].
  - split; [|split].
    + intros l E. destruct e; step_cases ST; rcbn; rewrite ?length_upd, ?app_length; try solve [eauto]. injection E as <-. cbn. lia.
    + intros l id0 E. destruct e; step_cases ST; rcbn; rewrite ?length_upd, ?app_length; try solve [eauto]; try discriminate E;
      first [congruence | solve [eapply T5; exact E] | injection E as <- <-]; [apply T4, live_lsnr_is; assumption|cbn; lia].
    + intros l id0 i0 E. destruct e; step_cases ST; rcbn; rewrite ?length_upd, ?app_length; try solve [eauto]; try discriminate E;
      first [congruence | solve [eapply T6; exact E] | injection E as -> <- <-; eapply T5; reflexivity].
Qed.
Lemma tidy tr s : history tr s -> Tidy s.
Proof.
  induction 1 as [|tr s e s' o H IH ST]; [|eapply Tidy_step; eassumption].
  constructor; try (intros [|n] ? E; discriminate E). repeat split; intros; discriminate.
Qed.
Definition kept (A : av) : Prop :=
  forall i, rx A i -> (exists k, reads_from A i k true) \/ (exists ow id, a_ep A = EpTake ow id i).
Lemma kept_step A e o A' : Inv3 A -> kept A -> astep bk A e o A' -> Inv3 A' -> kept A'.
Proof.
  intros V K S V' i R. destruct (rx_back _ _ _ _ _ _ S R) as [R0|(-> & ow & id & _ & E & _)]; [|right; eauto].
  destruct (K i R0) as [(k & F)|(ow & id & E)].
  - destruct (reader_later _ _ _ _ _ _ _ _ S F) as (b' & F'). left. exists k.
    destruct R as (y & Y & RX). destruct (v_rx _ V' _ _ _ F') as (z & Z & RZ). congruence.
  - assert (D : (exists ow id, a_ep A' = EpTake ow id i) \/ (exists k, reads_from A' i k true)).
    { inversion S; subst; clear S; acbn; try congruence; try solve [left; eauto].
      - assert (i0 = i) by congruence; subst i0. right. exists (RStub (length (a_stubs A))). eapply (rf_stub _ _ _ (mkVS i l true)); acbn; [apply nth_snoc_new|congruence].
      - assert (i0 = i) by congruence; subst i0. right. exists (RProxy (length (a_proxies A))). eapply (rf_proxy _ _ _ (mkP i c a true)); acbn; [apply nth_snoc_new|congruence].
      - exfalso. destruct R as (y & Y & RX). acbn. apply upd_is in Y. destruct Y as [[NE _]|[_ (z & _ & ->)]]; [congruence|discriminate RX]. }
    tauto.
Qed.
Lemma always_read tr s : history tr s -> kept (view s).
Proof.
  induction 1 as [|tr s e s' o H IH ST].
  - intros i (y & Y & _). destruct i; discriminate Y.
  - eapply kept_step; [exact (in3 _ _ _ (history_inv _ _ _ _ _ H))|exact IH|eapply step_view; exact ST|].
    exact (in3 _ _ _ (history_inv _ _ _ _ _ (h_more _ _ _ _ _ _ _ _ H ST))).
Qed.

(** ** When it stops *)
Definition can (s : rt) : Prop :=
  exists e s' o, cooperative e /\ step s e = Some (s', o) /\ o <> OPending /\ o <> OClosed.
Lemma can_do s e s' o : cooperative e -> step s e = Some (s', o) -> o <> OPending -> o <> OClosed -> can s.
Proof. intros. exists e, s', o. auto. Qed.
Lemma can_step s e : cooperative e -> (exists r, step s e = Some r /\ snd r <> OPending /\ snd r <> OClosed) -> can s.
Proof. intros C ([s' o] & S & N1 & N2). exists e, s', o. auto. Qed.
Ltac decide_step := repeat match goal with |- exists r, match ?x with _ => _ end = _ /\ _ => destruct x eqn:? end;
  eexists; (split; [reflexivity|split; discriminate]).
Lemma search {A} (p : A -> bool) l : (exists n x, nth_error l n = Some x /\ p x = true) \/ (forall n x, nth_error l n = Some x -> p x = false).
Proof.
  destruct (existsb p l) eqn:E; [left; apply existsb_nth; exact E|right]. intros n x X. eapply existsb_nth_false; eassumption.
Qed.
Ltac doit H := eapply can_do with (2 := H); [exact I|discriminate..].

Lemma flush s : Tidy s -> can s \/ (forall c x, nth_error (r_conns s) c = Some x -> c_cmds x = [] /\ c_out x = None).
Proof.
  intros T. destruct (search (fun x => c_alive x && match c_out x, c_cmds x with None, [] => false | _, _ => true end) (r_conns s)) as [(c & x & X & E)|N].
  - left. apply andb_true_iff in E. destruct E as [A E]. destruct (c_out x) as [bs|] eqn:O.
    + assert (S : step s (ESocket c true) = Some (upd_conn c (c_with_out None) s, OSent bs)) by (cbn; rewrite X, A, O; reflexivity). doit S.
    + destruct (c_cmds x) as [|[m|id i] q] eqn:Q; [discriminate| |].
      * eassert (S : step s (ESender c) = Some (_, OUnit)) by (cbn; rewrite X, A, O, Q; reflexivity). doit S.
      * eassert (S : step s (ESender c) = Some (_, OUnit)) by (cbn; rewrite X, A, O, Q; reflexivity). doit S.
  - right. intros c x X. specialize (N c x X). cbn in N. destruct (c_alive x) eqn:A.
    + cbn in N. destruct (c_out x); [discriminate|]. destruct (c_cmds x); [auto|discriminate].
    + destruct (t_conn _ T c x X A) as (E1 & E2 & _). auto.
Qed.
Lemma lflush s : Tidy s -> can s \/ (forall c x, nth_error (r_lsnrs s) c = Some x -> l_cmds x = []).
Proof.
  intros T. destruct (search (fun x => l_alive x && match l_cmds x with [] => false | _ => true end) (r_lsnrs s)) as [(c & x & X & E)|N].
  - left. apply andb_true_iff in E. destruct E as [A E]. destruct (l_cmds x) as [|[id i] q] eqn:Q; [discriminate|].
    eassert (S : step s (EListener c) = Some (_, OUnit)) by (cbn; rewrite X, A, Q; reflexivity). doit S.
  - right. intros c x X. specialize (N c x X). cbn in N. destruct (l_alive x) eqn:A.
    + cbn in N. destruct (l_cmds x); [auto|discriminate].
    + exact (proj1 (t_lsnr _ T c x X A)).
Qed.
Lemma ptr_there tr s c a : history tr s -> ptr s c a -> exists x, nth_error (r_conns s) c = Some x.
Proof. intros H P. destruct (opened_is _ _ _ _ _ _ _ H (pointed _ _ _ _ _ H _ _ P)) as (x & X & _). eauto. Qed.
Lemma let_go tr s : history tr s -> (forall c x, nth_error (r_conns s) c = Some x -> c_cmds x = [] /\ c_out x = None) ->
  can s \/ (forall a, clocked cbk s a = false).
Proof.
  intros H F. pose proof (tidy _ _ H) as T.
  destruct (search (fun t => match st_pc t with SHold _ _ _ => true | _ => false end) (r_stubs s)) as [(n & t & X & E)|N].
  - left. destruct (st_pc t) as [|a m|a m|a c m|a m|a c m] eqn:P; try discriminate.
    assert (A : st_alive t = true) by (destruct (st_alive t) eqn:A; [reflexivity|rewrite (t_stub _ T _ _ X A) in P; discriminate]).
    destruct (ptr_there _ _ _ _ H (p_hold _ _ _ _ _ _ X P)) as (x & C). destruct (F _ _ C) as [Q _].
    destruct (c_alive x) eqn:AC.
    + eassert (S : step s (EStub n true) = Some (_, OOk c m)) by (cbn; rewrite X, A; unfold step_stub; rewrite P; unfold push_cmd; rewrite C, AC, Q; reflexivity). doit S.
    + eassert (S : step s (EStub n true) = Some (_, OError)) by (cbn; rewrite X, A; unfold step_stub; rewrite P; unfold push_cmd; rewrite C, AC; reflexivity). doit S.
  - right. intros a. unfold clocked. destruct (existsb _ _) eqn:E; [|reflexivity]. apply existsb_nth in E. destruct E as (n & t & X & E).
    specialize (N n t X). unfold stub_locks in E. cbn in N. destruct (st_pc t); discriminate.
Qed.
Lemma go_on tr s : history tr s -> (forall a, clocked cbk s a = false) -> can s \/
  ((forall n t, nth_error (r_stubs s) n = Some t -> st_pc t = SFree \/ (r_ep s <> EpWait /\ st_alive t = true /\ exists a m, st_pc t = SConnect a m)) /\
   (forall l x, nth_error (r_lsnrs s) l = Some x -> l_pc x = AWait)).
Proof.
  intros H F. pose proof (tidy _ _ H) as T.
  destruct (search (fun x => match l_pc x with AShare _ _ => true | AWait => false end) (r_lsnrs s)) as [(n & x & X & E)|NL].
  { left. destruct (l_pc x) as [|a c] eqn:P; [discriminate|].
    assert (A : l_alive x = true) by (destruct (l_alive x) eqn:A; [reflexivity|destruct (t_lsnr _ T _ _ X A); congruence]).
    eassert (S : step s (EAcceptShare n) = Some (_, OUnit)) by (cbn; rewrite X, A, P, F; reflexivity). doit S. }
  destruct (search (fun t => match st_pc t with SFree => false | SConnect _ _ => match r_ep s with EpWait => true | _ => false end | _ => true end) (r_stubs s)) as [(n & t & X & E)|N].
  - left. assert (A : st_pc t <> SFree -> st_alive t = true) by (intros P; destruct (st_alive t) eqn:A; [reflexivity|destruct (P (t_stub _ T _ _ X A))]).
    destruct (st_pc t) as [|a m|a m|a c m|a m|a c m] eqn:P; try discriminate; specialize (A ltac:(discriminate)).
    all: apply (can_step s (EStub n true)); [exact I|]; cbn; rewrite X, A; unfold step_stub; rewrite P, ?F.
    + decide_step.
    + destruct (r_ep s); try discriminate. decide_step.
    + decide_step.
    + decide_step.
    + destruct (ptr_there _ _ _ _ H (p_hold _ _ _ _ _ _ X P)) as (x & C). exfalso.
      assert (K : clocked cbk s a = true) by (unfold clocked; apply existsb_nth; exists n, t; split; [exact X|]; unfold stub_locks; rewrite P; apply N.eqb_refl).
      rewrite F in K. discriminate.
  - right. split.
    + intros n t X. specialize (N n t X). cbn in N. destruct (st_pc t) as [|a m|a m|a c m|a m|a c m] eqn:P; try discriminate; [left; reflexivity|right].
      split; [intros E; rewrite E in N; discriminate|]. split; [|eauto]. destruct (st_alive t) eqn:A; [reflexivity|]. rewrite (t_stub _ T _ _ X A) in P. discriminate.
    + intros l x X. specialize (NL l x X). cbn in NL. destruct (l_pc x); [reflexivity|discriminate].
Qed.
Lemma ep_on tr s : history tr s -> (forall a, clocked cbk s a = false) -> (forall c x, nth_error (r_conns s) c = Some x -> c_cmds x = [] /\ c_out x = None) ->
  (forall c x, nth_error (r_lsnrs s) c = Some x -> l_cmds x = []) ->
  can s \/ r_ep s = EpWait \/ exists id, creating s id /\ locked bk s id = true.
Proof.
  intros H F C L. pose proof (tidy _ _ H) as T. destruct (r_ep s) as [|id k|id k|ow id|ow id i] eqn:E.
  - auto.
  - destruct (locked bk s id) eqn:K; [right; right; exists id; split; [left; eauto|exact K]|left].
    apply (can_step s (EEp true)); [exact I|]. cbn. unfold step_ep. rewrite E, K. decide_step.
  - left. apply (can_step s (EEp true)); [exact I|]. cbn. unfold step_ep. rewrite E. destruct k as [a|]; [rewrite F|]; decide_step.
  - destruct (locked bk s id) eqn:K; [right; right; exists id; split; [right; eauto|exact K]|left].
    apply (can_step s (EEp true)); [exact I|]. cbn. unfold step_ep. rewrite E, K. decide_step.
  - left. apply (can_step s (EEp true)); [exact I|]. cbn. unfold step_ep. rewrite E. destruct ow as [l|c a].
    + destruct (t_there _ T) as (_ & _ & T6). specialize (T6 _ _ _ E). apply nth_error_Some in T6. destruct (nth_error (r_lsnrs s) l) as [x|] eqn:X; [|congruence].
      rewrite (L _ _ X). cbn [length Nat.ltb Nat.leb]. decide_step.
    + destruct (ptr_there _ _ _ _ H (p_eptake _ _ _ _ _ E)) as (x & X). rewrite X. destruct (C _ _ X) as [Q _]. rewrite Q. cbn [length Nat.ltb Nat.leb]. decide_step.
Qed.
Lemma read_on tr s : history tr s -> can s \/
  ((forall n t, nth_error (r_stubs s) n = Some t -> st_alive t = true -> st_pc t = SFree -> stub_backlog s n = []) /\
   (forall n, proxy_exists s n -> proxy_backlog s n = [])).
Proof.
  intros H. pose proof (history_inv _ _ _ _ _ H) as V.
  destruct (search (fun t => st_alive t && match st_pc t with SFree => true | _ => false end &&
    match nth_error (r_ifaces s) (st_iface t) with Some y => match i_queue y with [] => false | _ => true end | None => false end) (r_stubs s)) as [(n & t & X & E)|N1].
  { left. apply andb_true_iff in E. destruct E as [E E3]. apply andb_true_iff in E. destruct E as [E1 E2].
    apply (can_step s (ERecvFrom n)); [exact I|]. cbn. rewrite X, E1. destruct (st_pc t); try discriminate E2. unfold i_recv.
    destruct (nth_error (r_ifaces s) (st_iface t)) as [y|]; [|discriminate]. destruct (i_queue y); [discriminate|]. decide_step. }
  destruct (search (fun t => px_alive t &&
    match nth_error (r_ifaces s) (px_iface t) with Some y => match i_queue y with [] => false | _ => true end | None => false end) (r_proxies s)) as [(n & t & X & E)|N2].
  { left. apply andb_true_iff in E. destruct E as [E1 E3].
    apply (can_step s (EProxyRecv n)); [exact I|]. cbn. rewrite X, E1. unfold i_recv.
    destruct (nth_error (r_ifaces s) (px_iface t)) as [y|]; [|discriminate]. destruct (i_queue y); [discriminate|]. decide_step. }
  right. split.
  - intros n t X A P. specialize (N1 n t X). cbn in N1. rewrite A, P in N1. cbn in N1. unfold stub_backlog. rewrite X.
    destruct (nth_error (r_ifaces s) (st_iface t)) as [y|]; [|reflexivity]. destruct (i_queue y); [reflexivity|discriminate].
  - intros n (t & X & A). specialize (N2 n t X). cbn in N2. rewrite A in N2. cbn in N2. unfold proxy_backlog. rewrite X.
    destruct (nth_error (r_ifaces s) (px_iface t)) as [y|]; [|reflexivity]. destruct (i_queue y); [reflexivity|discriminate].
Qed.
Lemma holders tr s : history tr s -> (forall ow id i, r_ep s <> EpTake ow id i) ->
  (forall n t, nth_error (r_stubs s) n = Some t -> st_pc t = SFree \/ (r_ep s <> EpWait /\ st_alive t = true /\ exists a m, st_pc t = SConnect a m)) ->
  (forall n t, nth_error (r_stubs s) n = Some t -> st_alive t = true -> st_pc t = SFree -> stub_backlog s n = []) ->
  (forall n, proxy_exists s n -> proxy_backlog s n = []) ->
  can s \/ (forall c x i it todo, nth_error (r_conns s) c = Some x -> c_recv x = RHold i it todo ->
    r_ep s <> EpWait /\ exists n, served n (iid_of (it_msg it)) tr /\ stalled_stub s c n /\ connecting s n).
Proof.
  intros H NT PC SB PB. pose proof (history_inv _ _ _ _ _ H) as V. pose proof (tidy _ _ H) as T.
  destruct (search (fun x => match c_recv x with
     | RHold i it todo => match nth_error (r_ifaces s) i with Some y => negb (i_rx y) || (length (i_queue y) <? 16) | None => false end
     | RWait _ => false end) (r_conns s)) as [(c & x & X & E)|N].
  - left. apply (can_step s (ERoute c)); [exact I|]. cbn. rewrite X.
    assert (A : c_alive x = true). { destruct (c_alive x) eqn:A; [reflexivity|]. destruct (t_conn _ T _ _ X A) as (_ & _ & R). rewrite R in E. discriminate. }
    rewrite A. unfold step_route. destruct (c_recv x) as [|i it todo]; [discriminate|]. destruct (nth_error (r_ifaces s) i) as [y|]; [|discriminate].
    destruct (i_rx y); [|decide_step]. cbn [negb orb] in E. rewrite E. decide_step.
  - right. intros c x i it todo X R. specialize (N c x X). rewrite R in N.
    assert (A : c_alive x = true). { destruct (c_alive x) eqn:A; [reflexivity|]. destruct (t_conn _ T _ _ X A) as (_ & _ & R'). congruence. }
    assert (ID : idof (view s) i = Some (iid_of (it_msg it))) by exact (v_ids _ _ (in1 _ _ _ V) _ _ (held_recv _ _ _ _ _ _ _ (nth_vc _ _ _ X) R eq_refl)).
    destruct (nth_error (r_ifaces s) i) as [y|] eqn:Y; [|unfold idof in ID; cbn in ID; rewrite Y in ID; discriminate].
    apply orb_false_iff in N. destruct N as [RX Q]. apply negb_false_iff in RX. apply Nat.ltb_ge in Q.
    destruct (always_read _ _ H i) as [(k & F)|(ow & id & E)]; [exists y; auto| |destruct (NT _ _ _ E)].
    remember true as b eqn:AL in F. destruct F as [n u U EU|n p P EP]; subst i.
    + apply nth_map in U. destruct U as (t & U & ->). cbn in AL, Y, NT, R, ID |- *. cbn [st_iface vs vs_iface] in *.
      destruct (PC _ _ U) as [FR|(NW & _ & a & m & PCC)].
      { exfalso. specialize (SB _ _ U AL FR). unfold stub_backlog in SB. rewrite U, Y in SB. rewrite SB in Q. cbn in Q. lia. }
      split; [exact NW|]. exists n. destruct (proj1 (created _ _ _ _ _ H) _ _ U) as (id & SV).
      destruct (stub_of_served _ _ _ _ _ V SV) as (t' & U' & ID'). assert (t' = t) by congruence. subst t'.
      split; [replace (iid_of (it_msg it)) with id by congruence; exact SV|]. split; [|exists t, a, m; auto].
      exists x, t, it, todo. repeat split; try assumption; [exists t; auto|].
      pose proof (proj1 (backlog_bounded _ _ _ _ _ n H)) as BB. unfold stub_backlog in *. rewrite U, Y in *. lia.
    + exfalso. cbn in P. specialize (PB n (ex_intro _ p (conj P AL))). unfold proxy_backlog in PB. rewrite P, Y in PB. rewrite PB in Q. cbn in Q. lia.
Qed.
Lemma progress tr s : history tr s -> can s \/ idle s \/ exists c n, jammed bk tr s c n.
Proof.
  intros H. pose proof (tidy _ _ H) as T. pose proof (history_inv _ _ _ _ _ H) as V.
  destruct (flush _ T) as [K|C]; [auto|]. destruct (lflush _ T) as [K|L]; [auto|].
  destruct (let_go _ _ H C) as [K|F]; [auto|]. destruct (go_on _ _ H F) as [K|(PC & PL)]; [auto|].
  destruct (ep_on _ _ H F C L) as [K|EP]; [auto|].
  assert (LF : can s \/ r_ep s <> EpWait \/ r_left s = []).
  { destruct (r_ep s) eqn:EW; try (right; left; discriminate). destruct (r_left s) as [|q qs] eqn:Q; [auto|]. left.
    apply (can_step s (ETake 0 true)); [exact I|]. cbn. unfold step_take. rewrite EW, Q. cbn. decide_step. }
  destruct LF as [K|LF]; [auto|]. destruct (read_on _ _ H) as [K|(SB & PB)]; [auto|].
  assert (NT : forall ow id i, r_ep s <> EpTake ow id i). { intros ow id i E. destruct EP as [EP|(id' & [(k & EP)|(o & EP)] & _)]; congruence. }
  destruct (holders _ _ H NT PC SB PB) as [K|HO]; [auto|].
  destruct (search (fun x => match c_recv x with RWait (it :: _) => negb (locked bk s (iid_of (it_msg it))) | _ => false end) (r_conns s)) as [(c & x & X & E)|NR].
  { left. apply (can_step s (ERoute c)); [exact I|]. cbn. rewrite X.
    assert (A : c_alive x = true). { destruct (c_alive x) eqn:A; [reflexivity|]. destruct (t_conn _ T _ _ X A) as (_ & _ & R). rewrite R in E. discriminate. }
    rewrite A. unfold step_route. destruct (c_recv x) as [[|it todo]|]; try discriminate. apply negb_true_iff in E. rewrite E. decide_step. }
  right. destruct EP as [EP|(id' & CR & LK)].
  - left. assert (NH : forall c x i it todo, nth_error (r_conns s) c = Some x -> c_recv x <> RHold i it todo) by (intros c x i it todo X R; destruct (HO _ _ _ _ _ X R) as [E _]; exact (E EP)).
    assert (NL : forall id, locked bk s id = false).
    { intros id. destruct (locked bk s id) eqn:E; [|reflexivity]. apply existsb_nth in E. destruct E as (c & x & X & E). unfold recv_locks in E.
      destruct (c_recv x) as [|i it todo] eqn:R; [discriminate|]. destruct (NH _ _ _ _ _ X R). }
    constructor; [split; [exact EP|destruct LF as [N|LF]; [destruct (N EP)|exact LF]]| | | | |exact C|].
    + intros n (t & X & P). destruct (PC _ _ X) as [E|[E _]]; [exact (P E)|exact (E EP)].
    + intros c. unfold waiting. destruct (nth_error (r_conns s) c) as [x|] eqn:X; [|reflexivity]. specialize (NR _ _ X). cbn in NR.
      destruct (c_recv x) as [[|it todo]|i it todo] eqn:R; [reflexivity| |destruct (NH _ _ _ _ _ X R)]. rewrite NL in NR. discriminate.
    + intros n (t & X & A). destruct (PC _ _ X) as [E|[E _]]; [eapply SB; eassumption|destruct (E EP)].
    + exact PB.
    + intros l x X. split; [eapply L; eassumption|eapply PL; eassumption].
  - right. unfold locked in LK. apply existsb_nth in LK. destruct LK as (c & x & X & E). unfold recv_locks in E.
    destruct (c_recv x) as [|i it todo] eqn:R; [discriminate|]. apply N.eqb_eq in E. destruct (HO _ _ _ _ _ X R) as (_ & n & SV & ST & CN).
    exists c, n, (iid_of (it_msg it)), id'. repeat split; try assumption. congruence.
Qed.
Lemma at_rest tr s : history tr s ->
  (forall e s' o, cooperative e -> step s e = Some (s', o) -> o = OPending \/ o = OClosed) ->
  idle s \/ exists c n, jammed bk tr s c n.
Proof. intros H R. destruct (progress _ _ H) as [(e & s' & o & C & S & N1 & N2)|K]; [|exact K]. destruct (R _ _ _ C S); contradiction. Qed.
Lemma comes_to_rest tr s : history tr s -> exists tr' s', steps s tr' s' /\ Forall (fun p => cooperative (fst p)) tr' /\
  (idle s' \/ exists c n, jammed bk (tr ++ tr') s' c n).
Proof.
  remember (left_to_do s) as k eqn:Ek. revert tr s Ek. induction k as [k IH] using lt_wf_ind. intros tr s -> H.
  destruct (progress _ _ H) as [(e & s1 & o & C & S & N1 & N2)|K].
  - assert (D : left_to_do s1 < left_to_do s).
    { pose proof (work_step _ _ _ _ S) as W. unfold works in W. cbn [fst snd] in W. destruct e; try destruct C; cbn [brings] in W; destruct o; try congruence; lia. }
    destruct (IH _ D _ _ eq_refl (h_more _ _ _ _ _ _ _ _ H S)) as (tr' & s' & S' & F & K).
    exists ((e, o) :: tr'), s'. split; [eapply s_more; eassumption|]. split; [constructor; assumption|]. rewrite <- app_assoc in K. exact K.
  - exists [], s. rewrite app_nil_r. split; [constructor|]. split; [constructor|exact K].
Qed.

(** ** What has happened then *)
Lemma delivered_stub tr1 s1 tr2 s2 n id c : history tr1 s1 -> served n id tr1 -> steps s1 tr2 s2 -> idle s2 ->
  stub_exists s2 n -> stub_listening s2 n -> conn_runs s2 c ->
  exists more, stub_got n (tr1 ++ tr2) = (stub_got n tr1 ++ stub_backlog s1 n) ++ more /\
    map it_msg (from_conn c more) = map it_msg (for_id id (waiting s1 c)) ++ filter (of_id id) (decoded c tr2).
Proof.
  intros H SV S I E L R. destruct (nothing_lost_stub _ _ _ _ _ _ _ _ _ _ H SV S E L R) as (more & E1 & E2).
  rewrite (stubs_read _ I _ E), app_nil_r in E1. rewrite (all_routed _ I), app_nil_r in E2. exists more. auto.
Qed.
Lemma delivered_proxy tr1 s1 tr2 s2 n id a c : history tr1 s1 -> proxied n id a tr1 -> opened c a (tr1 ++ tr2) -> steps s1 tr2 s2 -> idle s2 ->
  proxy_exists s2 n -> proxy_connected s2 n -> conn_runs s2 c ->
  exists more, from_conn c (proxy_got n (tr1 ++ tr2)) = from_conn c (proxy_got n tr1 ++ proxy_backlog s1 n) ++ more /\
    map it_msg more = map it_msg (for_id id (waiting s1 c)) ++ filter (of_id id) (decoded c tr2).
Proof.
  intros H SV O S I E L R. destruct (nothing_lost_proxy _ _ _ _ _ _ _ _ _ _ _ H SV O S E L R) as (more & E1 & E2).
  rewrite (proxies_read _ I _ E), app_nil_r in E1. rewrite (all_routed _ I), app_nil_r in E2. exists more. auto.
Qed.
Lemma sent_all tr s c : history tr s -> idle s -> conn_runs s c -> sent c tr = map encode (accepted c tr).
Proof.
  intros H I (x & X & A). pose proof (fates _ _ _ _ _ H c) as F. rewrite X in F. cbn in F. rewrite A in F. destruct F as (F1 & _).
  destruct (all_sent _ I _ _ X) as [Q O]. rewrite Q, O in F1. cbn in F1. rewrite app_nil_r in F1. symmetry. exact F1.
Qed.
End Locks.
