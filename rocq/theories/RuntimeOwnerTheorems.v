(** Theorems about who keeps the connections and listeners of the v1 runtime alive, and about what
    [serve], [proxy] and [send_to] return. *)
From Coq Require Import List NArith Bool PeanoNat Lia.
From Verif Require Import BytesModel WireSpec UniverseModel SomeipModel SomeipSpec MapModel EndpointProofs RuntimeModel RuntimeSpec
  RuntimeProofs RuntimeTheorems RuntimePacketTheorems RuntimeSendTheorems RuntimeAddrTheorems
  RuntimeProgressTheorems RuntimeWorkTheorems.
Import ListNotations.
Open Scope nat_scope.

Section Locks.
Context (bk : iid -> N) (cbk : N -> N) (dg : bool).
Notation history := (history bk cbk dg).
Notation step := (step bk cbk).
Notation steps := (steps bk cbk).
Notation run := (run bk cbk).

Ltac cases_in H :=
  repeat (match type of H with
  | context [match ?x with _ => _ end] =>
      lazymatch x with context [match _ with _ => _ end] => fail | _ => destruct x eqn:? end
  end; try discriminate H).
Ltac step_cases H :=
  unfold RuntimeModel.step, step_ep, step_take, step_route, step_stub, i_recv, push_cmd in H; cases_in H;
  injection H as <- <-.
Ltac rcbn := unfold upd_conn, upd_iface, upd_lsnr, upd_stub, upd_proxy, spawn in *;
  cbn [r_open r_datagram r_ep r_listener r_imap r_cmap r_ifaces r_conns r_lsnrs r_stubs r_proxies r_left
       set_ep set_open set_listener set_imap set_cmap set_ifaces set_conns set_lsnrs set_stubs set_proxies set_left
       st_iface st_lst st_conns st_pc st_alive st_with_pc st_with_conns end_stub l_alive l_cmds l_local l_conns l_pc
       l_with_cmds l_with_local l_with_conns l_with_pc end_lsnr new_lsnr px_iface px_conn px_remote px_alive end_proxy] in *.
Ltac split_nth := rcbn;
  repeat match goal with
  | H : nth_error (upd _ _ _) _ = Some _ |- _ => apply upd_is in H; destruct H as [[? H]|[? (? & ? & ?)]]; try subst
  | H : nth_error (_ ++ [_]) _ = Some _ |- _ => apply nth_snoc in H; destruct H as [H|[? ?]]; try subst
  end; rcbn.
Ltac same_nth :=
  repeat match goal with
  | H : nth_error ?l ?n = Some ?x, K : nth_error ?l ?n = Some ?y |- _ =>
      tryif constr_eq x y then fail else (assert (x = y) by congruence; subst y)
  end.

(** ** Owners of connections *)
Lemma strong_owned s c : conn_strong s c = true <-> owned_conn s c.
Proof.
  unfold conn_strong. rewrite !orb_true_iff, !existsb_nth. split.
  - intros [[[(n & t & T & K)|(l & x & X & K)]|(n & p & P & K)]|K].
    + unfold stub_has in K. apply andb_true_iff in K. destruct K as [A K]. apply orb_true_iff in K. destruct K as [K|K].
      * apply holds_value_in in K. destruct K as (a & K). eapply own_stub; eassumption.
      * destruct (st_pc t) eqn:E; try discriminate; apply Nat.eqb_eq in K; subst; [eapply own_opening|eapply own_sending]; eassumption.
    + unfold lsnr_keeps in K. apply andb_true_iff in K. destruct K as [A K]. apply orb_true_iff in K. destruct K as [K|K].
      * apply holds_value_in in K. destruct K as (a & K). eapply own_listener; eassumption.
      * destruct (l_pc x) eqn:E; try discriminate; apply Nat.eqb_eq in K; subst; eapply own_accepting; eassumption.
    + unfold proxy_has in K. apply andb_true_iff in K. destruct K as [A K]. apply Nat.eqb_eq in K. eapply own_proxy; eassumption.
    + destruct (r_ep s) as [| | |o id|o id i] eqn:E; try discriminate; destruct o; cbn in K; try discriminate; apply Nat.eqb_eq in K; subst;
        [eapply own_call|eapply own_call']; eassumption.
  - intros K. destruct K as [n p P A E|n t a T A I|n t a m T A P|n t a m T A P|l x a X A I|l x a X A P|a id E|a id i E].
    + left. right. exists n, p. split; [exact P|]. unfold proxy_has. rewrite A, E, Nat.eqb_refl. reflexivity.
    + left. left. left. exists n, t. split; [exact T|]. unfold stub_has. rewrite A, (proj2 (holds_value_in c _)) by eauto. reflexivity.
    + left. left. left. exists n, t. split; [exact T|]. unfold stub_has. rewrite A, P, Nat.eqb_refl, orb_true_r. reflexivity.
    + left. left. left. exists n, t. split; [exact T|]. unfold stub_has. rewrite A, P, Nat.eqb_refl, orb_true_r. reflexivity.
    + left. left. right. exists l, x. split; [exact X|]. unfold lsnr_keeps. rewrite A, (proj2 (holds_value_in c _)) by eauto. reflexivity.
    + left. left. right. exists l, x. split; [exact X|]. unfold lsnr_keeps. rewrite A, P, Nat.eqb_refl, orb_true_r. reflexivity.
    + right. rewrite E. cbn. apply Nat.eqb_refl.
    + right. rewrite E. cbn. apply Nat.eqb_refl.
Qed.
Lemma live_conn_owned s a c : live_conn s a = Some c -> owned_conn s c.
Proof.
  unfold live_conn. destruct (map_get N.eqb a (r_cmap s)) as [d|]; [|discriminate]. destruct (conn_strong s d) eqn:E; [|discriminate].
  intros F. injection F as <-. apply strong_owned. exact E.
Qed.
Lemma owned_back s e o s' c : step s e = Some (s', o) -> owned_conn s' c -> owned_conn s c \/ exists a, o = OSpawned c a.
Proof.
  intros ST P. destruct e; step_cases ST; destruct P; split_nth; same_nth; try discriminate; try contradiction.
  all: try solve [left; eauto using own_proxy, own_stub, own_opening, own_sending, own_listener, own_accepting, own_call, own_call'].
  all: try match goal with H : In _ (map_insert _ _ _ _) |- _ => apply in_insert in H; destruct H as [H|H]; [injection H as -> ->|] end.
  all: try match goal with H : _ ?x = _ ?y |- _ => progress (injection H as; subst) end.
  all: try solve [right; eexists; reflexivity].
  all: try solve [left; eauto using own_proxy, own_stub, own_opening, own_sending, own_listener, own_accepting, own_call, own_call', live_conn_owned].
  all: try solve [left; apply strong_owned; assumption].
Qed.
Lemma in_snoc' {B} (x : B) l y : In x (l ++ [y]) -> In x l \/ x = y.
Proof. rewrite in_app_iff. cbn. intuition. Qed.
Lemma unowned tr s c : history tr s -> In (EUnowned c, OUnit) tr -> ~ owned_conn s c /\ c < length (r_conns s).
Proof.
  induction 1 as [|tr s e s' o H IH ST]; intros I; [destruct I|]. apply in_snoc' in I. destruct I as [I|I].
  - destruct (IH I) as [N L]. split.
    + intros K. destruct (owned_back _ _ _ _ _ ST K) as [K'|(a & ->)]; [exact (N K')|].
      destruct (nth_error (r_conns s) c) as [x|] eqn:X; [|apply nth_error_None in X; lia].
      step_cases ST; lia.
    + destruct (nth_error (r_conns s) c) as [x|] eqn:X; [|apply nth_error_None in X; lia].
      destruct (conn_later _ _ _ _ _ _ _ (step_view _ _ _ _ _ _ ST) (nth_vc _ _ _ X)) as (x' & X' & _).
      apply nth_lt in X'. cbn in X'. rewrite map_length in X'. exact X'.
  - injection I as <- <-. cbn in ST. destruct (nth_error (r_conns s) c) as [x|] eqn:X; [|discriminate].
    destruct (c_alive x); [|discriminate]. destruct (c_out x); [discriminate|]. destruct (c_cmds x); [|discriminate].
    destruct (conn_strong s c) eqn:E; [discriminate|]. injection ST as <-. split.
    + intros K. assert (K' : owned_conn s c). { destruct K; rcbn; eauto using own_proxy, own_stub, own_opening, own_sending, own_listener, own_accepting, own_call, own_call'. }
      apply strong_owned in K'. congruence.
    + rcbn. rewrite length_upd. eapply nth_lt. exact X.
Qed.

Lemma owned_ended tr s c : history tr s -> owned_conn s c -> ~ conn_runs s c -> ended_by_socket c tr.
Proof.
  intros H K N. assert (O : exists a, opened c a tr).
  { destruct K as [n p P A E|n t a T A I|n t a m T A P|n t a m T A P|l x a X A I|l x a X A P|a id E|a id i E];
    eexists; eapply pointed; try exact H;
    [eapply p_proxy; [exact P|exact E|reflexivity]|eapply p_stub; eassumption|eapply p_share; eassumption|eapply p_hold; eassumption
    |eapply p_lsnr; eassumption|eapply p_accept; eassumption|eapply p_epshare; eassumption|eapply p_eptake; eassumption]. }
  destruct O as (a & O). destruct (why_ended _ _ _ _ _ _ _ H O N) as [E|[E|[E _]]]; [left; exact E|right; exact E|].
  destruct (unowned _ _ _ H E) as [U _]. destruct (U K).
Qed.

(** A stub keeps the last connection it opened to each address. *)
Lemma stubs_stay s e o s' n t : step s e = Some (s', o) -> nth_error (r_stubs s) n = Some t -> exists t', nth_error (r_stubs s') n = Some t'.
Proof.
  intros ST T. destruct (stub_later _ _ _ _ _ _ _ (step_view _ _ _ _ _ _ ST) (nth_vs _ _ _ T)) as (t' & T' & _).
  cbn in T'. apply nth_map in T'. destruct T' as (u & U & _). exists u. exact U.
Qed.
Lemma stub_event tr s n ok o : history tr s -> In (EStub n ok, o) tr -> exists t, nth_error (r_stubs s) n = Some t.
Proof.
  induction 1 as [|tr s e s' o' H IH ST]; intros I; [destruct I|]. apply in_snoc' in I.
  assert (K : exists t, nth_error (r_stubs s) n = Some t).
  { destruct I as [I|I]; [exact (IH I)|]. injection I as <- <-. cbn in ST. destruct (nth_error (r_stubs s) n); [eauto|discriminate]. }
  destruct K as (t & T). eapply stubs_stay; eassumption.
Qed.
Lemma next_snoc n tr x : next_of n (tr ++ [x]) = match next_of n tr with Some y => Some y | None => next_of n [x] end.
Proof. unfold next_of. induction tr as [|y tr IH]; [reflexivity|]. cbn [find app]. destruct (match fst y with EStub k _ | ECancel k _ => k =? n | _ => false end); [reflexivity|exact IH]. Qed.
Definition stub_holds (t : stub) (n c : nat) (a : N) (tr : list (event * obs)) : Prop :=
  (In (a, c) (st_conns t) /\ forall d m, st_pc t <> SShare a d m) \/ ((exists m, st_pc t = SShare a c m) /\ next_of n tr = None).
Lemma stub_keeps tr s : history tr s -> forall n c a tr1 ok tr2, tr = tr1 ++ (EStub n ok, OSpawned c a) :: tr2 ->
  (forall ok' d, ~ In (EStub n ok', OSpawned d a) tr2) -> (forall b o, next_of n tr2 <> Some (ECancel n b, o)) -> stub_exists s n ->
  exists t, nth_error (r_stubs s) n = Some t /\ st_alive t = true /\ stub_holds t n c a tr2.
Proof.
  induction 1 as [|tr s e s' o H IH ST]; intros n c a tr1 ok tr2 E N NX (t' & T' & A').
  - destruct tr1; discriminate E.
  - destruct tr2 as [|q tr2 _] using rev_ind.
    + apply app_inj_tail in E. destruct E as [-> E]. injection E as -> ->. clear IH.
      exists t'. split; [exact T'|]. split; [exact A'|]. right. split; [|reflexivity]. step_cases ST; split_nth; try congruence; eauto.
    + rewrite app_comm_cons, app_assoc in E. apply app_inj_tail in E. destruct E as [E Eq]. subst q.
      assert (Nn : forall ok' d, (e, o) <> (EStub n ok', OSpawned d a)). { intros ok' d F. apply (N ok' d). apply in_app_iff. right. left. exact F. }
      assert (OLD : exists t, nth_error (r_stubs s) n = Some t).
      { eapply stub_event with (ok := ok); [exact H|]. rewrite E. apply in_app_iff. right. left. reflexivity. }
      assert (IH' : forall t, nth_error (r_stubs s) n = Some t -> st_alive t = true -> stub_holds t n c a tr2).
      { intros t T A. destruct (IH _ _ _ _ _ _ E) as (t0 & T0 & _ & K).
        - intros ok' d I. apply (N ok' d). apply in_app_iff. left. exact I.
        - intros b o' K. apply (NX b o'). rewrite next_snoc, K. reflexivity.
        - exists t; split; assumption.
        - assert (t0 = t) by congruence. subst t0. exact K. }
      rewrite next_snoc in NX. clear N E IH. exists t'. split; [exact T'|]. split; [exact A'|].
      assert (KEEP : forall t, nth_error (r_stubs s) n = Some t -> st_alive t = true -> st_conns t' = st_conns t -> st_pc t' = st_pc t ->
        next_of n [(e, o)] = None -> stub_holds t' n c a (tr2 ++ [(e, o)])).
      { intros t T A E1 E2 E3. unfold stub_holds. rewrite E1, E2, next_snoc. destruct (IH' t T A) as [K|[K1 K2]]; [left; exact K|right].
        split; [exact K1|]. rewrite K2. exact E3. }
      assert (DROP : forall t b, nth_error (r_stubs s) n = Some t -> st_alive t = true -> st_conns t' = st_conns t -> st_pc t' = SFree ->
        e = ECancel n b -> stub_holds t' n c a (tr2 ++ [(e, o)])).
      { intros t b T A E1 E2 E3. subst e. left. rewrite E1, E2. destruct (IH' t T A) as [[K _]|[_ K2]]; [split; [exact K|discriminate]|exfalso].
        rewrite K2 in NX. apply (NX b o). unfold next_of. cbn. rewrite Nat.eqb_refl. reflexivity. }
      destruct e; step_cases ST; split_nth; same_nth; try discriminate.
      all: try solve [eapply KEEP; [eassumption|assumption|reflexivity|first [reflexivity|congruence]|first [reflexivity|unfold next_of; cbn;
             match goal with |- context [?k =? ?n] => destruct (Nat.eqb_spec k n); [congruence|reflexivity] end]]].
      all: try solve [exfalso; eapply Nn; reflexivity].
      all: try solve [exfalso; destruct OLD as (t0 & OLD); rewrite nth_length_none in OLD; discriminate OLD].
      all: try solve [eapply DROP; [eassumption|assumption|reflexivity|reflexivity|reflexivity]].
      all: try (match goal with H : nth_error (r_stubs _) _ = Some ?x, A : st_alive ?x = true |- _ =>
             destruct (IH' x H A) as [[K K']|[(mm & K) K2]]; [|try congruence] end).
      all: try solve [left; split; [exact K|discriminate]].
      * left. split; [exact K|]. intros d mm F. injection F as; subst. eapply Nn. reflexivity.
      * left. split; [|discriminate]. right. unfold map_remove. apply filter_In. split; [exact K|]. cbn.
        destruct (N.eqb_spec a0 a) as [->|D]; [|reflexivity]. destruct (K' c0 m). assumption.
      * left. split; [|discriminate]. match goal with H : st_pc _ = SShare a0 _ _ |- _ => rewrite H in K end. injection K as -> -> ->.
        left. reflexivity.
Qed.
Lemma stub_owns tr s n c a : history tr s -> stub_conn n c a tr -> stub_exists s n -> owned_conn s c.
Proof.
  intros H (tr1 & ok & tr2 & E & N & NX) X. destruct (stub_keeps _ _ H _ _ _ _ _ _ E N NX X) as (t & T & A & [[K _]|[(m & K) _]]); [eapply own_stub|eapply own_opening]; eassumption.
Qed.

(** A listener keeps the last connection it accepted from each address. *)
Lemma lsnrs_stay s e o s' n t : step s e = Some (s', o) -> nth_error (r_lsnrs s) n = Some t -> exists t', nth_error (r_lsnrs s') n = Some t'.
Proof.
  intros ST T. assert (L : length (r_lsnrs s) <= length (r_lsnrs s')).
  { step_cases ST; rcbn; rewrite ?app_length, ?length_upd; lia. }
  destruct (nth_error (r_lsnrs s') n) as [t'|] eqn:E; [eauto|]. apply nth_error_None in E. apply nth_lt in T. lia.
Qed.
Lemma lsnr_event tr s l a o : history tr s -> In (EAccept l a, o) tr -> exists t, nth_error (r_lsnrs s) l = Some t.
Proof.
  induction 1 as [|tr s e s' o' H IH ST]; intros I; [destruct I|]. apply in_snoc' in I.
  assert (K : exists t, nth_error (r_lsnrs s) l = Some t).
  { destruct I as [I|I]; [exact (IH I)|]. injection I as <- <-. cbn in ST. destruct (nth_error (r_lsnrs s) l); [eauto|discriminate]. }
  destruct K as (t & T). eapply lsnrs_stay; eassumption.
Qed.
Lemma lsnr_keep tr s l c a : history tr s -> lsnr_conn l c a tr -> lsnr_runs s l ->
  exists x, nth_error (r_lsnrs s) l = Some x /\ l_alive x = true /\
    ((In (a, c) (l_conns x) /\ forall d, l_pc x <> AShare a d) \/ l_pc x = AShare a c).
Proof.
  induction 1 as [|tr s e s' o H IH ST]; intros (tr1 & tr2 & E & N) (t' & T' & A').
  - destruct tr1; discriminate E.
  - destruct tr2 as [|q tr2 _] using rev_ind.
    + apply app_inj_tail in E. destruct E as [-> E]. injection E as -> ->. clear IH.
      exists t'. split; [exact T'|]. split; [exact A'|]. right. step_cases ST; split_nth; try congruence; eauto.
    + rewrite app_comm_cons, app_assoc in E. apply app_inj_tail in E. destruct E as [E Eq]. subst q.
      assert (SC : lsnr_conn l c a tr). { exists tr1, tr2. split; [exact E|]. intros d I. apply (N d). apply in_app_iff. left. exact I. }
      assert (Nn : forall d, (e, o) <> (EAccept l a, OSpawned d a)). { intros d F. apply (N d). apply in_app_iff. right. left. exact F. }
      assert (OLD : exists t, nth_error (r_lsnrs s) l = Some t).
      { eapply lsnr_event with (a := a); [exact H|]. rewrite E. apply in_app_iff. right. left. reflexivity. }
      clear N E. exists t'. split; [exact T'|]. split; [exact A'|].
      assert (IH' : forall t, nth_error (r_lsnrs s) l = Some t -> l_alive t = true ->
        (In (a, c) (l_conns t) /\ forall d, l_pc t <> AShare a d) \/ l_pc t = AShare a c).
      { intros t T A. destruct (IH SC) as (t0 & T0 & _ & K); [exists t; split; assumption|]. assert (t0 = t) by congruence. subst t0. exact K. }
      clear IH. destruct e; step_cases ST; split_nth; same_nth; try solve [eapply IH'; eassumption]; try discriminate.
      all: try solve [exfalso; eapply Nn; reflexivity].
      all: try solve [exfalso; destruct OLD as (t0 & OLD); rewrite nth_length_none in OLD; discriminate OLD].
      all: try (match goal with H : nth_error (r_lsnrs _) _ = Some ?x, A : l_alive ?x = true |- _ =>
             destruct (IH' x H A) as [[K K']|K]; [|try congruence] end).
      all: try solve [left; split; [exact K|discriminate]].
      * left. split; [exact K|]. intros d F. injection F as; subst. eapply Nn. reflexivity.
      * left. split; [|discriminate]. right. unfold map_remove. apply filter_In. split; [exact K|]. cbn.
        destruct (N.eqb_spec a0 a) as [->|D]; [|reflexivity]. destruct (K' c0). assumption.
      * left. split; [|discriminate]. match goal with H : l_pc _ = AShare a0 _ |- _ => rewrite H in K end. injection K as -> ->.
        left. reflexivity.
Qed.
Lemma lsnr_owns tr s l c a : history tr s -> lsnr_conn l c a tr -> lsnr_runs s l -> owned_conn s c.
Proof.
  intros H C X. destruct (lsnr_keep _ _ _ _ _ H C X) as (t & T & A & [[K _]|K]); [eapply own_listener|eapply own_accepting]; eassumption.
Qed.
Lemma used_owned tr s c : history tr s -> used_conn s tr c -> owned_conn s c.
Proof.
  intros H [(n & p & P & A & E)|[(n & a & X & C)|(l & a & X & C)]].
  - eapply own_proxy; eassumption.
  - eapply stub_owns; eassumption.
  - eapply lsnr_owns; eassumption.
Qed.
Theorem used_conn_ended tr s c : history tr s -> used_conn s tr c -> ~ conn_runs s c -> ended_by_socket c tr.
Proof. intros H U N. eapply owned_ended; [exact H|eapply used_owned; eassumption|exact N]. Qed.

(** ** Owners of listeners *)
Inductive lowned (s : rt) (l : nat) : Prop :=
| lo_stub n t : nth_error (r_stubs s) n = Some t -> st_alive t = true -> st_lst t = l -> lowned s l
| lo_share id : r_ep s = EpShare (OwnListener l) id -> lowned s l
| lo_take id i : r_ep s = EpTake (OwnListener l) id i -> lowned s l.
Lemma lstrong_owned s l : lsnr_strong s l = true <-> lowned s l.
Proof.
  unfold lsnr_strong. rewrite orb_true_iff, existsb_nth. split.
  - intros [(n & t & T & K)|K].
    + apply andb_true_iff in K. destruct K as [A K]. apply Nat.eqb_eq in K. eapply lo_stub; eassumption.
    + destruct (r_ep s) as [| | |o id|o id i] eqn:E; try discriminate; destruct o; cbn in K; try discriminate; apply Nat.eqb_eq in K; subst;
        [eapply lo_share|eapply lo_take]; eassumption.
  - intros [n t T A E|id E|id i E].
    + left. exists n, t. split; [exact T|]. rewrite A, E, Nat.eqb_refl. reflexivity.
    + right. rewrite E. cbn. apply Nat.eqb_refl.
    + right. rewrite E. cbn. apply Nat.eqb_refl.
Qed.
Lemma live_lsnr_owned s l : live_lsnr s = Some l -> lowned s l.
Proof.
  unfold live_lsnr. destruct (r_listener s) as [k|]; [|discriminate]. destruct (lsnr_strong s k) eqn:E; [|discriminate].
  intros F. injection F as <-. apply lstrong_owned. exact E.
Qed.
Lemma lowned_back s e o s' l : step s e = Some (s', o) -> lowned s' l -> lowned s l \/ l = length (r_lsnrs s).
Proof.
  intros ST P. destruct e; step_cases ST; destruct P; split_nth; same_nth; try discriminate; try contradiction.
  all: try solve [left; eauto using lo_stub, lo_share, lo_take].
  all: try match goal with H : _ ?x = _ ?y |- _ => progress (injection H as; subst) end.
  all: try solve [right; reflexivity].
  all: try solve [left; eauto using lo_stub, lo_share, lo_take, live_lsnr_owned].
Qed.
Lemma lunowned tr s l : history tr s -> In (EUnowned_listener l, OUnit) tr -> ~ lowned s l /\ l < length (r_lsnrs s).
Proof.
  induction 1 as [|tr s e s' o H IH ST]; intros I; [destruct I|]. apply in_snoc' in I. destruct I as [I|I].
  - destruct (IH I) as [N L]. split.
    + intros K. destruct (lowned_back _ _ _ _ _ ST K) as [K'| ->]; [exact (N K')|lia].
    + destruct (nth_error (r_lsnrs s) l) as [x|] eqn:X; [|apply nth_error_None in X; lia].
      destruct (lsnrs_stay _ _ _ _ _ _ ST X) as (x' & X'). apply nth_lt in X'. exact X'.
  - injection I as <- <-. cbn in ST. destruct (nth_error (r_lsnrs s) l) as [x|] eqn:X; [|discriminate].
    destruct (l_alive x); [|discriminate]. destruct (l_cmds x); [|discriminate].
    destruct (lsnr_strong s l) eqn:E; [discriminate|]. injection ST as <-. split.
    + intros K. assert (K' : lowned s l) by (destruct K; rcbn; eauto using lo_stub, lo_share, lo_take).
      apply lstrong_owned in K'. congruence.
    + rcbn. rewrite length_upd. eapply nth_lt. exact X.
Qed.
Lemma lsnr_why_ended tr s l x : history tr s -> nth_error (r_lsnrs s) l = Some x -> l_alive x = false ->
  In (EAcceptEnd l, OUnit) tr \/ In (EUnowned_listener l, OUnit) tr.
Proof.
  intros H. revert x. induction H as [|tr s e s' o H IH ST]; intros x X A; [destruct l; discriminate X|].
  assert (K : (exists y, nth_error (r_lsnrs s) l = Some y /\ l_alive y = false) \/ e = EAcceptEnd l /\ o = OUnit \/ e = EUnowned_listener l /\ o = OUnit).
  { destruct e; step_cases ST; split_nth; same_nth; try congruence; eauto. all: try discriminate. }
  destruct K as [(y & Y & B)|[[-> ->]|[-> ->]]].
  - destruct (IH y Y B) as [I|I]; [left|right]; apply in_app_iff; left; exact I.
  - left. apply in_app_iff. right. left. reflexivity.
  - right. apply in_app_iff. right. left. reflexivity.
Qed.
Lemma lowned_ended tr s l : history tr s -> lowned s l -> ~ lsnr_runs s l -> l < length (r_lsnrs s) -> In (EAcceptEnd l, OUnit) tr.
Proof.
  intros H K N L. destruct (nth_error (r_lsnrs s) l) as [x|] eqn:X; [|apply nth_error_None in X; lia].
  destruct (l_alive x) eqn:A; [destruct N; exists x; auto|].
  destruct (lsnr_why_ended _ _ _ _ H X A) as [I|I]; [exact I|]. destruct (lunowned _ _ _ H I) as [U _]. destruct (U K).
Qed.
Lemma stub_lsnr_old tr s n t : history tr s -> nth_error (r_stubs s) n = Some t -> st_lst t < length (r_lsnrs s).
Proof.
  intros H T. pose proof (history_inv _ _ _ _ _ H) as V. pose proof (v_lst _ (in4 _ _ _ V) _ _ (nth_vs _ _ _ T)) as L.
  cbn in L. rewrite map_length in L. exact L.
Qed.
Theorem listener_ended tr s n t : history tr s -> nth_error (r_stubs s) n = Some t -> st_alive t = true -> ~ stub_listening s n ->
  In (EAcceptEnd (st_lst t), OUnit) tr.
Proof.
  intros H T A N. eapply lowned_ended; [exact H|eapply lo_stub; [exact T|exact A|reflexivity]| |eapply stub_lsnr_old; eassumption].
  intros (x & X & B). apply N. exists t, x. auto.
Qed.

(** ** Nothing is left running *)
Definition gone (s : rt) : Prop := r_ep s = EpWait /\ (forall n, ~ stub_exists s n) /\ (forall n, ~ proxy_exists s n).
Lemma gone_step s e s' o : gone s -> winding_down e -> step s e = Some (s', o) -> gone s'.
Proof.
  intros (E & S & P) W ST. assert (K : r_ep s' = r_ep s /\ r_stubs s' = r_stubs s /\ r_proxies s' = r_proxies s).
  { destruct e; try destruct W; step_cases ST; auto. }
  destruct K as (K1 & K2 & K3). unfold gone, stub_exists, proxy_exists. rewrite K1, K2, K3. auto.
Qed.
Lemma winding_works e : winding_down e -> brings e = None.
Proof. destruct e; cbn; try contradiction; reflexivity. Qed.
Lemma winding_obs s e s' o : winding_down e -> step s e = Some (s', o) -> works (e, o) = true.
Proof. intros W ST. destruct e; try destruct W; step_cases ST; reflexivity. Qed.
Lemma gone_next s : gone s -> ((forall c, ~ conn_runs s c) /\ (forall l, ~ lsnr_runs s l)) \/
  exists e s' o, winding_down e /\ step s e = Some (s', o).
Proof.
  intros (E & S & P). destruct (existsb l_alive (r_lsnrs s)) eqn:L.
  - apply existsb_nth in L. destruct L as (l & x & X & A). right. destruct (l_cmds x) as [|[id i] q] eqn:Q.
    + exists (EUnowned_listener l). cbn. rewrite X, A, Q. destruct (lsnr_strong s l) eqn:K; [|do 2 eexists; split; [exact I|reflexivity]].
      apply lstrong_owned in K. destruct K as [n t T B _|id K|id i K]; [|congruence..]. destruct (S n). exists t. auto.
    + exists (EListener l). cbn. rewrite X, A, Q. do 2 eexists. split; [exact I|reflexivity].
  - assert (L' : forall l, ~ lsnr_runs s l). { intros l (x & X & A). rewrite (existsb_nth_false _ _ _ _ L X) in A. discriminate. }
    destruct (existsb c_alive (r_conns s)) eqn:C.
    + apply existsb_nth in C. destruct C as (c & x & X & A). right. destruct (c_out x) as [bs|] eqn:O.
      * exists (ESocket c true). cbn. rewrite X, A, O. do 2 eexists. split; [exact I|reflexivity].
      * destruct (c_cmds x) as [|[m|id i] q] eqn:Q.
        -- exists (EUnowned c). cbn. rewrite X, A, O, Q. destruct (conn_strong s c) eqn:K; [|do 2 eexists; split; [exact I|reflexivity]].
           exfalso. apply strong_owned in K.
           destruct K as [n p Pn B _|n t a T B _|n t a m T B _|n t a m T B _|l y a Y B _|l y a Y B _|a id K|a id i K]; try congruence.
           ++ apply (P n). exists p. auto.
           ++ apply (S n). exists t. auto.
           ++ apply (S n). exists t. auto.
           ++ apply (S n). exists t. auto.
           ++ apply (L' l). exists y. auto.
           ++ apply (L' l). exists y. auto.
        -- exists (ESender c). cbn. rewrite X, A, O, Q. do 2 eexists. split; [exact I|reflexivity].
        -- exists (ESender c). cbn. rewrite X, A, O, Q. do 2 eexists. split; [exact I|reflexivity].
    + left. split; [|exact L']. intros c (x & X & A). rewrite (existsb_nth_false _ _ _ _ C X) in A. discriminate.
Qed.
Lemma wind_down k : forall s, left_to_do s <= k -> gone s -> exists tr' s', steps s tr' s' /\ Forall (fun p => winding_down (fst p)) tr' /\
  (forall c, ~ conn_runs s' c) /\ (forall l, ~ lsnr_runs s' l).
Proof.
  induction k as [|k IH]; intros s L G; (destruct (gone_next s G) as [[C N]|(e & s' & o & W & ST)]; [exists [], s; split; [apply s_none|]; split; [constructor|]; auto|]).
  - pose proof (work_step bk cbk _ _ _ _ ST) as K. rewrite (winding_works e W), (winding_obs _ _ _ _ W ST) in K. lia.
  - pose proof (work_step bk cbk _ _ _ _ ST) as K. rewrite (winding_works e W), (winding_obs _ _ _ _ W ST) in K.
    destruct (IH s') as (tr' & s2 & R & F & Q); [lia|eapply gone_step; eassumption|].
    exists ((e, o) :: tr'), s2. split; [eapply s_more; eassumption|]. split; [constructor; assumption|exact Q].
Qed.
Lemma dead_stays s e o s' c : step s e = Some (s', o) -> c < length (r_conns s) -> ~ conn_runs s c -> ~ conn_runs s' c.
Proof.
  intros ST L N (x' & X' & A'). destruct (nth_error (r_conns s) c) as [x|] eqn:X; [|apply nth_error_None in X; lia].
  pose proof (alive_back _ _ _ _ _ _ _ _ (step_view _ _ _ _ _ _ ST) (nth_vc _ _ _ X) (nth_vc _ _ _ X') A') as A. apply N. exists x. auto.
Qed.
Lemma conns_stay s e o s' c : step s e = Some (s', o) -> c < length (r_conns s) -> c < length (r_conns s').
Proof.
  intros ST L. destruct (nth_error (r_conns s) c) as [x|] eqn:X; [|apply nth_error_None in X; lia].
  destruct (conn_later _ _ _ _ _ _ _ (step_view _ _ _ _ _ _ ST) (nth_vc _ _ _ X)) as (x' & X' & _).
  apply nth_lt in X'. cbn in X'. rewrite map_length in X'. exact X'.
Qed.
Lemma end_dead tr s c : history tr s -> In (EEnd c, OUnit) tr -> c < length (r_conns s) /\ ~ conn_runs s c.
Proof.
  induction 1 as [|tr s e s' o H IH ST]; intros I; [destruct I|]. apply in_snoc' in I. destruct I as [I|I].
  - destruct (IH I) as [L N]. split; [eapply conns_stay; eassumption|eapply dead_stays; eassumption].
  - injection I as <- <-. cbn in ST. destruct (nth_error (r_conns s) c) as [x|] eqn:X; [|discriminate].
    destruct (c_alive x) eqn:A; [|discriminate]. destruct (c_recv x) as [[|]|]; try discriminate. injection ST as <-.
    unfold conn_runs. rcbn. rewrite length_upd. split; [eapply nth_lt; exact X|]. rewrite nth_upd_same, X. intros (y & Y & B). injection Y as <-. discriminate B.
Qed.
Theorem nothing_left tr s : history tr s -> r_ep s = EpWait -> (forall n, ~ stub_exists s n) -> (forall n, ~ proxy_exists s n) ->
  exists tr' s', steps s tr' s' /\ Forall (fun p => winding_down (fst p)) tr' /\
    (forall c, ~ conn_runs s' c) /\ (forall l, ~ lsnr_runs s' l) /\
    (forall c, conn_runs s c -> sent c (tr ++ tr') = map encode (accepted c tr)).
Proof.
  intros H E S P. destruct (wind_down (left_to_do s) s (le_n _)) as (tr' & s' & R & F & C & L); [repeat split; assumption|].
  exists tr', s'. split; [exact R|]. split; [exact F|]. split; [exact C|]. split; [exact L|].
  intros c (x & X & A). pose proof (steps_history _ _ _ _ _ _ _ H R) as H'.
  rewrite Forall_forall in F.
  assert (O : exists a, opened c a tr). { exists (c_addr x). pose proof (history_inv _ _ _ _ _ H) as V. exact (v_opened _ _ (in5 _ _ _ V) _ _ (nth_vc _ _ _ X)). }
  destruct O as (a & e & O).
  assert (AC : accepted c tr' = []).
  { destruct (accepted c tr') as [|m r] eqn:Q; [reflexivity|exfalso]. assert (I : In m (accepted c tr')) by (rewrite Q; left; reflexivity).
    unfold accepted in I. apply in_flat_map in I. destruct I as ([e1 o1] & I1 & I2). cbn in I2. destruct o1; try destruct I2.
    destruct (in_split _ _ I1) as (t1 & t2 & Et). subst tr'.
    destruct (history_split _ _ _ _ _ H' (tr ++ t1 ++ [(e1, OOk c0 m0)]) t2) as (s1 & H1 & _); [rewrite <- !app_assoc; reflexivity|].
    rewrite app_assoc in H1. destruct (only_sends _ _ _ _ _ _ _ _ H1) as [(n & ok & ->)|(n & ->)]; exact (F _ I1). }
  destruct (why_ended _ _ _ _ _ c a H') as [I|[(bs & I)|[_ Q]]].
  - exists e. apply in_app_iff. left. exact O.
  - exact (C c).
  - exfalso. apply in_app_iff in I. destruct I as [I|I]; [|exact (F _ I)]. destruct (end_dead _ _ _ H I) as [_ N]. apply N. exists x. auto.
  - exfalso. apply in_app_iff in I. destruct I as [I|I]; [|exact (F _ I)].
    destruct (in_split _ _ I) as (t1 & t2 & Et). rewrite Et in H. destruct (after_refusal _ _ _ _ _ _ _ _ H) as [N _]. apply N. exists x. auto.
  - rewrite Q. unfold accepted at 1. rewrite flat_map_app. fold (accepted c tr). fold (accepted c tr'). rewrite AC, app_nil_r. reflexivity.
Qed.
End Locks.
