(** Theorems about calls of the v1 runtime whose futures are dropped before they return. *)
From Coq Require Import Permutation List NArith Bool PeanoNat Lia Wf_nat.
From Verif Require Import BytesModel WireSpec UniverseModel SomeipModel SomeipSpec MapModel EndpointProofs RuntimeModel RuntimeSpec
  RuntimeProofs RuntimeTheorems RuntimePacketTheorems RuntimeSendTheorems RuntimeAddrTheorems
  RuntimeProgressTheorems RuntimeWorkTheorems RuntimeOwnerTheorems.
Import ListNotations.
Open Scope nat_scope.

Section Locks.
Context (bk : iid -> N) (cbk : N -> N) (dg : bool).
Notation history := (history bk cbk dg).
Notation step := (step bk cbk).
Notation steps := (steps bk cbk).

Ltac cases_in H :=
  repeat (match type of H with
  | context [match ?x with _ => _ end] =>
      lazymatch x with context [match _ with _ => _ end] => fail | _ => destruct x eqn:? end
  end; try discriminate H).
Ltac step_cases H :=
  unfold RuntimeModel.step, step_ep, step_take, step_route, step_stub, i_recv, push_cmd in H; cases_in H;
  injection H as <- <-.
Ltac rcbn := unfold upd_conn, upd_iface, upd_lsnr, upd_stub, upd_proxy, spawn in *;
  cbn [r_open r_datagram r_ep r_listener r_imap r_cmap r_ifaces r_conns r_lsnrs r_stubs r_proxies r_left
       set_ep set_open set_listener set_imap set_cmap set_ifaces set_conns set_lsnrs set_stubs set_proxies set_left
       st_iface st_lst st_conns st_pc st_alive st_with_pc st_with_conns end_stub l_alive l_cmds l_local l_conns l_pc
       l_with_cmds l_with_local l_with_conns l_with_pc end_lsnr new_lsnr px_iface px_conn px_remote px_alive end_proxy] in *.
Ltac split_nth := rcbn;
  repeat match goal with
  | H : nth_error (upd _ _ _) _ = Some _ |- _ => apply upd_is in H; destruct H as [[? H]|[? (? & ? & ?)]]; try subst
  | H : nth_error (_ ++ [_]) _ = Some _ |- _ => apply nth_snoc in H; destruct H as [H|[? ?]]; try subst
  end; rcbn.
Ltac same_nth :=
  repeat match goal with
  | H : nth_error ?l ?n = Some ?x, K : nth_error ?l ?n = Some ?y |- _ =>
      tryif constr_eq x y then fail else (assert (x = y) by congruence; subst y)
  end.

(** ** A [send_to] that is dropped *)
Lemma dropped s n b : stub_exists s n -> busy s n ->
  exists s', step s (ECancel n b) = Some (s', OUnit) /\ ~ busy s' n /\ stub_exists s' n /\
    r_conns s' = r_conns s /\ r_lsnrs s' = r_lsnrs s /\ r_ifaces s' = r_ifaces s /\ r_proxies s' = r_proxies s /\
    r_imap s' = r_imap s /\ r_cmap s' = r_cmap s /\ r_ep s' = r_ep s /\
    (forall k, k <> n -> nth_error (r_stubs s') k = nth_error (r_stubs s) k) /\
    (forall c, owned_conn s' c -> owned_conn s c) /\
    stub_backlog s' n = stub_backlog s n /\
    (forall a m, exists s1, step s' (ESendTo n a m) = Some (s1, OUnit)).
Proof.
  intros (t & T & A) (t' & T' & P). assert (t' = t) by congruence. subst t'.
  assert (G : forall s', (r_stubs s' = upd n (st_with_pc SFree) (r_stubs s) /\ r_ifaces s' = r_ifaces s) ->
    (forall k, k <> n -> nth_error (r_stubs s') k = nth_error (r_stubs s) k) /\
    ~ busy s' n /\ stub_exists s' n /\ stub_backlog s' n = stub_backlog s n /\ (forall a m, exists s1, step s' (ESendTo n a m) = Some (s1, OUnit))).
  { intros s' [E F]. assert (T1 : nth_error (r_stubs s') n = Some (st_with_pc SFree t)) by (rewrite E, nth_upd_same, T; reflexivity).
    split; [intros k D; rewrite E; apply nth_upd_other; exact D|].
    split; [intros (u & U & Q); rewrite T1 in U; injection U as <-; exact (Q eq_refl)|].
    split; [exists (st_with_pc SFree t); split; [exact T1|exact A]|].
    split; [unfold stub_backlog; rewrite T1, T, F; reflexivity|].
    intros a m. cbn. rewrite T1. cbn. rewrite A. eauto. }
  cbn. rewrite T, A. destruct (st_pc t) eqn:E; [destruct (P eq_refl)| | | | |]; (eexists; split; [reflexivity|]).
  2: destruct b.
  all: match goal with |- ~ busy ?s' _ /\ _ => destruct (G s') as (G0 & G1 & G2 & G3 & G4); [split; reflexivity|] end.
  all: split; [exact G1|split; [exact G2|]]; do 7 (split; [reflexivity|]); split; [exact G0|].
  all: split; [|split; [exact G3|exact G4]].
  all: intros c' K; destruct K; split_nth; same_nth; eauto using own_proxy, own_stub, own_opening, own_sending, own_listener, own_accepting, own_call, own_call'; discriminate.
Qed.

(** ** Only a call that is not dropped sends *)
Definition open_call (n : nat) (a : N) (m : msg) (tr : list (event * obs)) : Prop :=
  exists t1 t2, tr = t1 ++ (ESendTo n a m, OUnit) :: t2 /\ Forall (fun p => ~ call_over n p) t2.
Lemma open_call_snoc n a m tr p : open_call n a m tr -> ~ call_over n p -> open_call n a m (tr ++ [p]).
Proof.
  intros (t1 & t2 & -> & F) N. exists t1, (t2 ++ [p]). rewrite <- app_assoc. split; [reflexivity|]. apply Forall_app. auto.
Qed.
Lemma sending_open tr s : history tr s -> forall n t a m, nth_error (r_stubs s) n = Some t -> sending (st_pc t) = Some (a, m) -> open_call n a m tr.
Proof.
  induction 1 as [|tr s e s' o H IH ST]; intros n t a m T Q; [destruct n; discriminate T|].
  destruct e; step_cases ST; split_nth; same_nth; try discriminate.
  all: try solve [apply open_call_snoc; [eapply IH; eassumption|cbn; congruence]].
  all: try solve [apply open_call_snoc; [eapply IH; [eassumption|match goal with H : st_pc _ = _ |- _ => rewrite H end; exact Q]|cbn; tauto]].
  injection Q as -> ->. exists tr, []. split; [reflexivity|constructor].
Qed.
Lemma sent_by tr n ok c m s : history (tr ++ [(EStub n ok, OOk c m)]) s ->
  exists a t1 t2, tr = t1 ++ (ESendTo n a m, OUnit) :: t2 /\ (forall p, In p t2 -> ~ call_over n p) /\ opened c a tr.
Proof.
  intros H. inversion H as [E|tr' s0 e s' o H0 ST E]; [destruct tr; discriminate E|]. apply app_inj_tail in E. destruct E as [-> E]. injection E as -> ->.
  subst s'. cbn in ST. destruct (nth_error (r_stubs s0) n) as [t|] eqn:T; [|discriminate]. destruct (st_alive t); [|discriminate].
  unfold step_stub in ST. destruct (st_pc t) as [|a m0|a m0|a d m0|a m0|a d m0] eqn:P; try discriminate.
  all: unfold push_cmd in ST; cases_in ST. injection ST as _ -> ->.
  destruct (sending_open _ _ H0 _ _ a m T) as (t1 & t2 & -> & F); [rewrite P; reflexivity|].
  exists a, t1, t2. split; [reflexivity|]. split; [apply Forall_forall; exact F|].
  eapply pointed; [exact H0|]. eapply p_hold; [exact T|exact P].
Qed.

(** ** Dropping calls is the way out *)
Lemma cancel_works s n s' o : step s (ECancel n false) = Some (s', o) -> left_to_do s' < left_to_do s.
Proof.
  intros ST. pose proof (work_step _ _ _ _ _ _ ST) as W. assert (o = OUnit) by (step_cases ST; reflexivity). subst o. cbn in W. lia.
Qed.
Lemma in_dec_coop e : cooperative e \/ ~ cooperative e.
Proof. destruct e; try destruct ok; cbn; tauto. Qed.
Lemma steps_app s t1 s1 : steps s t1 s1 -> forall t2 s2, steps s1 t2 s2 -> steps s (t1 ++ t2) s2.
Proof. induction 1 as [s|s e o s1 tr s2 ST S IH]; intros t2 s3 S2; [exact S2|]. cbn. eapply s_more; [exact ST|]. apply IH. exact S2. Qed.
Lemma split_after {A} (x y : A) t2 : forall t1 u v, t1 ++ x :: t2 = u ++ y :: v -> ~ In y t1 ->
  (u = t1 /\ y = x) \/ exists w, u = t1 ++ x :: w /\ t2 = w ++ y :: v.
Proof.
  induction t1 as [|z t1 IH]; intros u v E N; destruct u as [|z' u]; cbn in E.
  - injection E as -> _. left. auto.
  - injection E as <- ->. right. exists u. auto.
  - injection E as -> _. destruct N. left. reflexivity.
  - injection E as <- E. destruct (IH _ _ E) as [[-> ->]|(w & -> & ->)]; [intros I; apply N; right; exact I|left; auto|right; exists w; auto].
Qed.
Lemma way_out tr s : history tr s -> exists tr' s', steps s tr' s' /\ idle s' /\
  (forall t1 e o t2, tr' = t1 ++ (e, o) :: t2 -> cooperative e \/
     exists n s1 c, e = ECancel n false /\ steps s t1 s1 /\ jammed bk (tr ++ t1) s1 c n).
Proof.
  remember (left_to_do s) as k eqn:Ek. revert tr s Ek. induction k as [k IH] using lt_wf_ind. intros tr s -> H.
  destruct (comes_to_rest _ _ _ _ _ H) as (t1 & s1 & S1 & F1 & [I|(c & n & J)]).
  - exists t1, s1. split; [exact S1|]. split; [exact I|]. intros u e o v ->. left. rewrite Forall_forall in F1. apply (F1 (e, o)). apply in_app_iff. right. left. reflexivity.
  - pose proof (steps_history _ _ _ _ _ _ _ H S1) as H1. pose proof J as (id & id' & _ & (x & t & it & todo & _ & _ & _ & _ & X & _) & (t' & a & m & T' & P) & _).
    destruct (dropped s1 n false X) as (s2 & S2 & _); [exists t'; split; [exact T'|congruence]|].
    assert (D : left_to_do s2 < left_to_do s).
    { apply cancel_works in S2. pose proof (work_bound _ _ _ _ _ S1) as W.
      assert (B : brought t1 = 0). { clear -F1. induction F1 as [|[e o] l C F IH]; [reflexivity|]. rewrite brought_cons, IH. cbn in C. destruct e; try destruct C; reflexivity. }
      lia. }
    destruct (IH _ D _ _ eq_refl (h_more _ _ _ _ _ _ _ _ H1 S2)) as (t2 & s3 & S3 & I & F2).
    exists (t1 ++ (ECancel n false, OUnit) :: t2), s3. split; [eapply steps_app; [exact S1|]; eapply s_more; eassumption|]. split; [exact I|].
    intros u e o v E. destruct (in_dec_coop e) as [C|C]; [left; exact C|right].
    destruct (split_after _ _ _ _ _ _ E) as [[-> Y]|(w & -> & ->)].
    + intros K. apply C. rewrite Forall_forall in F1. exact (F1 _ K).
    + injection Y as -> ->. exists n, s1, c. auto.
    + destruct (F2 _ _ _ _ eq_refl) as [C'|(n' & s4 & c' & -> & S4 & J4)]; [contradiction|]. exists n', s4, c'. split; [reflexivity|]. split.
      * eapply steps_app; [exact S1|]. eapply s_more; eassumption.
      * rewrite <- !app_assoc in J4. exact J4.
Qed.

(** ** What a dropped call leaves behind *)
Lemma left_connect tr s : history tr s -> forall a, In (KConnect a) (r_left s) ->
  exists t1 n m t2, tr = t1 ++ (ECancel n true, OUnit) :: t2 /\ last_send_to n t1 = Some (a, m).
Proof.
  assert (W : forall t1 (x : event * obs) t2 e, (t1 ++ x :: t2) ++ [e] = t1 ++ x :: t2 ++ [e]) by (intros; rewrite <- app_assoc; reflexivity).
  induction 1 as [|tr s e s' o H IH ST]; intros a I; [destruct I|].
  assert (K : In (KConnect a) (r_left s) -> exists t1 n m t2, tr ++ [(e, o)] = t1 ++ (ECancel n true, OUnit) :: t2 /\ last_send_to n t1 = Some (a, m)).
  { intros J. destruct (IH _ J) as (t1 & n & m & t2 & -> & L). exists t1, n, m, (t2 ++ [(e, o)]). split; [apply W|exact L]. }
  destruct e; try (apply K; step_cases ST; rcbn; exact I).
  - apply K. step_cases ST. rcbn. apply in_app_iff in I. destruct I as [I|[I|[]]]; [exact I|discriminate I].
  - apply K. step_cases ST; rcbn; exact (in_drop_nth _ _ _ I).
  - cbn in ST. destruct (nth_error (r_stubs s) n) as [t|] eqn:T; [|discriminate]. destruct (st_alive t); [|discriminate].
    destruct (st_pc t) eqn:P; try discriminate; injection ST as <- <-; try (apply K; exact I).
    destruct sent; [|apply K; exact I]. rcbn. apply in_app_iff in I. destruct I as [I|[I|[]]]; [apply K; exact I|]. injection I as ->.
    exists tr, n, m, []. split; [reflexivity|]. eapply sending_is; [exact H|exact T|]. rewrite P. reflexivity.
Qed.
Lemma not_yet tr s e : history tr s -> forall c m, c >= length (r_conns s) -> ~ In (e, OOk c m) tr.
Proof.
  intros H c m L I. assert (exists a, opened c a tr) as (a & O).
  { apply in_split in I. destruct I as (t1 & t2 & ->). destruct (history_split _ _ _ _ _ H t1 ((e, OOk c m) :: t2) eq_refl) as (s0 & H0 & S0).
    inversion S0 as [|? ? ? s1 ? ? ST S1]; subst. pose proof (h_more _ _ _ _ _ _ _ _ H0 ST) as H1.
    assert (G : exists a, opened c a t1).
    { destruct (only_sends _ _ _ _ _ _ _ _ H1) as [(n & ok & ->)|(n & ->)].
      - destruct (stub_sends _ _ _ _ _ _ _ _ _ H1) as (a & _ & O). eauto.
      - destruct (proxy_sends _ _ _ _ _ _ _ _ _ H1) as (_ & id & a & _ & O). eauto. }
    destruct G as (a & f & O). exists a, f. apply in_app_iff. left. exact O. }
  destruct (opened_is _ _ _ _ _ _ _ H O) as (x & X & _). apply nth_lt in X. lia.
Qed.
Lemma pushed_owned s e o s' c x x' : step s e = Some (s', o) -> nth_error (r_conns s) c = Some x -> nth_error (r_conns s') c = Some x' ->
  c_cmds x = [] -> c_out x = None -> (c_cmds x' = [] /\ c_out x' = None) \/ owned_conn s c.
Proof.
  intros ST X X' Q O. destruct e; step_cases ST; split_nth; same_nth; try solve [left; split; assumption]; try congruence.
  all: cbn; try solve [left; split; assumption]; try solve [left; auto]; try solve [right; eauto using own_proxy, own_sending, own_call'].
Qed.
(** A connection the endpoint opens for a [send_to] that was dropped belongs to nobody and carries nothing. *)
Lemma orphan tr s : history tr s -> forall k ok c a, In (ETake k ok, OSpawned c a) tr -> c < length (r_conns s) /\ ~ owned_conn s c /\ accepted c tr = [] /\
  forall x, nth_error (r_conns s) c = Some x -> c_cmds x = [] /\ c_out x = None.
Proof.
  induction 1 as [|tr s e s' o H IH ST]; intros k ok c a I; [destruct I|]. apply in_snoc' in I. destruct I as [I|I].
  - destruct (IH _ _ _ _ I) as (L & N & A & B). split; [eapply conns_stay; eassumption|]. split; [|split].
    + intros K. destruct (owned_back _ _ _ _ _ _ _ ST K) as [K'|(b & ->)]; [exact (N K')|].
      clear -ST L. destruct (nth_error (r_conns s) c) as [x|] eqn:X; [|apply nth_error_None in X; lia]. step_cases ST; lia.
    + rewrite accepted_snoc, A. destruct o as [| | | | | | | |d m'| | | | | | |]; try reflexivity. destruct (Nat.eqb_spec d c) as [->|]; [|reflexivity]. exfalso. apply N.
      clear -ST. destruct e; step_cases ST; eauto using own_proxy, own_sending.
    + intros x' X'. destruct (nth_error (r_conns s) c) as [x|] eqn:X; [|apply nth_error_None in X; lia].
      destruct (B _ eq_refl) as [B1 B2]. destruct (pushed_owned _ _ _ _ _ _ _ ST X X' B1 B2) as [K|K]; [exact K|destruct (N K)].
  - injection I as <- <-. cbn in ST. unfold step_take in ST. cbn in ST. cases_in ST. injection ST as <- <- <-. rcbn. rewrite app_length. cbn. split; [lia|]. split; [|split].
    + intros K. assert (K' : owned_conn s (length (r_conns s))).
      { destruct K; rcbn; eauto using own_proxy, own_stub, own_opening, own_sending, own_listener, own_accepting, own_call, own_call'. }
      clear K. assert (O : exists b, opened (length (r_conns s)) b tr).
      { destruct K' as [n p P A E|n t b T A I|n t b m T A P|n t b m T A P|l' x b X A I|l' x b X A P|b id E|b id i E];
        eexists; eapply pointed; try exact H;
        [eapply p_proxy; [exact P|exact E|reflexivity]|eapply p_stub; eassumption|eapply p_share; eassumption|eapply p_hold; eassumption
        |eapply p_lsnr; eassumption|eapply p_accept; eassumption|eapply p_epshare; eassumption|eapply p_eptake; eassumption]. }
      destruct O as (b & O). destruct (opened_is _ _ _ _ _ _ _ H O) as (x & X & _). apply nth_lt in X. lia.
    + rewrite accepted_snoc, app_nil_r. destruct (accepted (length (r_conns s)) tr) as [|m l'] eqn:A; [reflexivity|]. exfalso.
      assert (I : In m (accepted (length (r_conns s)) tr)) by (rewrite A; left; reflexivity). unfold accepted in I. apply in_flat_map in I.
      destruct I as ((f & q) & I & K). destruct q; try destruct K. cbn in K. destruct (Nat.eqb_spec c (length (r_conns s))) as [->|]; [|destruct K].
      exact (not_yet _ _ f H _ _ (le_n _) I).
    + intros x X. rewrite nth_snoc_new in X. injection X as <-. split; reflexivity.
Qed.
Lemma left_behind tr1 k ok c a tr2 s : history (tr1 ++ (ETake k ok, OSpawned c a) :: tr2) s ->
  (exists t1 n m t2, tr1 = t1 ++ (ECancel n true, OUnit) :: t2 /\ last_send_to n t1 = Some (a, m)) /\
  ~ owned_conn s c /\ accepted c (tr1 ++ (ETake k ok, OSpawned c a) :: tr2) = [] /\ sent c (tr1 ++ (ETake k ok, OSpawned c a) :: tr2) = [] /\
  (conn_runs s c -> exists s', step s (EUnowned c) = Some (s', OUnit) /\ ~ conn_runs s' c).
Proof.
  intros H. destruct (orphan _ _ H k ok c a) as (L & N & A & B); [apply in_app_iff; right; left; reflexivity|].
  destruct (history_split _ _ _ _ _ H _ _ eq_refl) as (s0 & H0 & S0). inversion S0 as [|? ? ? s1 ? ? ST S1]; subst.
  assert (Z : sent c (tr1 ++ (ETake k ok, OSpawned c a) :: tr2) = []).
  { destruct (fifo_sends _ _ _ _ _ c H) as (lost & F & _). rewrite A in F. cbn in F. destruct (sent c _); [reflexivity|discriminate F]. }
  split; [|split; [exact N|split; [exact A|split; [exact Z|]]]].
  - cbn in ST. unfold step_take in ST. cases_in ST. injection ST as <- <- <-. eapply left_connect; [exact H0|].
    match goal with Q : nth_error (r_left s0) _ = _ |- _ => exact (nth_error_In _ _ Q) end.
  - intros (x & X & Al). destruct (B _ X) as [Q O]. cbn. rewrite X, Al, O, Q. destruct (conn_strong s c) eqn:E; [apply strong_owned in E; destruct (N E)|].
    eexists. split; [reflexivity|]. intros (y & Y & Z0). rcbn. rewrite nth_upd_same, X in Y. injection Y as <-. discriminate Z0.
Qed.

(** ** Calls of [serve] and [proxy] that are dropped *)
Definition left_calls (q : list ecmd) : list (iid * option N) := flat_map (fun k => match k with KCall id k => [(id, k)] | KConnect _ => [] end) q.
Lemma calls_left tr s : history tr s -> Permutation (abandoned tr) (taken_up tr ++ left_calls (r_left s)).
Proof.
  induction 1 as [|tr s e s' o H IH ST]; [reflexivity|]. unfold abandoned, taken_up in *. rewrite !flat_map_app, IH. cbn.
  destruct e; step_cases ST; rcbn; cbn; rewrite ?app_nil_r; try reflexivity.
  all: rewrite <- ?app_assoc; try apply Permutation_app_head.
  all: try match goal with Q : nth_error (r_left _) _ = _ |- _ => apply perm_drop_nth, (Permutation_flat_map (fun k => match k with KCall id k => [(id, k)] | KConnect _ => [] end)) in Q; exact Q end.
  all: unfold left_calls; rewrite ?flat_map_app; cbn; rewrite ?app_nil_r; reflexivity.
Qed.
Lemma abandoned_calls tr s : history tr s -> exists rest, Permutation (abandoned tr) (taken_up tr ++ rest) /\ (idle s -> rest = []).
Proof.
  intros H. exists (left_calls (r_left s)). split; [exact (calls_left _ _ H)|]. intros I. rewrite (proj2 (no_call _ I)). reflexivity.
Qed.
End Locks.
