(** Theorems about what [serve], [proxy] and [send_to] of the v1 runtime return. *)
From Coq Require Import List NArith Bool PeanoNat Lia.
From Verif Require Import BytesModel WireSpec UniverseModel SomeipModel SomeipSpec MapModel EndpointProofs RuntimeModel RuntimeSpec
  RuntimeProofs RuntimeTheorems RuntimePacketTheorems RuntimeSendTheorems RuntimeAddrTheorems
  RuntimeProgressTheorems RuntimeWorkTheorems RuntimeOwnerTheorems.
Import ListNotations.
Open Scope nat_scope.

Section Locks.
Context (bk : iid -> N) (cbk : N -> N) (dg : bool).
Notation history := (history bk cbk dg).
Notation step := (step bk cbk).
Notation steps := (steps bk cbk).

Ltac cases_in H :=
  repeat (match type of H with
  | context [match ?x with _ => _ end] =>
      lazymatch x with context [match _ with _ => _ end] => fail | _ => destruct x eqn:? end
  end; try discriminate H).
Ltac step_cases H :=
  unfold RuntimeModel.step, step_ep, step_take, step_route, step_stub, i_recv, push_cmd in H; cases_in H;
  injection H as <- <-.
Ltac rcbn := unfold upd_conn, upd_iface, upd_lsnr, upd_stub, upd_proxy, spawn in *;
  cbn [r_open r_datagram r_ep r_listener r_imap r_cmap r_ifaces r_conns r_lsnrs r_stubs r_proxies r_left
       set_ep set_open set_listener set_imap set_cmap set_ifaces set_conns set_lsnrs set_stubs set_proxies set_left
       st_iface st_lst st_conns st_pc st_alive st_with_pc st_with_conns end_stub l_alive l_cmds l_local l_conns l_pc
       l_with_cmds l_with_local l_with_conns l_with_pc end_lsnr new_lsnr px_iface px_conn px_remote px_alive end_proxy] in *.
Ltac split_nth := rcbn;
  repeat match goal with
  | H : nth_error (upd _ _ _) _ = Some _ |- _ => apply upd_is in H; destruct H as [[? H]|[? (? & ? & ?)]]; try subst
  | H : nth_error (_ ++ [_]) _ = Some _ |- _ => apply nth_snoc in H; destruct H as [H|[? ?]]; try subst
  end; rcbn.
Ltac same_nth :=
  repeat match goal with
  | H : nth_error ?l ?n = Some ?x, K : nth_error ?l ?n = Some ?y |- _ =>
      tryif constr_eq x y then fail else (assert (x = y) by congruence; subst y)
  end.

Lemma history_last tr e o s : history (tr ++ [(e, o)]) s -> exists s0, history tr s0 /\ step s0 e = Some (s, o).
Proof.
  intros H. inversion H as [E|tr' s0 e0 s' o' H0 ST E]; [destruct tr; discriminate E|]. apply app_inj_tail in E.
  destruct E as [-> E]. injection E as -> ->. eauto.
Qed.

(** ** [serve] and [proxy] *)
(** What the endpoint is doing is the last call. *)
Definition in_call (p : epc) : option (iid * option N) :=
  match p with
  | EpWait => None
  | EpCheck id k | EpReady id k => Some (id, k)
  | EpShare o id | EpTake o id _ => Some (id, match o with OwnListener _ => None | OwnConn _ a => Some a end)
  end.
Lemma last_call_snoc tr e o : last_call (tr ++ [(e, o)]) =
  match e, o with
  | EServe id, _ => Some (id, None)
  | EProxy id a, _ => Some (id, Some a)
  | ETake _ _, OTaken id k => Some (id, k)
  | _, _ => last_call tr
  end.
Proof. unfold last_call. rewrite fold_left_app. cbn. destruct e; reflexivity. Qed.
Lemma call_is tr s : history tr s -> forall q, in_call (r_ep s) = Some q -> last_call tr = Some q.
Proof.
  induction 1 as [|tr s e s' o H IH ST]; intros q Q; [discriminate Q|]. rewrite last_call_snoc.
  destruct e; step_cases ST; rcbn; cbn in Q; try discriminate Q; try (injection Q as <-; reflexivity); try (apply IH; exact Q).
  all: try solve [rewrite ?Heqe in Q; discriminate Q]. all: apply IH; try exact Q; match goal with H : r_ep _ = _ |- _ => rewrite H end; exact Q.
Qed.
Theorem call_exists tr ok s : history (tr ++ [(EEp ok, OExists)]) s ->
  exists id k, last_call tr = Some (id, k) /\ occupied s tr id.
Proof.
  intros H0. destruct (history_last _ _ _ _ H0) as (s0 & H & ST). assert (V := history_inv _ _ _ _ _ H).
  assert (C := call_is _ _ H). cbn in ST. unfold step_ep in ST.
  destruct (r_ep s0) as [|id k|id [a|]|[l|c a] id|[l|c a] id i] eqn:E; cases_in ST; try discriminate ST.
  injection ST as <-. exists id, k. split; [apply C; reflexivity|].
  match goal with L : live_iface _ _ = Some _ |- _ => rename L into LI end. unfold live_iface in LI.
  destruct (map_get iid_eqb id (r_imap s0)) as [i|] eqn:M; [|discriminate LI]. destruct (iface_strong s0 i) eqn:I; [|discriminate LI]. clear LI n.
  rewrite strong_view in I. apply (strong_held bk _ _ (in1 _ _ _ V)) in I. destruct I as (id' & I).
  assert (id' = id). { apply (v_ids _ _ (in1 _ _ _ V)) in I. apply (v_map _ _ (in1 _ _ _ V)) in M. congruence. } subst id'.
  assert (D := v_ids _ _ (in1 _ _ _ V) _ _ I). assert (W := owned _ _ _ _ _ H). destruct (created _ _ _ _ _ H) as [CS CP].
  assert (IC : forall c x, nth_error (a_conns (view s0)) c = Some x -> In (id, i) (v_local x) \/ In (id, i) (v_takes x) -> occupied (set_ep EpWait s0) tr id).
  { intros c x X U. destruct (own_conn _ W _ _ _ _ X U) as (n & p & P & P1 & P2). cbn in P. right. left.
    destruct (CP n p P) as (id' & Q). destruct (v_proxied _ _ (in6 _ _ _ V) _ _ _ Q) as (p' & P' & _ & D'). cbn in P'.
    assert (p' = p) by congruence. subst p'. rewrite P1, D in D'. injection D' as <-. exists n, (px_remote p). split; [exact Q|].
    exists p. split; [exact P|]. rewrite P2. cbn in X. apply nth_map in X. destruct X as (y & Y & ->). exists y. split; [exact Y|].
    destruct (c_alive y) eqn:A; [reflexivity|]. destruct (v_dead _ _ (in1 _ _ _ V) c (vc y)) as (F1 & F2 & _); [apply nth_vc; exact Y|exact A|].
    rewrite F1, F2 in U. destruct U as [[]|[]]. }
  assert (IL : forall l x, nth_error (a_lsnrs (view s0)) l = Some x -> In (id, i) (vl_local x) \/ In (id, i) (vl_cmds x) -> occupied (set_ep EpWait s0) tr id).
  { intros l x X U. destruct (own_lsnr _ W _ _ _ _ X U) as (n & t & T & P1 & P2). cbn in T. apply nth_map in T. destruct T as (u & T & ->). left.
    destruct (CS n u T) as (id' & Q). destruct (stub_of_served _ _ _ _ _ V Q) as (u' & T' & D').
    assert (u' = u) by congruence. subst u'. cbn in P1, P2. rewrite P1, D in D'. injection D' as <-. exists n. split; [exact Q|].
    cbn in X. apply nth_map in X. destruct X as (y & Y & ->). exists u, y. split; [exact T|]. rewrite P2. split; [exact Y|].
    destruct (l_alive y) eqn:A; [reflexivity|]. destruct (v_ldead _ _ (in1 _ _ _ V) l (vl y)) as (F1 & F2).
    { cbn. rewrite nth_error_map, Y. reflexivity. } { exact A. }
    rewrite F1, F2 in U. destruct U as [[]|[]]. }
  destruct I as [c x X U|c x X U|c x it todo X U R|l x X U|l x X U|o U]; eauto.
  - right. right. cbn in X. apply nth_map in X. destruct X as (y & Y & ->). exists c, y, i, it, todo. repeat split; assumption.
  - cbn in U. congruence.
Qed.
Theorem stub_result tr e n id s : history (tr ++ [(e, OStub n id)]) s -> (exists ok, e = EEp ok) /\ last_call tr = Some (id, None).
Proof.
  intros H0. destruct (history_last _ _ _ _ H0) as (s0 & H & ST). assert (C := call_is _ _ H).
  step_cases ST; intros; subst; (split; [eauto|]; apply C; try reflexivity; match goal with H : r_ep _ = _ |- _ => rewrite H end; reflexivity).
Qed.
Theorem proxy_result tr e n id a s : history (tr ++ [(e, OProxy n id a)]) s -> (exists ok, e = EEp ok) /\ last_call tr = Some (id, Some a).
Proof.
  intros H0. destruct (history_last _ _ _ _ H0) as (s0 & H & ST). assert (C := call_is _ _ H).
  step_cases ST; intros; subst; (split; [eauto|]; apply C; try reflexivity; match goal with H : r_ep _ = _ |- _ => rewrite H end; reflexivity).
Qed.

Theorem call_fails tr ok s : history (tr ++ [(EEp ok, OError)]) s ->
  ok = false \/
  (exists id l, last_call tr = Some (id, None) /\ In (EAcceptEnd l, OUnit) tr) \/
  (exists id a c, last_call tr = Some (id, Some a) /\ opened c a tr /\ ended_by_socket c tr).
Proof.
  intros H0. destruct (history_last _ _ _ _ H0) as (s0 & H & ST). assert (C := call_is _ _ H). cbn in ST. unfold step_ep in ST.
  destruct (r_ep s0) as [|id k|id [a|]|[l|c a] id|[l|c a] id i] eqn:E; cases_in ST; try discriminate ST; try solve [left; reflexivity].
  - right. left. exists id, l. split; [apply C; reflexivity|]. eapply lowned_ended; [exact H|eapply lo_take; exact E| |].
    + intros (x & X & A). congruence.
    + eapply nth_lt. eassumption.
  - right. right. exists id, a, c. split; [apply C; reflexivity|]. split; [eapply pointed; [exact H|eapply p_eptake; exact E]|].
    eapply owned_ended; [exact H|eapply own_call'; exact E|]. intros (x & X & A). congruence.
Qed.

(** ** Runs of calls *)
Lemma run_cons s e s1 o es s2 t : step s e = Some (s1, o) -> run bk cbk s1 es = Some (s2, t) -> run bk cbk s (e :: es) = Some (s2, (e, o) :: t).
Proof. intros A B. cbn [run]. rewrite A, B. reflexivity. Qed.
Lemma run_nil s : run bk cbk s [] = Some (s, []).
Proof. reflexivity. Qed.
Lemma all_unlocked s : (forall c, waiting s c = []) -> forall id, locked bk s id = false.
Proof.
  intros W id. unfold locked. destruct (existsb (recv_locks bk (bk id)) (r_conns s)) eqn:E; [|reflexivity].
  apply existsb_nth in E. destruct E as (c & x & X & K). specialize (W c). unfold waiting in W. rewrite X in W.
  unfold recv_locks in K. destruct (c_recv x); discriminate.
Qed.
Lemma all_free s : (forall n, ~ busy s n) -> forall a, clocked cbk s a = false.
Proof.
  intros W a. unfold clocked. destruct (existsb (stub_locks cbk (cbk a)) (r_stubs s)) eqn:E; [|reflexivity].
  apply existsb_nth in E. destruct E as (n & t & T & K). destruct (W n). exists t. split; [exact T|]. intros P. unfold stub_locks in K. rewrite P in K. discriminate.
Qed.
Lemma served_snoc n id tr e o : served n id (tr ++ [(e, o)]) -> served n id tr \/ o = OStub n id.
Proof. intros (e' & I). apply in_snoc' in I. destruct I as [I|I]; [left; exists e'; exact I|right; congruence]. Qed.
Lemma proxied_snoc n id a tr e o : proxied n id a (tr ++ [(e, o)]) -> proxied n id a tr \/ o = OProxy n id a.
Proof. intros (e' & I). apply in_snoc' in I. destruct I as [I|I]; [left; exists e'; exact I|right; congruence]. Qed.
Lemma locked_same s s' id : r_conns s' = r_conns s -> locked bk s' id = locked bk s id.
Proof. intros E. unfold locked. rewrite E. reflexivity. Qed.
Lemma clocked_same s s' a : r_stubs s' = r_stubs s -> clocked cbk s' a = clocked cbk s a.
Proof. intros E. unfold clocked. rewrite E. reflexivity. Qed.
Lemma do_check s id k ok : r_ep s = EpCheck id k -> locked bk s id = false ->
  step s (EEp ok) = match live_iface s id with Some _ => Some (set_ep EpWait s, OExists) | None => Some (set_ep (EpReady id k) s, OUnit) end.
Proof. intros E L. cbn. unfold step_ep. rewrite E, L. reflexivity. Qed.
Lemma do_listen s id : r_ep s = EpReady id None ->
  step s (EEp true) = match live_lsnr s with
    | Some l => Some (set_ep (EpShare (OwnListener l) id) s, OUnit)
    | None => Some (set_ep (EpShare (OwnListener (length (r_lsnrs s))) id) (set_listener (Some (length (r_lsnrs s))) (set_lsnrs (r_lsnrs s ++ [new_lsnr]) s)), OUnit)
    end.
Proof. intros E. cbn. unfold step_ep. rewrite E. reflexivity. Qed.
Lemma do_connect s id a : r_ep s = EpReady id (Some a) -> clocked cbk s a = false ->
  step s (EEp true) = match live_conn s a with
    | Some c => Some (set_ep (EpShare (OwnConn c a) id) s, OUnit)
    | None => Some (set_ep (EpShare (OwnConn (length (r_conns s)) a) id) (spawn a s), OSpawned (length (r_conns s)) a)
    end.
Proof. intros E L. cbn. unfold step_ep. rewrite E, L. reflexivity. Qed.
Lemma do_share s o id ok : r_ep s = EpShare o id -> locked bk s id = false ->
  step s (EEp ok) = Some (set_ep (EpTake o id (length (r_ifaces s))) (set_imap (map_insert iid_eqb id (length (r_ifaces s)) (r_imap s))
                   (set_ifaces (r_ifaces s ++ [mkI id [] 0 true]) s)), OUnit).
Proof. intros E L. cbn. unfold step_ep. rewrite E, L. reflexivity. Qed.
Lemma do_take_l s l id i ok x : r_ep s = EpTake (OwnListener l) id i -> nth_error (r_lsnrs s) l = Some x -> l_alive x = true -> l_cmds x = [] ->
  step s (EEp ok) = Some (set_ep EpWait (set_stubs (r_stubs s ++ [mkSt i l [] SFree true]) (upd_lsnr l (l_with_cmds [(id, i)]) s)), OStub (length (r_stubs s)) id).
Proof. intros E X A C. cbn. unfold step_ep. rewrite E, X, A, C. reflexivity. Qed.
Lemma do_take_l_dead s l id i ok x : r_ep s = EpTake (OwnListener l) id i -> nth_error (r_lsnrs s) l = Some x -> l_alive x = false ->
  step s (EEp ok) = Some (set_ep EpWait (upd_iface i i_shut s), OError).
Proof. intros E X A. cbn. unfold step_ep. rewrite E, X, A. reflexivity. Qed.
Lemma do_take_c s c a id i ok x : r_ep s = EpTake (OwnConn c a) id i -> nth_error (r_conns s) c = Some x -> c_alive x = true -> c_cmds x = [] ->
  step s (EEp ok) = Some (set_ep EpWait (set_proxies (r_proxies s ++ [mkP i c a true]) (upd_conn c (c_with_cmds [CTake id i]) s)), OProxy (length (r_proxies s)) id a).
Proof. intros E X A C. cbn. unfold step_ep. rewrite E, X, A, C. reflexivity. Qed.
Lemma do_take_c_dead s c a id i ok x : r_ep s = EpTake (OwnConn c a) id i -> nth_error (r_conns s) c = Some x -> c_alive x = false ->
  step s (EEp ok) = Some (set_ep EpWait (upd_iface i i_shut s), OError).
Proof. intros E X A. cbn. unfold step_ep. rewrite E, X, A. reflexivity. Qed.

Lemma check_free tr s id k : history tr s -> idle s -> r_open s = true -> ~ occupied s tr id ->
  step (set_ep (EpCheck id k) s) (EEp true) = Some (set_ep (EpReady id k) s, OUnit).
Proof.
  intros H I O N. set (e := match k with None => EServe id | Some a => EProxy id a end).
  assert (ST : step s e = Some (set_ep (EpCheck id k) s, OUnit)).
  { unfold e. destruct k; cbn; rewrite O, (proj1 (no_call _ I)); reflexivity. }
  assert (LC : last_call (tr ++ [(e, OUnit)]) = Some (id, k)). { rewrite last_call_snoc. unfold e. destruct k; reflexivity. }
  assert (H1 := h_more _ _ _ _ _ _ _ _ H ST). 
  assert (S2 := do_check (set_ep (EpCheck id k) s) id k true eq_refl). rewrite (locked_same s (set_ep (EpCheck id k) s) id eq_refl) in S2.
  specialize (S2 (all_unlocked _ (all_routed _ I) _)). rewrite S2.
  destruct (live_iface (set_ep (EpCheck id k) s) id) as [i|] eqn:L; [|reflexivity]. exfalso.
  assert (H2 := h_more _ _ _ _ _ _ _ _ H1 S2). apply call_exists in H2. destruct H2 as (id' & k' & Q & U). rewrite LC in Q. injection Q as <- <-.
  apply N. destruct U as [(n & A & B)|[(n & a & A & B)|B]].
  - left. exists n. split; [|exact B]. apply served_snoc in A. destruct A as [A|A]; [exact A|discriminate A].
  - right. left. exists n, a. split; [|exact B]. apply proxied_snoc in A. destruct A as [A|A]; [exact A|discriminate A].
  - right. right. exact B.
Qed.
Lemma stub_new tr s : history tr s -> forall k, ~ served (length (r_stubs s)) k tr.
Proof. intros H k K. destruct (stub_of_served _ _ _ _ _ (history_inv _ _ _ _ _ H) K) as (t & T & _). rewrite nth_length_none in T. discriminate T. Qed.
Lemma proxy_new tr s : history tr s -> forall k a, ~ proxied (length (r_proxies s)) k a tr.
Proof. intros H k a K. destruct (v_proxied _ _ (in6 _ _ _ (history_inv _ _ _ _ _ H)) _ _ _ K) as (t & T & _). cbn in T. rewrite nth_length_none in T. discriminate T. Qed.
Theorem serve_succeeds tr s id : history tr s -> idle s -> r_open s = true -> ~ occupied s tr id ->
  (forall n, stub_exists s n -> stub_listening s n) ->
  exists s' n, run bk cbk s [EServe id; EEp true; EEp true; EEp true; EEp true] =
    Some (s', [(EServe id, OUnit); (EEp true, OUnit); (EEp true, OUnit); (EEp true, OUnit); (EEp true, OStub n id)]) /\
    (forall k, ~ served n k tr) /\ stub_exists s' n /\ stub_listening s' n.
Proof.
  intros H I O N LS. assert (U := all_unlocked _ (all_routed _ I)).
  assert (A1 : step s (EServe id) = Some (set_ep (EpCheck id None) s, OUnit)). { cbn. rewrite O, (proj1 (no_call _ I)). reflexivity. }
  assert (A2 := check_free _ _ _ None H I O N).
  assert (A3 := do_listen (set_ep (EpReady id None) s) id eq_refl).
  destruct (live_lsnr (set_ep (EpReady id None) s)) as [l|] eqn:L.
  - unfold live_lsnr in L. change (r_listener (set_ep (EpReady id None) s)) with (r_listener s) in L. destruct (r_listener s) as [l'|]; [|discriminate L].
    destruct (lsnr_strong (set_ep (EpReady id None) s) l') eqn:K; [|discriminate L]. injection L as ->.
    apply lstrong_owned in K. destruct K as [n t T B C|id' K|id' i' K]; try discriminate K. cbn in T.
    destruct (LS n) as (t' & x & T' & X & Al); [exists t; auto|]. assert (t' = t) by congruence. subst t'. rewrite C in X.
    destruct (all_shared _ I _ _ X) as [Q1 Q2].
    eexists. exists (length (r_stubs s)). split; [|split; [apply (stub_new _ _ H)|]].
    + eapply run_cons; [exact A1|]. eapply run_cons; [exact A2|]. eapply run_cons; [exact A3|].
      eapply run_cons. { apply do_share; [reflexivity|]. rewrite <- (U id). apply locked_same. reflexivity. }
      eapply run_cons. { match goal with |- RuntimeModel.step _ _ ?z _ = _ => apply (do_take_l z l id (length (r_ifaces s)) true x); [reflexivity|exact X|exact Al|exact Q1] end. }
      reflexivity.
    + split; [eexists; rcbn; split; [apply nth_snoc_new|reflexivity]|].
      eexists. eexists. rcbn. split; [apply nth_snoc_new|]. rcbn. rewrite nth_upd_same, X. split; [reflexivity|exact Al].
  - eexists. exists (length (r_stubs s)). split; [|split; [apply (stub_new _ _ H)|]].
    + eapply run_cons; [exact A1|]. eapply run_cons; [exact A2|]. eapply run_cons; [exact A3|].
      eapply run_cons. { apply do_share; [reflexivity|]. rewrite <- (U id). apply locked_same. reflexivity. }
      eapply run_cons. { match goal with |- RuntimeModel.step _ _ ?z _ = _ => apply (do_take_l z (length (r_lsnrs s)) id (length (r_ifaces s)) true new_lsnr); [reflexivity|apply nth_snoc_new|reflexivity|reflexivity] end. }
      reflexivity.
    + split; [eexists; rcbn; split; [apply nth_snoc_new|reflexivity]|].
      eexists. eexists. rcbn. split; [apply nth_snoc_new|]. rcbn. rewrite nth_upd_same, nth_snoc_new. split; reflexivity.
Qed.
(** While a stub remains whose listener has ended, [serve] fails. *)
Definition one_lsnr (s : rt) : Prop :=
  (forall n t, nth_error (r_stubs s) n = Some t -> st_alive t = true -> r_listener s = Some (st_lst t)) /\
  (forall l id, r_ep s = EpShare (OwnListener l) id -> r_listener s = Some l) /\
  (forall l id i, r_ep s = EpTake (OwnListener l) id i -> r_listener s = Some l).
Lemma live_lsnr_is s l : live_lsnr s = Some l -> r_listener s = Some l.
Proof. unfold live_lsnr. destruct (r_listener s) as [k|]; [|discriminate]. destruct (lsnr_strong s k); [|discriminate]. congruence. Qed.
Lemma one_listener tr s : history tr s -> one_lsnr s.
Proof.
  induction 1 as [|tr s e s' o H (IH1 & IH2 & IH3) ST]; [split; [|split]; try discriminate; intros [|n] t T; discriminate T|].
  split; [|split].
  - intros n t T A. destruct e; step_cases ST; split_nth; same_nth; try discriminate; eauto.
    match goal with L : live_lsnr _ = None |- _ => unfold live_lsnr in L; rewrite (IH1 _ _ T A) in L;
      destruct (lsnr_strong s (st_lst t)) eqn:K; [discriminate L|]; assert (K' : lsnr_strong s (st_lst t) = true) by (apply lstrong_owned; eapply lo_stub; [exact T|exact A|reflexivity]); congruence end.
  - intros l id E. destruct e; step_cases ST; rcbn; try discriminate E; try congruence; eauto.
    all: try (injection E as; subst; eauto using live_lsnr_is).
    all: try (eapply IH2; rewrite <- E; eassumption).
  - intros l id i E. destruct e; step_cases ST; rcbn; try discriminate E; try congruence; eauto.
    all: try (injection E as; subst; eauto using live_lsnr_is).
Qed.
Theorem serve_stuck tr s id n : history tr s -> idle s -> r_open s = true -> ~ occupied s tr id ->
  stub_exists s n -> ~ stub_listening s n ->
  exists s', run bk cbk s [EServe id; EEp true; EEp true; EEp true; EEp true] =
    Some (s', [(EServe id, OUnit); (EEp true, OUnit); (EEp true, OUnit); (EEp true, OUnit); (EEp true, OError)]).
Proof.
  intros H I O N (t & T & B) NL. assert (U := all_unlocked _ (all_routed _ I)).
  assert (A1 : step s (EServe id) = Some (set_ep (EpCheck id None) s, OUnit)). { cbn. rewrite O, (proj1 (no_call _ I)). reflexivity. }
  assert (A2 := check_free _ _ _ None H I O N).
  assert (A3 := do_listen (set_ep (EpReady id None) s) id eq_refl).
  assert (L : live_lsnr (set_ep (EpReady id None) s) = Some (st_lst t)).
  { unfold live_lsnr. change (r_listener (set_ep (EpReady id None) s)) with (r_listener s). rewrite (proj1 (one_listener _ _ H) _ _ T B).
    rewrite (proj2 (lstrong_owned _ _)); [reflexivity|]. eapply lo_stub; [exact T|exact B|reflexivity]. }
  rewrite L in A3. pose proof (stub_lsnr_old _ _ _ _ _ _ _ H T) as LT.
  destruct (nth_error (r_lsnrs s) (st_lst t)) as [x|] eqn:X; [|apply nth_error_None in X; lia].
  assert (Al : l_alive x = false). { destruct (l_alive x) eqn:Al; [|reflexivity]. destruct NL. exists t, x. auto. }
  eexists. eapply run_cons; [exact A1|]. eapply run_cons; [exact A2|]. eapply run_cons; [exact A3|].
  eapply run_cons. { apply do_share; [reflexivity|]. rewrite <- (U id). apply locked_same. reflexivity. }
  eapply run_cons. { match goal with |- RuntimeModel.step _ _ ?z _ = _ => apply (do_take_l_dead z (st_lst t) id (length (r_ifaces s)) true x); [reflexivity|exact X|exact Al] end. }
  reflexivity.
Qed.

(** ** The map of connections *)
Lemma live_conn_get s a c : live_conn s a = Some c -> map_get N.eqb a (r_cmap s) = Some c.
Proof. unfold live_conn. destruct (map_get N.eqb a (r_cmap s)) as [d|]; [|discriminate]. destruct (conn_strong s d); [auto|discriminate]. Qed.
(** A connection that ended or that nobody owns. *)
Definition bad (s : rt) (c : nat) : Prop := c < length (r_conns s) /\ (~ conn_runs s c \/ ~ owned_conn s c).
Lemma bad_stays s e o s' c : step s e = Some (s', o) -> bad s c -> bad s' c.
Proof.
  intros ST [L B]. split; [eapply conns_stay; eassumption|]. destruct B as [B|B].
  - left. eapply dead_stays; eassumption.
  - right. intros K. destruct (owned_back _ _ _ _ _ _ _ ST K) as [K'|(a & ->)]; [exact (B K')|]. step_cases ST; lia.
Qed.
(** What was opened is shared, or about to be. *)
Lemma opening_stub tr s : history tr s -> forall n t a c m, nth_error (r_stubs s) n = Some t -> st_pc t = SShare a c m ->
  exists t1 ok t2, tr = t1 ++ (EStub n ok, OSpawned c a) :: t2 /\ next_of n t2 = None.
Proof.
  induction 1 as [|tr s e s' o H IH ST]; intros n t a c m T P; [destruct n; discriminate T|].
  assert (KEEP : forall u, nth_error (r_stubs s) n = Some u -> st_pc u = SShare a c m -> next_of n [(e, o)] = None ->
    exists t1 ok t2, tr ++ [(e, o)] = t1 ++ (EStub n ok, OSpawned c a) :: t2 /\ next_of n t2 = None).
  { intros u U Q NX. destruct (IH _ _ _ _ _ U Q) as (t1 & ok & t2 & -> & N). exists t1, ok, (t2 ++ [(e, o)]).
    split; [rewrite <- app_assoc; reflexivity|]. rewrite next_snoc, N. exact NX. }
  destruct e; step_cases ST; split_nth; same_nth; try discriminate P; try (injection P as; subst).
  all: try solve [eapply KEEP; [eassumption|assumption|first [reflexivity|unfold next_of; cbn;
             match goal with |- context [?k =? ?n] => destruct (Nat.eqb_spec k n); [congruence|reflexivity] end]]].
  eexists tr, _, []. split; reflexivity.
Qed.
Lemma opening_lsnr tr s : history tr s -> forall l x a c, nth_error (r_lsnrs s) l = Some x -> l_pc x = AShare a c -> In (EAccept l a, OSpawned c a) tr.
Proof.
  induction 1 as [|tr s e s' o H IH ST]; intros l x a c T P; [destruct l; discriminate T|].
  destruct e; step_cases ST; split_nth; same_nth; try discriminate P; try (injection P as; subst).
  all: try solve [apply in_app_iff; left; eapply IH; eassumption].
  apply in_app_iff. right. left. reflexivity.
Qed.
Lemma shared_later c a tr x : shared_conn c a tr -> shared_conn c a (tr ++ [x]).
Proof.
  intros [(t1 & n & ok & t2 & ok' & -> & I)|(t1 & l & t2 & -> & I)].
  - left. exists t1, n, ok, (t2 ++ [x]), ok'. split; [repeat (rewrite <- app_assoc; cbn [app]); reflexivity|rewrite next_snoc, I; reflexivity].
  - right. exists t1, l, (t2 ++ [x]). split; [repeat (rewrite <- app_assoc; cbn [app]); reflexivity|apply in_app_iff; left; exact I].
Qed.
Lemma cmap_shared tr s : history tr s -> forall a c, In (a, c) (r_cmap s) -> shared_conn c a tr.
Proof.
  induction 1 as [|tr s e s' o H IH ST]; intros a c I; [destruct I|].
  destruct e; step_cases ST; rcbn; try solve [apply shared_later; apply IH; exact I].
  all: try solve [apply shared_later; apply IH; eapply in_remove; exact I].
  all: apply in_insert in I; destruct I as [I|I]; [injection I as -> ->|apply shared_later; apply IH; exact I].
  - right. match goal with H1 : nth_error (r_lsnrs s) l = Some ?y, H2 : l_pc ?y = _ |- _ => pose proof (opening_lsnr _ _ H _ _ _ _ H1 H2) as I end.
    apply in_split in I. destruct I as (t1 & t2 & ->). exists t1, l, (t2 ++ [(EAcceptShare l, OUnit)]).
    split; [rewrite <- app_assoc; reflexivity|apply in_app_iff; right; left; reflexivity].
  - left. match goal with H1 : nth_error (r_stubs s) n = Some ?y, H2 : st_pc ?y = _ |- _ => destruct (opening_stub _ _ H _ _ _ _ _ H1 H2) as (t1 & ok' & t2 & -> & I) end.
    exists t1, n, ok', (t2 ++ [(EStub n ok, OUnit)]), ok.
    split; [rewrite <- app_assoc; reflexivity|rewrite next_snoc, I; unfold next_of; cbn; rewrite Nat.eqb_refl; reflexivity].
Qed.
(** An address that has been shared is in the map, unless a [send_to] failed. *)
Definition known (tr : list (event * obs)) (s : rt) (a : N) : Prop :=
  (exists c, map_get N.eqb a (r_cmap s) = Some c) \/
  ((exists n ok, In (EStub n ok, OError) tr) /\ exists c, opened c a tr /\ bad s c).
Lemma known_step tr s e o s' a : history tr s -> step s e = Some (s', o) -> known tr s a -> known (tr ++ [(e, o)]) s' a.
Proof.
  intros H ST [(c & M)|((n & ok & E) & c & O & B)].
  - assert (OP : opened c a tr). { eapply pointed; [exact H|]. apply p_cmap. apply (get_in _ N.eqb_eq). exact M. }
    assert (K : (exists d, map_get N.eqb a (r_cmap s') = Some d) \/
                (exists n ok, (e, o) = (EStub n ok, OError)) /\ exists d, opened d a tr /\ (~ conn_runs s d \/ ~ owned_conn s d)).
    { destruct e; step_cases ST; rcbn; eauto.
      - left. destruct (N.eqb_spec a a0) as [->|D]; [exists c0; apply (get_insert_same _ N.eqb_eq)|exists c; rewrite (get_insert_other _ N.eqb_eq) by exact D; exact M].
      - left. destruct (N.eqb_spec a a0) as [->|D]; [exists c0; apply (get_insert_same _ N.eqb_eq)|exists c; rewrite (get_insert_other _ N.eqb_eq) by exact D; exact M].
      - destruct (N.eqb_spec a a0) as [->|D]; [right|left; exists c; rewrite (get_remove_other _ N.eqb_eq) by exact D; exact M].
        split; [eauto|]. exists c. split; [exact OP|]. right. intros W. apply strong_owned in W. congruence.
      - destruct (N.eqb_spec a a0) as [->|D]; [right|left; exists c; rewrite (get_remove_other _ N.eqb_eq) by exact D; exact M].
        split; [eauto|]. match goal with P : st_pc _ = SHold _ ?d _ |- _ => exists d end. split; [eapply pointed; [exact H|eapply p_hold; eassumption]|].
        left. intros (x & X & A). congruence. }
    destruct K as [K|((n & ok & E) & d & OD & B)]; [left; exact K|right]. split; [exists n, ok; apply in_app_iff; right; left; exact E|].
    exists d. split; [apply opened_later; exact OD|]. eapply bad_stays; [exact ST|]. split; [|exact B].
    destruct (opened_is _ _ _ _ _ _ _ H OD) as (x & X & _). eapply nth_lt. exact X.
  - right. split; [exists n, ok; apply in_app_iff; left; exact E|]. exists c. split; [apply opened_later; exact O|eapply bad_stays; eassumption].
Qed.
(** Opened by stub [n] in [tr] and not shared yet. *)
Lemma opened_by tr s : history tr s -> forall t1 n ok c a t2, tr = t1 ++ (EStub n ok, OSpawned c a) :: t2 -> next_of n t2 = None ->
  (exists t m, nth_error (r_stubs s) n = Some t /\ st_pc t = SShare a c m) \/
  (exists t, nth_error (r_stubs s) n = Some t /\ st_alive t = false).
Proof.
  induction 1 as [|tr s e s' o H IH ST]; intros t1 n ok c a t2 E NX; [destruct t1; discriminate E|].
  destruct t2 as [|q t2 _] using rev_ind.
  - apply app_inj_tail in E. destruct E as [-> E]. injection E as -> ->. left.
    step_cases ST; intros; subst; rcbn; rewrite nth_upd_same; match goal with H : nth_error _ n = Some _ |- _ => rewrite H end; do 2 eexists; split; reflexivity.
  - rewrite app_comm_cons, app_assoc in E. apply app_inj_tail in E. destruct E as [E <-].
    rewrite next_snoc in NX. destruct (next_of n t2) eqn:N2; [discriminate NX|].
    destruct (IH _ _ _ _ _ _ E N2) as [(t & m & T & P)|(t & T & A)].
    + destruct (stubs_stay _ _ _ _ _ _ _ _ ST T) as (t' & T').
      assert (K : st_pc t' = SShare a c m \/ st_alive t' = false).
      { clear IH E. pose proof T as OLD. apply nth_lt in OLD.
        destruct e; step_cases ST; unfold next_of in NX; cbn in NX; split_nth; same_nth; try congruence; eauto; try (exfalso; lia);
        rewrite Nat.eqb_refl in NX; discriminate NX. }
      destruct K as [K|K]; [left; eauto|right; eauto].
    + right. destruct (stub_later _ _ _ _ _ _ _ (step_view _ _ _ _ _ _ ST) (nth_vs _ _ _ T)) as (t' & T' & _).
      cbn in T'. apply nth_map in T'. destruct T' as (u & U & ->). exists u. split; [exact U|]. destruct (st_alive u) eqn:B; [|reflexivity]. exfalso.
      clear IH E. pose proof T as OLD. apply nth_lt in OLD. destruct e; step_cases ST; split_nth; same_nth; try congruence; lia.
Qed.
Lemma accepted_by tr s : history tr s -> forall t1 l c a t2, tr = t1 ++ (EAccept l a, OSpawned c a) :: t2 ->
  In (EAcceptShare l, OUnit) t2 \/ (exists x, nth_error (r_lsnrs s) l = Some x /\ l_pc x = AShare a c) \/
  (exists x, nth_error (r_lsnrs s) l = Some x /\ l_alive x = false).
Proof.
  induction 1 as [|tr s e s' o H IH ST]; intros t1 l c a t2 E; [destruct t1; discriminate E|].
  destruct t2 as [|q t2 _] using rev_ind.
  - apply app_inj_tail in E. destruct E as [-> E]. injection E as -> ->. right. left.
    step_cases ST; intros; subst; rcbn; rewrite nth_upd_same; match goal with H : nth_error _ l = Some _ |- _ => rewrite H end; eexists; split; reflexivity.
  - rewrite app_comm_cons, app_assoc in E. apply app_inj_tail in E. destruct E as [E <-].
    destruct (IH _ _ _ _ _ E) as [K|[(t & T & P)|(t & T & A)]].
    + left. apply in_app_iff. left. exact K.
    + destruct (lsnrs_stay _ _ _ _ _ _ _ _ ST T) as (t' & T').
      assert (K : (e, o) = (EAcceptShare l, OUnit) \/ l_pc t' = AShare a c \/ l_alive t' = false).
      { clear IH E. pose proof T as OLD. apply nth_lt in OLD. destruct e; step_cases ST; split_nth; same_nth; try congruence; eauto; try (exfalso; lia). }
      destruct K as [K|[K|K]]; [left; apply in_app_iff; right; left; exact K|right; left; eauto|right; right; eauto].
    + right. right. destruct (lsnrs_stay _ _ _ _ _ _ _ _ ST T) as (u & U). exists u. split; [exact U|]. destruct (l_alive u) eqn:B; [|reflexivity]. exfalso.
      clear IH E. pose proof T as OLD. apply nth_lt in OLD. destruct e; step_cases ST; split_nth; same_nth; try congruence; lia.
Qed.
Lemma shared_known tr s : history tr s -> forall c a, shared_conn c a tr -> known tr s a.
Proof.
  induction 1 as [|tr s e s' o H IH ST]; intros c a SC.
  - destruct SC as [(t1 & n & ok & t2 & ok' & E & _)|(t1 & l & t2 & E & _)]; destruct t1; discriminate E.
  - assert (K : shared_conn c a tr \/ (exists d, map_get N.eqb a (r_cmap s') = Some d)).
    { destruct SC as [(t1 & n & ok & t2 & ok' & E & I)|(t1 & l & t2 & E & I)].
      - destruct t2 as [|q t2 _] using rev_ind; [discriminate I|]. rewrite app_comm_cons, app_assoc in E. apply app_inj_tail in E. destruct E as [E <-].
        rewrite next_snoc in I. destruct (next_of n t2) eqn:N2; [left; left; do 5 eexists; split; [exact E|rewrite N2; exact I]|].
        assert (I' : (e, o) = (EStub n ok', OUnit)) by (unfold next_of in I; cbn in I; destruct e; try discriminate I; destruct (_ =? n); congruence).
        clear I. rename I' into I.
        destruct (opened_by _ _ H _ _ _ _ _ _ E N2) as [(t & m & T & P)|(t & T & A)].
        + right. assert (X : e = EStub n ok') by congruence. subst e. clear I IH. step_cases ST; rcbn; try congruence. exists c. assert (s0 = t) by congruence. subst s0.
          match goal with Q : st_pc t = SShare ?b ?d _ |- _ => rewrite P in Q; injection Q as <- <- _ end. apply (get_insert_same _ N.eqb_eq).
        + exfalso. injection I as -> ->. cbn in ST. rewrite T, A in ST. discriminate ST.
      - destruct t2 as [|q t2 _] using rev_ind; [destruct I|]. rewrite app_comm_cons, app_assoc in E. apply app_inj_tail in E. destruct E as [E <-].
        apply in_snoc' in I. destruct I as [I|I]; [left; right; do 3 eexists; split; [exact E|exact I]|].
        destruct (accepted_by _ _ H _ _ _ _ _ E) as [K|[(t & T & P)|(t & T & A)]].
        + left. right. do 3 eexists. split; [exact E|exact K].
        + right. assert (X : e = EAcceptShare l) by congruence. subst e. clear I IH. step_cases ST; rcbn; try congruence. exists c. assert (t = l0) by congruence. subst t.
          match goal with Q : l_pc l0 = AShare ?b ?d |- _ => rewrite P in Q; injection Q as <- <- end. apply (get_insert_same _ N.eqb_eq).
        + exfalso. injection I as <- <-. cbn in ST. rewrite T, A in ST. discriminate ST. }
    destruct K as [K|K]; [|left; exact K]. eapply known_step; [exact H|exact ST|]. eapply IH. exact K.
Qed.
Lemma send_known tr s : history tr s -> forall n t a m, nth_error (r_stubs s) n = Some t -> st_pc t = SSend a m -> known tr s a.
Proof.
  induction 1 as [|tr s e s' o H IH ST]; intros n t a m T P; [destruct n; discriminate T|].
  assert (K : known tr s a \/ (exists d, map_get N.eqb a (r_cmap s') = Some d)).
  { destruct e; step_cases ST; split_nth; same_nth; try discriminate P; try (injection P as; subst); try solve [left; eauto].
    - left. left. match goal with L : live_conn _ _ = Some ?d |- _ => apply live_conn_get in L; eauto end.
    - right. eexists. apply (get_insert_same _ N.eqb_eq). }
  destruct K as [K|K]; [|left; exact K]. eapply known_step; eassumption.
Qed.

Lemma datagram_is tr s : history tr s -> r_datagram s = dg.
Proof. induction 1 as [|tr s e s' o H IH ST]; [reflexivity|]. step_cases ST; exact IH. Qed.
Lemma open_is tr s : history tr s -> r_open s = false -> In (EClose, OUnit) tr.
Proof.
  induction 1 as [|tr s e s' o H IH ST]; intros O; [discriminate O|]. apply in_app_iff. destruct e; step_cases ST; rcbn; try (left; apply IH; exact O).
  all: try solve [right; left; reflexivity]. all: left; apply IH; congruence.
Qed.
Theorem send_fails tr n ok s : history (tr ++ [(EStub n ok, OError)]) s ->
  ok = false \/ dg = false \/ In (EClose, OUnit) tr \/
  exists a m c, last_send_to n tr = Some (a, m) /\ opened c a tr /\ (~ conn_runs s c \/ ~ owned_conn s c).
Proof.
  intros H0. destruct (history_last _ _ _ _ H0) as (s0 & H & ST). pose proof ST as ST0. cbn in ST.
  destruct (nth_error (r_stubs s0) n) as [t|] eqn:T; [|discriminate ST]. destruct (st_alive t) eqn:A; [|discriminate ST].
  assert (BAD : forall a m c, last_send_to n tr = Some (a, m) -> opened c a tr -> ~ conn_runs s0 c \/ ~ owned_conn s0 c ->
    exists a m c, last_send_to n tr = Some (a, m) /\ opened c a tr /\ (~ conn_runs s c \/ ~ owned_conn s c)).
  { intros a m c E O B. exists a, m, c. split; [exact E|]. split; [exact O|]. apply (bad_stays _ _ _ _ _ ST0). split; [|exact B].
    destruct (opened_is _ _ _ _ _ _ _ H O) as (x & X & _). eapply nth_lt. exact X. }
  unfold step_stub in ST. destruct (st_pc t) as [|a m|a m|a c m|a m|a c m] eqn:P.
  - discriminate ST.
  - right. right. left. destruct (clocked cbk s0 a); [discriminate ST|]. destruct (live_conn s0 a); [discriminate ST|].
    destruct (ep_strong s0) eqn:E; [discriminate ST|]. apply (open_is _ _ H). unfold ep_strong in E. apply orb_false_iff in E. exact (proj1 E).
  - destruct (r_ep s0); try discriminate ST. destruct (r_datagram s0 && ok) eqn:E; [discriminate ST|]. rewrite (datagram_is _ _ H) in E.
    destruct dg, ok; try discriminate E; auto.
  - destruct (clocked cbk s0 a); discriminate ST.
  - right. right. right. assert (Q : last_send_to n tr = Some (a, m)) by (eapply sending_is; [exact H|exact T|rewrite P; reflexivity]).
    destruct (clocked cbk s0 a); [discriminate ST|]. destruct (map_get N.eqb a (r_cmap s0)) as [c|] eqn:M.
    + destruct (conn_strong s0 c) eqn:K; [discriminate ST|]. apply (BAD a m c); [exact Q| |right; intros W; apply strong_owned in W; congruence].
      eapply pointed; [exact H|]. apply p_cmap. apply (get_in _ N.eqb_eq). exact M.
    + destruct (send_known _ _ H _ _ _ _ T P) as [(d & K)|(_ & d & O & _ & B)]; [congruence|]. eapply BAD; eassumption.
  - right. right. right. assert (Q : last_send_to n tr = Some (a, m)) by (eapply sending_is; [exact H|exact T|rewrite P; reflexivity]).
    unfold push_cmd in ST. destruct (nth_error (r_conns s0) c) as [x|] eqn:X; [|discriminate ST]. destruct (c_alive x) eqn:Al.
    + destruct (length (c_cmds x) <? 1); discriminate ST.
    + eapply BAD; [exact Q|eapply pointed; [exact H|eapply p_hold; eassumption]|]. left. intros (y & Y & B). congruence.
Qed.

(** ** Runs of [send_to] *)
Definition quiet (s : rt) : Prop := forall n t, nth_error (r_stubs s) n = Some t -> st_pc t = SFree.
Lemma idle_quiet s : idle s -> quiet s.
Proof. intros I n t T. destruct (st_pc t) eqn:P; [reflexivity|..]; destruct (no_send _ I n); exists t; (split; [exact T|congruence]). Qed.
(** Stub [n] is at [p], all others do nothing. *)
Definition alone (s : rt) (n : nat) (p : spc) : Prop :=
  (exists t, nth_error (r_stubs s) n = Some t /\ st_alive t = true /\ st_pc t = p) /\
  forall k t, k <> n -> nth_error (r_stubs s) k = Some t -> st_pc t = SFree.
Definition holds (p : spc) : bool := match p with SHold _ _ _ => true | _ => false end.
Lemma alone_free s n p a : alone s n p -> holds p = false -> clocked cbk s a = false.
Proof.
  intros [(t & T & A & P) Q] F. unfold clocked. destruct (existsb (stub_locks cbk (cbk a)) (r_stubs s)) eqn:E; [|reflexivity].
  apply existsb_nth in E. destruct E as (k & u & U & K). unfold stub_locks in K. destruct (Nat.eq_dec k n) as [->|D].
  - assert (u = t) by congruence. subst u. rewrite P in K. destruct p; discriminate.
  - rewrite (Q _ _ D U) in K. discriminate K.
Qed.
Lemma alone_goto s s' n p q f : alone s n p -> r_stubs s' = upd n f (r_stubs s) -> (forall t, st_alive (f t) = st_alive t /\ st_pc (f t) = q) -> alone s' n q.
Proof.
  intros [(t & T & A & P) Q] E F. destruct (F t) as [F1 F2]. split.
  - exists (f t). rewrite E, nth_upd_same, T. split; [reflexivity|]. split; congruence.
  - intros k u D U. rewrite E, nth_upd_other in U by exact D. eapply Q; eassumption.
Qed.
Lemma do_stub s n t ok : nth_error (r_stubs s) n = Some t -> st_alive t = true -> step s (EStub n ok) = step_stub cbk n t ok s.
Proof. intros T A. cbn. rewrite T, A. reflexivity. Qed.
Lemma do_start s n a m : alone s n SFree -> step s (ESendTo n a m) = Some (upd_stub n (st_with_pc (SCheck a m)) s, OUnit).
Proof. intros [(t & T & A & P) _]. cbn. rewrite T, A, P. reflexivity. Qed.
Lemma do_known s n a m c ok : alone s n (SCheck a m) -> live_conn s a = Some c ->
  step s (EStub n ok) = Some (upd_stub n (st_with_pc (SSend a m)) s, OUnit).
Proof. intros L K. pose proof (alone_free _ _ _ a L eq_refl) as F. destruct L as [(t & T & A & P) _]. rewrite (do_stub _ _ _ _ T A). unfold step_stub. rewrite P, F, K. reflexivity. Qed.
Lemma do_unknown s n a m ok : alone s n (SCheck a m) -> live_conn s a = None -> r_open s = true ->
  step s (EStub n ok) = Some (upd_stub n (st_with_pc (SConnect a m)) s, OUnit).
Proof.
  intros L K O. pose proof (alone_free _ _ _ a L eq_refl) as F. destruct L as [(t & T & A & P) _]. rewrite (do_stub _ _ _ _ T A). unfold step_stub.
  rewrite P, F, K. unfold ep_strong. rewrite O. reflexivity.
Qed.
Lemma do_open s n a m : alone s n (SConnect a m) -> r_ep s = EpWait -> r_datagram s = true ->
  step s (EStub n true) = Some (upd_stub n (st_with_pc (SShare a (length (r_conns s)) m)) (spawn a s), OSpawned (length (r_conns s)) a).
Proof. intros [(t & T & A & P) _] E D. rewrite (do_stub _ _ _ _ T A). unfold step_stub. rewrite P, E, D. reflexivity. Qed.
Lemma do_store s n a c m ok : alone s n (SShare a c m) ->
  step s (EStub n ok) = Some (upd_stub n (fun t => st_with_pc (SSend a m) (st_with_conns (map_insert N.eqb a c (st_conns t)) t))
                   (set_cmap (map_insert N.eqb a c (r_cmap s)) s), OUnit).
Proof. intros L. pose proof (alone_free _ _ _ a L eq_refl) as F. destruct L as [(t & T & A & P) _]. rewrite (do_stub _ _ _ _ T A). unfold step_stub. rewrite P, F. reflexivity. Qed.
Lemma do_hold s n a m c ok : alone s n (SSend a m) -> live_conn s a = Some c ->
  step s (EStub n ok) = Some (upd_stub n (st_with_pc (SHold a c m)) s, OUnit).
Proof.
  intros L K. pose proof (alone_free _ _ _ a L eq_refl) as F. destruct L as [(t & T & A & P) _]. rewrite (do_stub _ _ _ _ T A). unfold step_stub. rewrite P, F.
  unfold live_conn in K. destruct (map_get N.eqb a (r_cmap s)) as [d|]; [|discriminate K]. destruct (conn_strong s d) eqn:W; [|discriminate K]. injection K as ->. reflexivity.
Qed.
Lemma do_push s n a c m ok x : alone s n (SHold a c m) -> nth_error (r_conns s) c = Some x -> c_alive x = true -> c_cmds x = [] ->
  step s (EStub n ok) = Some (upd_stub n (st_with_pc SFree) (upd_conn c (c_with_cmds [CMsg m]) s), OOk c m).
Proof. intros [(t & T & A & P) _] X Al C. rewrite (do_stub _ _ _ _ T A). unfold step_stub. rewrite P. unfold push_cmd. rewrite X, Al, C. reflexivity. Qed.
Lemma do_push_dead s n a c m ok x : alone s n (SHold a c m) -> nth_error (r_conns s) c = Some x -> c_alive x = false ->
  step s (EStub n ok) = Some (upd_stub n (st_with_pc SFree) (set_cmap (map_remove N.eqb a (r_cmap s)) s), OError).
Proof. intros [(t & T & A & P) _] X Al. rewrite (do_stub _ _ _ _ T A). unfold step_stub. rewrite P. unfold push_cmd. rewrite X, Al. reflexivity. Qed.
(** Moving a stub between states in which it holds no connection does not change who owns what. *)
Definition light (p : spc) : bool := match p with SShare _ _ _ | SHold _ _ _ => false | _ => true end.
Lemma pc_owned s n p q c : alone s n p -> light p = true -> light q = true -> owned_conn (upd_stub n (st_with_pc q) s) c <-> owned_conn s c.
Proof.
  intros [(t & T & A & P) _] L M. split; intros K.
  - destruct K; split_nth; same_nth; try discriminate; eauto using own_proxy, own_stub, own_opening, own_sending, own_listener, own_accepting, own_call, own_call'.
    all: subst; discriminate M.
  - assert (G : forall k u, nth_error (r_stubs s) k = Some u -> st_alive u = true -> forall a, In (a, c) (st_conns u) -> owned_conn (upd_stub n (st_with_pc q) s) c).
    { intros k u U B a I. destruct (Nat.eq_dec k n) as [->|D].
      - eapply (own_stub _ _ n (st_with_pc q u) a); [rcbn; rewrite nth_upd_same, U; reflexivity|exact B|exact I].
      - eapply (own_stub _ _ k u a); [rcbn; rewrite nth_upd_other by exact D; exact U|exact B|exact I]. }
    destruct K as [k y Y B E|k u a U B I|k u a m U B I|k u a m U B I|l y a Y B I|l y a Y B I|a id E|a id i E]; eauto.
    + eapply own_proxy; eassumption.
    + destruct (Nat.eq_dec k n) as [->|D]; [assert (u = t) by congruence; subst u; rewrite <- P, I in L; discriminate L|].
      eapply own_opening; [rcbn; rewrite nth_upd_other by exact D; exact U|exact B|exact I].
    + destruct (Nat.eq_dec k n) as [->|D]; [assert (u = t) by congruence; subst u; rewrite <- P, I in L; discriminate L|].
      eapply own_sending; [rcbn; rewrite nth_upd_other by exact D; exact U|exact B|exact I].
    + eapply own_listener; eassumption.
    + eapply own_accepting; eassumption.
    + eapply own_call; eassumption.
    + eapply own_call'; eassumption.
Qed.
Lemma pc_live s n p q a : alone s n p -> light p = true -> light q = true -> live_conn (upd_stub n (st_with_pc q) s) a = live_conn s a.
Proof.
  intros A L M. unfold live_conn. change (r_cmap (upd_stub n (st_with_pc q) s)) with (r_cmap s). destruct (map_get N.eqb a (r_cmap s)) as [c|]; [|reflexivity].
  pose proof (pc_owned s n p q c A L M) as K. rewrite <- !strong_owned in K.
  destruct (conn_strong (upd_stub n (st_with_pc q) s) c), (conn_strong s c); try reflexivity; [discriminate (proj1 K eq_refl)|discriminate (proj2 K eq_refl)].
Qed.
Lemma goto_alone s n p q : alone s n p -> alone (upd_stub n (st_with_pc q) s) n q.
Proof. intros A. eapply alone_goto; [exact A|reflexivity|]. intros t. split; reflexivity. Qed.

Definition reuse_run (n : nat) (a : N) (m : msg) (o : obs) : list (event * obs) :=
  [(ESendTo n a m, OUnit); (EStub n true, OUnit); (EStub n true, OUnit); (EStub n true, o)].
Lemma reuse s n a m c x : alone s n SFree -> live_conn s a = Some c -> nth_error (r_conns s) c = Some x -> c_alive x = true -> c_cmds x = [] ->
  exists s', run bk cbk s [ESendTo n a m; EStub n true; EStub n true; EStub n true] = Some (s', reuse_run n a m (OOk c m)).
Proof.
  intros A L X Al C. eexists. eapply run_cons; [apply do_start; exact A|]. assert (A1 := goto_alone _ _ _ (SCheck a m) A).
  assert (L1 := pc_live _ _ _ (SCheck a m) a A eq_refl eq_refl). rewrite L in L1.
  eapply run_cons; [eapply do_known; [exact A1|exact L1]|]. assert (A2 := goto_alone _ _ _ (SSend a m) A1).
  assert (L2 := pc_live _ _ _ (SSend a m) a A1 eq_refl eq_refl). rewrite L1 in L2.
  eapply run_cons; [eapply do_hold; [exact A2|exact L2]|]. assert (A3 := goto_alone _ _ _ (SHold a c m) A2).
  eapply run_cons; [eapply do_push; [exact A3|exact X|exact Al|exact C]|]. reflexivity.
Qed.
Lemma refuse s n a m c x : alone s n SFree -> live_conn s a = Some c -> nth_error (r_conns s) c = Some x -> c_alive x = false ->
  exists s', run bk cbk s [ESendTo n a m; EStub n true; EStub n true; EStub n true] = Some (s', reuse_run n a m OError) /\
    alone s' n SFree /\ live_conn s' a = None /\ r_ep s' = r_ep s /\ r_open s' = r_open s /\ r_datagram s' = r_datagram s /\ r_conns s' = r_conns s.
Proof.
  intros A L X Al. eexists. assert (A1 := goto_alone _ _ _ (SCheck a m) A).
  assert (L1 := pc_live _ _ _ (SCheck a m) a A eq_refl eq_refl). rewrite L in L1. assert (A2 := goto_alone _ _ _ (SSend a m) A1).
  assert (L2 := pc_live _ _ _ (SSend a m) a A1 eq_refl eq_refl). rewrite L1 in L2. assert (A3 := goto_alone _ _ _ (SHold a c m) A2).
  split.
  - eapply run_cons; [apply do_start; exact A|].
    eapply run_cons; [eapply do_known; [exact A1|exact L1]|]. 
    eapply run_cons; [eapply do_hold; [exact A2|exact L2]|]. 
    eapply run_cons; [eapply do_push_dead; [exact A3|exact X|exact Al]|]. reflexivity.
  - split; [eapply alone_goto; [exact A3|reflexivity|intros t; split; reflexivity]|]. split; [|repeat split].
    unfold live_conn. cbn [r_cmap upd_stub set_stubs set_cmap]. rewrite get_remove_same. reflexivity.
Qed.
Definition open_run (n : nat) (a : N) (m : msg) (c : nat) : list (event * obs) :=
  [(ESendTo n a m, OUnit); (EStub n true, OUnit); (EStub n true, OSpawned c a); (EStub n true, OUnit); (EStub n true, OUnit); (EStub n true, OOk c m)].
Lemma opens s n a m : alone s n SFree -> live_conn s a = None -> r_ep s = EpWait -> r_open s = true -> r_datagram s = true ->
  exists s', run bk cbk s [ESendTo n a m; EStub n true; EStub n true; EStub n true; EStub n true; EStub n true] = Some (s', open_run n a m (length (r_conns s))).
Proof.
  intros A L E O D. set (c := length (r_conns s)). assert (A1 := goto_alone _ _ _ (SCheck a m) A).
  assert (L1 := pc_live _ _ _ (SCheck a m) a A eq_refl eq_refl). rewrite L in L1. assert (A2 := goto_alone _ _ _ (SConnect a m) A1).
  eexists. eapply run_cons; [apply do_start; exact A|].
  eapply run_cons; [apply do_unknown; [exact A1|exact L1|exact O]|].
  eapply run_cons; [apply do_open; [exact A2|exact E|exact D]|]. 
  match goal with |- run _ _ ?z _ = _ => assert (A3 : alone z n (SShare a c m)) by (eapply alone_goto; [exact A2|reflexivity|intros t; split; reflexivity]) end.
  eapply run_cons; [apply do_store; exact A3|].
  match goal with |- run _ _ ?z _ = _ => assert (A4 : alone z n (SSend a m)) by (eapply alone_goto; [exact A3|reflexivity|intros t; split; reflexivity]);
    assert (L4 : live_conn z a = Some c); [|set (z4 := z) in *] end.
  { unfold live_conn. cbn [r_cmap upd_stub set_stubs set_cmap]. rewrite (get_insert_same _ N.eqb_eq). rewrite (proj2 (strong_owned _ _)); [reflexivity|].
    destruct A as [(t & T & Al & P) _]. eapply own_stub.
    - rcbn. rewrite nth_upd_same, !nth_upd_same, T. reflexivity.
    - exact Al.
    - left. reflexivity. }
  eapply run_cons; [eapply do_hold; [exact A4|exact L4]|]. assert (A5 := goto_alone _ _ _ (SHold a c m) A4).
  eapply run_cons; [apply (do_push _ n a c m true (new_conn a)); [exact A5| |reflexivity|reflexivity]|reflexivity]. unfold z4. apply nth_snoc_new.
Qed.
Lemma idle_alone s n : idle s -> stub_exists s n -> alone s n SFree.
Proof. intros I (t & T & A). assert (Q := idle_quiet _ I). split; [exists t; eauto|]. intros k u _ U. eapply Q. exact U. Qed.
Lemma conn_new tr s : history tr s -> forall a, ~ opened (length (r_conns s)) a tr.
Proof. intros H a K. destruct (opened_is _ _ _ _ _ _ _ H K) as (t & T & _). rewrite nth_length_none in T. discriminate T. Qed.
Theorem send_reuses tr s n a m c : history tr s -> idle s -> stub_exists s n -> shared_conn c a tr ->
  (forall d, opened d a tr -> conn_runs s d /\ owned_conn s d) ->
  exists s' d, run bk cbk s [ESendTo n a m; EStub n true; EStub n true; EStub n true] =
    Some (s', [(ESendTo n a m, OUnit); (EStub n true, OUnit); (EStub n true, OUnit); (EStub n true, OOk d m)]) /\ shared_conn d a tr.
Proof.
  intros H I X SC G. destruct (shared_known _ _ H _ _ SC) as [(d & M)|(_ & d & O & _ & [B|B])]; [|destruct (B (proj1 (G d O)))|destruct (B (proj2 (G d O)))].
  assert (SD := cmap_shared _ _ H _ _ (get_in _ N.eqb_eq _ _ _ M)).
  assert (OD : opened d a tr). { eapply pointed; [exact H|]. apply p_cmap. apply (get_in _ N.eqb_eq). exact M. }
  destruct (G d OD) as [(x & Y & Al) W]. destruct (reuse s n a m d x) as (s' & R).
  - apply idle_alone; assumption.
  - unfold live_conn. rewrite M, (proj2 (strong_owned _ _) W). reflexivity.
  - exact Y.
  - exact Al.
  - exact (proj1 (all_sent _ I _ _ Y)).
  - exists s', d. split; [exact R|exact SD].
Qed.
Theorem send_opens tr s n a m : history tr s -> idle s -> r_open s = true -> dg = true -> stub_exists s n ->
  (forall c, shared_conn c a tr -> ~ owned_conn s c) ->
  exists s' c, run bk cbk s [ESendTo n a m; EStub n true; EStub n true; EStub n true; EStub n true; EStub n true] =
    Some (s', [(ESendTo n a m, OUnit); (EStub n true, OUnit); (EStub n true, OSpawned c a); (EStub n true, OUnit); (EStub n true, OUnit);
               (EStub n true, OOk c m)]) /\ (forall b, ~ opened c b tr).
Proof.
  intros H I O D X G. destruct (opens s n a m) as (s' & R).
  - apply idle_alone; assumption.
  - unfold live_conn. destruct (map_get N.eqb a (r_cmap s)) as [c|] eqn:M; [|reflexivity]. destruct (conn_strong s c) eqn:W; [|reflexivity].
    destruct (G c); [eapply cmap_shared; [exact H|apply (get_in _ N.eqb_eq); exact M]|apply strong_owned; exact W].
  - exact (proj1 (no_call _ I)).
  - exact O.
  - rewrite (datagram_is _ _ H). exact D.
  - exists s', (length (r_conns s)). split; [exact R|apply (conn_new _ _ H)].
Qed.
Theorem send_recovers tr s n a m m' : history tr s -> idle s -> r_open s = true -> dg = true -> stub_exists s n ->
  (forall c, shared_conn c a tr -> ~ conn_runs s c) ->
  (exists s' c, run bk cbk s [ESendTo n a m; EStub n true; EStub n true; EStub n true; EStub n true; EStub n true] =
    Some (s', [(ESendTo n a m, OUnit); (EStub n true, OUnit); (EStub n true, OSpawned c a); (EStub n true, OUnit); (EStub n true, OUnit);
               (EStub n true, OOk c m)]) /\ (forall b, ~ opened c b tr)) \/
  (exists s1 s' c, run bk cbk s [ESendTo n a m; EStub n true; EStub n true; EStub n true] =
     Some (s1, [(ESendTo n a m, OUnit); (EStub n true, OUnit); (EStub n true, OUnit); (EStub n true, OError)]) /\
   run bk cbk s1 [ESendTo n a m'; EStub n true; EStub n true; EStub n true; EStub n true; EStub n true] =
    Some (s', [(ESendTo n a m', OUnit); (EStub n true, OUnit); (EStub n true, OSpawned c a); (EStub n true, OUnit); (EStub n true, OUnit);
               (EStub n true, OOk c m')]) /\ (forall b, ~ opened c b tr)).
Proof.
  intros H I O D X G. assert (A := idle_alone _ _ I X). assert (DG := datagram_is _ _ H). rewrite D in DG. destruct (live_conn s a) as [c|] eqn:L.
  - right. assert (N : ~ conn_runs s c). { apply G. eapply cmap_shared; [exact H|apply live_conn_in; exact L]. }
    assert (OP : opened c a tr). { eapply pointed; [exact H|]. apply p_cmap. apply live_conn_in. exact L. }
    destruct (opened_is _ _ _ _ _ _ _ H OP) as (x & Y & _). assert (Al : c_alive x = false). { destruct (c_alive x) eqn:Al; [|reflexivity]. destruct N. exists x. auto. }
    destruct (refuse s n a m c x A L Y Al) as (s1 & R & A1 & L1 & E1 & O1 & D1 & C1).
    destruct (opens s1 n a m' A1 L1) as (s' & R'); [rewrite E1; exact (proj1 (no_call _ I))|rewrite O1; exact O|rewrite D1; exact DG|].
    exists s1, s', (length (r_conns s1)). split; [exact R|]. split; [exact R'|]. rewrite C1. apply (conn_new _ _ H).
  - left. destruct (opens s n a m A L (proj1 (no_call _ I)) O DG) as (s' & R). exists s', (length (r_conns s)). split; [exact R|apply (conn_new _ _ H)].
Qed.

(** ** [proxy] *)
Lemma ep_owned s p c : r_ep s = EpWait -> match p with EpShare (OwnConn _ _) _ | EpTake (OwnConn _ _) _ _ => False | _ => True end ->
  owned_conn (set_ep p s) c <-> owned_conn s c.
Proof.
  intros E P. split; intros K; destruct K as [k y Y B F|k u b U B J|k u b m U B J|k u b m U B J|l y b Y B J|l y b Y B J|b i F|b i j F]; rcbn; try (subst p; destruct P); try congruence;
    eauto using own_proxy, own_stub, own_opening, own_sending, own_listener, own_accepting.
Qed.
Lemma ep_live s id a : r_ep s = EpWait -> live_conn (set_ep (EpReady id (Some a)) s) a = live_conn s a.
Proof.
  intros E. unfold live_conn. change (r_cmap (set_ep (EpReady id (Some a)) s)) with (r_cmap s). destruct (map_get N.eqb a (r_cmap s)) as [c|]; [|reflexivity].
  pose proof (ep_owned s (EpReady id (Some a)) c E I) as K. rewrite <- !strong_owned in K.
  destruct (conn_strong (set_ep (EpReady id (Some a)) s) c), (conn_strong s c); try reflexivity; [discriminate (proj1 K eq_refl)|discriminate (proj2 K eq_refl)].
Qed.
Theorem proxy_succeeds tr s id a : history tr s -> idle s -> r_open s = true -> ~ occupied s tr id ->
  (forall c, shared_conn c a tr -> owned_conn s c -> conn_runs s c) ->
  exists s' n p o, run bk cbk s [EProxy id a; EEp true; EEp true; EEp true; EEp true] =
    Some (s', [(EProxy id a, OUnit); (EEp true, OUnit); (EEp true, o); (EEp true, OUnit); (EEp true, OProxy n id a)]) /\
    (forall k b, ~ proxied n k b tr) /\ nth_error (r_proxies s') n = Some p /\ px_alive p = true /\ px_remote p = a /\ conn_runs s' (px_conn p) /\
    (o = OSpawned (px_conn p) a /\ (forall b, ~ opened (px_conn p) b tr) \/ o = OUnit /\ shared_conn (px_conn p) a tr /\ owned_conn s (px_conn p)).
Proof.
  intros H I O N G. assert (U := all_unlocked _ (all_routed _ I)). assert (F := all_free _ (no_send _ I)).
  assert (A1 : step s (EProxy id a) = Some (set_ep (EpCheck id (Some a)) s, OUnit)). { cbn. rewrite O, (proj1 (no_call _ I)). reflexivity. }
  assert (A2 := check_free _ _ _ (Some a) H I O N).
  assert (A3 := do_connect (set_ep (EpReady id (Some a)) s) id a eq_refl (F a)). rewrite (ep_live _ _ _ (proj1 (no_call _ I))) in A3.
  destruct (live_conn s a) as [c|] eqn:L.
  - assert (SC := cmap_shared _ _ H _ _ (live_conn_in _ _ _ L)). assert (W := live_conn_owned _ _ _ L). destruct (G c SC W) as (x & X & Al).
    destruct (all_sent _ I _ _ X) as [Q1 Q2].
    eexists. exists (length (r_proxies s)). eexists. exists OUnit. split; [|split; [apply (proxy_new _ _ H)|]].
    + eapply run_cons; [exact A1|]. eapply run_cons; [exact A2|]. eapply run_cons; [exact A3|].
      eapply run_cons. { apply do_share; [reflexivity|]. rewrite <- (U id). apply locked_same. reflexivity. }
      eapply run_cons. { match goal with |- RuntimeModel.step _ _ ?z _ = _ => apply (do_take_c z c a id (length (r_ifaces s)) true x); [reflexivity|exact X|exact Al|exact Q1] end. }
      reflexivity.
    + split; [rcbn; apply nth_snoc_new|]. split; [reflexivity|]. split; [reflexivity|]. split; [|right; split; [reflexivity|split; assumption]].
      eexists. rcbn. rewrite nth_upd_same, X. split; [reflexivity|exact Al].
  - eexists. exists (length (r_proxies s)). eexists. eexists. split; [|split; [apply (proxy_new _ _ H)|]].
    + eapply run_cons; [exact A1|]. eapply run_cons; [exact A2|]. eapply run_cons; [exact A3|].
      eapply run_cons. { apply do_share; [reflexivity|]. unfold locked. cbn [r_conns set_ep spawn set_conns]. rewrite existsb_app. cbn. rewrite orb_false_r. exact (U id). }
      eapply run_cons. { match goal with |- RuntimeModel.step _ _ ?z _ = _ => apply (do_take_c z (length (r_conns s)) a id (length (r_ifaces s)) true (new_conn a)); [reflexivity|apply nth_snoc_new|reflexivity|reflexivity] end. }
      reflexivity.
    + split; [rcbn; apply nth_snoc_new|]. split; [reflexivity|]. split; [reflexivity|]. split; [|left; split; [reflexivity|apply (conn_new _ _ H)]].
      eexists. rcbn. rewrite nth_upd_same, nth_snoc_new. split; reflexivity.
Qed.
(** A connection that ended but is still owned is in the way of [proxy]. *)
Theorem proxy_stuck tr s id a c : history tr s -> idle s -> r_open s = true -> ~ occupied s tr id ->
  shared_conn c a tr -> (forall d, shared_conn d a tr -> owned_conn s d /\ ~ conn_runs s d) -> (forall n ok, ~ In (EStub n ok, OError) tr) ->
  exists s', run bk cbk s [EProxy id a; EEp true; EEp true; EEp true; EEp true] =
    Some (s', [(EProxy id a, OUnit); (EEp true, OUnit); (EEp true, OUnit); (EEp true, OUnit); (EEp true, OError)]).
Proof.
  intros H I O N SC G NE. assert (U := all_unlocked _ (all_routed _ I)). assert (F := all_free _ (no_send _ I)).
  assert (A1 : step s (EProxy id a) = Some (set_ep (EpCheck id (Some a)) s, OUnit)). { cbn. rewrite O, (proj1 (no_call _ I)). reflexivity. }
  assert (A2 := check_free _ _ _ (Some a) H I O N).
  assert (A3 := do_connect (set_ep (EpReady id (Some a)) s) id a eq_refl (F a)). rewrite (ep_live _ _ _ (proj1 (no_call _ I))) in A3.
  destruct (shared_known _ _ H _ _ SC) as [(d & M)|((n & ok & E) & _)]; [|destruct (NE _ _ E)].
  destruct (G d) as [W ND]; [eapply cmap_shared; [exact H|apply (get_in _ N.eqb_eq); exact M]|].
  assert (L : live_conn s a = Some d). { unfold live_conn. rewrite M, (proj2 (strong_owned _ _) W). reflexivity. } rewrite L in A3.
  assert (OP : opened d a tr). { eapply pointed; [exact H|]. apply p_cmap. apply live_conn_in. exact L. }
  destruct (opened_is _ _ _ _ _ _ _ H OP) as (x & X & _). assert (Al : c_alive x = false). { destruct (c_alive x) eqn:Al; [|reflexivity]. destruct ND. exists x. auto. }
  eexists. eapply run_cons; [exact A1|]. eapply run_cons; [exact A2|]. eapply run_cons; [exact A3|].
  eapply run_cons. { apply do_share; [reflexivity|]. rewrite <- (U id). apply locked_same. reflexivity. }
  eapply run_cons. { match goal with |- RuntimeModel.step _ _ ?z _ = _ => apply (do_take_c_dead z d a id (length (r_ifaces s)) true x); [reflexivity|exact X|exact Al] end. }
  reflexivity.
Qed.
End Locks.
