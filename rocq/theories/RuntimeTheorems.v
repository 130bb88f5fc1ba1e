(** The theorems about the v1 runtime. *)
From Coq Require Import List NArith Bool PeanoNat Lia Sorting.Sorted.
From Verif Require Import BytesModel UniverseModel SomeipModel MapModel EndpointProofs RuntimeModel RuntimeSpec RuntimeProofs.
Import ListNotations.
Open Scope nat_scope.

Section Locks.
Context (bk : iid -> N) (cbk : N -> N) (dg : bool).
Notation history := (history bk cbk dg).
Notation step := (step bk cbk).
Notation steps := (steps bk cbk).

(** ** Histories and runs *)
Lemma steps_history tr s tr' s' : history tr s -> steps s tr' s' -> history (tr ++ tr') s'.
Proof.
  intros H S. revert tr H. induction S as [s|s e o s1 tr' s2 E S IH]; intros tr H.
  - rewrite app_nil_r. exact H.
  - replace (tr ++ (e, o) :: tr') with ((tr ++ [(e, o)]) ++ tr') by (rewrite <- app_assoc; reflexivity).
    apply IH. eapply h_more; eassumption.
Qed.
Lemma steps_snoc s tr s1 e o s2 : steps s tr s1 -> step s1 e = Some (s2, o) -> steps s (tr ++ [(e, o)]) s2.
Proof.
  intros S E. induction S as [s|s e' o' s' tr' s'' F S IH]; cbn.
  - eapply s_more; [exact E|apply s_none].
  - eapply s_more; [exact F|]. apply IH. exact E.
Qed.
Lemma history_split tr s : history tr s -> forall tr1 tr2, tr = tr1 ++ tr2 -> exists s1, history tr1 s1 /\ steps s1 tr2 s.
Proof.
  induction 1 as [|tr s e s' o H IH E]; intros tr1 tr2 Et.
  - symmetry in Et. apply app_eq_nil in Et. destruct Et as [-> ->]. eexists. split; [apply h_start|apply s_none].
  - destruct tr2 as [|x tr2 _] using rev_ind.
    + rewrite app_nil_r in Et. subst tr1. exists s'. split; [eapply h_more; eassumption|apply s_none].
    + rewrite app_assoc in Et. apply app_inj_tail in Et. destruct Et as [Et <-].
      destruct (IH _ _ Et) as (s1 & H1 & S1). exists s1. split; [exact H1|]. eapply steps_snoc; eassumption.
Qed.
Lemma run_history es tr s : history tr s -> forall tr' s', run bk cbk s es = Some (s', tr') -> history (tr ++ tr') s'.
Proof.
  revert tr s. induction es as [|e es IH]; intros tr s H tr' s' R; cbn in R.
  - injection R as <- <-. rewrite app_nil_r. exact H.
  - destruct (step s e) as [[s1 o]|] eqn:E; [|discriminate].
    destruct (run bk cbk s1 es) as [[s2 t2]|] eqn:R2; [|discriminate]. injection R as <- <-.
    replace (tr ++ (e, o) :: t2) with ((tr ++ [(e, o)]) ++ t2) by (rewrite <- app_assoc; reflexivity).
    eapply IH; [|exact R2]. eapply h_more; eassumption.
Qed.

(** ** C46 *)
Lemma got_in n tr it : In (ERecvFrom n, OMsg it) tr <-> In it (stub_got n tr).
Proof.
  unfold stub_got. rewrite in_flat_map. split.
  - intros H. exists (ERecvFrom n, OMsg it). split; [exact H|]. rewrite Nat.eqb_refl. left. reflexivity.
  - intros ((e & o) & H & K). destruct e, o; try destruct K. destruct (n0 =? n) eqn:E; [|destruct K].
    apply Nat.eqb_eq in E. destruct K as [<-|[]]. subst. exact H.
Qed.
Lemma pgot_in n tr it : In (EProxyRecv n, OMsg it) tr <-> In it (proxy_got n tr).
Proof.
  unfold proxy_got. rewrite in_flat_map. split.
  - intros H. exists (EProxyRecv n, OMsg it). split; [exact H|]. rewrite Nat.eqb_refl. left. reflexivity.
  - intros ((e & o) & H & K). destruct e, o; try destruct K. destruct (n0 =? n) eqn:E; [|destruct K].
    apply Nat.eqb_eq in E. destruct K as [<-|[]]. subst. exact H.
Qed.
Lemma stub_iface s tr n t : Inv bk tr (view s) -> nth_error (r_stubs s) n = Some t ->
  exists y, nth_error (r_ifaces s) (st_iface t) = Some y /\ i_rx y = st_alive t /\ stub_got n tr = taken y.
Proof.
  intros V Ht. assert (K := nth_vs _ _ _ Ht).
  destruct (v_rx _ (in3 _ _ _ V) (st_iface t) (RStub n) (st_alive t)) as (y & Hy & R); [eapply rf_stub with (t := vs t); [exact K|reflexivity]|].
  exists y. split; [exact Hy|]. split; [exact R|]. eapply (v_got _ _ (in6 _ _ _ V)); [exact K|exact Hy].
Qed.
Lemma proxy_iface s tr n p : Inv bk tr (view s) -> nth_error (r_proxies s) n = Some p ->
  exists y, nth_error (r_ifaces s) (px_iface p) = Some y /\ i_rx y = px_alive p /\ proxy_got n tr = mine (px_remote p) (taken y).
Proof.
  intros V Ht.
  destruct (v_rx _ (in3 _ _ _ V) (px_iface p) (RProxy n) (px_alive p)) as (y & Hy & R); [eapply rf_proxy; [exact Ht|reflexivity]|].
  exists y. split; [exact Hy|]. split; [exact R|]. eapply (v_pgot _ _ (in6 _ _ _ V)); [exact Ht|exact Hy].
Qed.
Lemma in_taken it y : In it (taken y) -> In it (i_log y).
Proof. unfold taken. intros H. rewrite <- (firstn_skipn (i_next y) (i_log y)). apply in_or_app. left. exact H. Qed.
Lemma logged tr s i y it : Inv bk tr (view s) -> nth_error (r_ifaces s) i = Some y -> In it (i_log y) ->
  iid_of (it_msg it) = i_id y /\ nth_error (decoded (it_conn it) tr) (it_no it) = Some (it_msg it) /\
  opened (it_conn it) (it_addr it) tr.
Proof.
  intros V Hy Hi. destruct (v_log _ _ (in5 _ _ _ V) i y it Hy Hi) as (L1 & L2 & x & Hx & La & _).
  split; [exact L1|]. split; [exact L2|]. rewrite La. apply (v_opened _ _ (in5 _ _ _ V)). exact Hx.
Qed.
Lemma stub_of_served s tr n id : Inv bk tr (view s) -> served n id tr ->
  exists t, nth_error (r_stubs s) n = Some t /\ idof (view s) (st_iface t) = Some id.
Proof.
  intros V H. destruct (v_served _ _ (in6 _ _ _ V) n id H) as (t & Ht & Hi). cbn in Ht.
  rewrite nth_error_map in Ht. destruct (nth_error (r_stubs s) n) as [u|] eqn:E; [|discriminate].
  injection Ht as <-. exists u. split; [reflexivity|exact Hi].
Qed.
Lemma idof_is s i id y : idof (view s) i = Some id -> nth_error (r_ifaces s) i = Some y -> i_id y = id.
Proof. unfold idof. cbn. intros H E. rewrite E in H. cbn in H. congruence. Qed.

Lemma stub_routing tr s n id it : history tr s -> served n id tr -> In (ERecvFrom n, OMsg it) tr ->
  iid_of (it_msg it) = id /\
  nth_error (decoded (it_conn it) tr) (it_no it) = Some (it_msg it) /\
  opened (it_conn it) (it_addr it) tr.
Proof.
  intros H Hs Hm. assert (V := history_inv _ _ _ _ _ H).
  destruct (stub_of_served _ _ _ _ V Hs) as (t & Ht & Hi).
  destruct (stub_iface _ _ _ _ V Ht) as (y & Hy & _ & G). apply got_in in Hm. rewrite G in Hm. apply in_taken in Hm.
  destruct (logged _ _ _ _ _ V Hy Hm) as (L1 & L2 & L3). rewrite (idof_is _ _ _ _ Hi Hy) in L1. auto.
Qed.
Lemma proxy_routing tr s n id a it : history tr s -> proxied n id a tr -> In (EProxyRecv n, OMsg it) tr ->
  iid_of (it_msg it) = id /\ it_addr it = a /\
  nth_error (decoded (it_conn it) tr) (it_no it) = Some (it_msg it) /\
  opened (it_conn it) a tr.
Proof.
  intros H Hs Hm. assert (V := history_inv _ _ _ _ _ H).
  destruct (v_proxied _ _ (in6 _ _ _ V) n id a Hs) as (t & Ht & Hr & Hi).
  destruct (proxy_iface _ _ _ _ V Ht) as (y & Hy & _ & G). apply pgot_in in Hm. rewrite G in Hm.
  apply filter_In in Hm. destruct Hm as (Hm & E). apply N.eqb_eq in E. apply in_taken in Hm.
  destruct (logged _ _ _ _ _ V Hy Hm) as (L1 & L2 & L3). rewrite (idof_is _ _ _ _ Hi Hy) in L1.
  assert (it_addr it = a) by congruence. split; [exact L1|]. split; [assumption|]. split; [exact L2|congruence].
Qed.
(** Only stubs and proxies that were created receive anything. *)
Lemma created tr s : history tr s ->
  (forall n t, nth_error (r_stubs s) n = Some t -> exists id, served n id tr) /\
  (forall n p, nth_error (r_proxies s) n = Some p -> exists id, proxied n id (px_remote p) tr).
Proof.
  induction 1 as [|tr s e s' o H [IH1 IH2] E]; [split; intros [|n] t Ht; discriminate|].
  apply step_view in E. split; intros n t Ht.
  - apply nth_vs in Ht. destruct (stub_back _ _ _ _ _ _ _ E Ht) as [(t0 & H0 & _)|(_ & _ & id & _ & ->)].
    + cbn in H0. rewrite nth_error_map in H0. destruct (nth_error (r_stubs s) n) as [u|] eqn:U; [|discriminate].
      destruct (IH1 _ _ U) as (id & e' & I). exists id, e'. apply in_or_app. auto.
    + exists id, e. apply in_or_app. right. left. reflexivity.
  - destruct (proxy_back _ _ _ _ _ _ _ E Ht) as [(t0 & H0 & _ & -> & _)|(_ & _ & id & _ & ->)].
    + destruct (IH2 _ _ H0) as (id & e' & I). exists id, e'. apply in_or_app. auto.
    + exists id, e. apply in_or_app. right. left. reflexivity.
Qed.
Lemma receiver_created tr s n it : history tr s ->
  (In (ERecvFrom n, OMsg it) tr -> exists id, served n id tr) /\
  (In (EProxyRecv n, OMsg it) tr -> exists id a, proxied n id a tr).
Proof.
  intros H. assert (V := history_inv _ _ _ _ _ H). destruct (created _ _ H) as [C1 C2]. split; intros I.
  - apply got_in in I. destruct (nth_error (r_stubs s) n) as [t|] eqn:E; [exact (C1 _ _ E)|].
    rewrite (v_got0 _ _ (in6 _ _ _ V)) in I; [destruct I|]. cbn. rewrite nth_error_map, E. reflexivity.
  - apply pgot_in in I. destruct (nth_error (r_proxies s) n) as [t|] eqn:E; [destruct (C2 _ _ E); eauto|].
    rewrite (v_pgot0 _ _ (in6 _ _ _ V)) in I; [destruct I|exact E].
Qed.

(** ** C47 *)
Lemma sorted_positions (l : list item) c :
  (forall p q it ju, p < q -> nth_error l p = Some it -> nth_error l q = Some ju -> it_conn it = it_conn ju -> it_no it < it_no ju) ->
  StronglySorted lt (map it_no (from_conn c l)).
Proof.
  induction l as [|x l IH]; intros H; [constructor|]. unfold from_conn. cbn [filter].
  assert (K : StronglySorted lt (map it_no (from_conn c l))).
  { apply IH. intros p q it ju L Hp Hq. apply (H (S p) (S q)); [lia|exact Hp|exact Hq]. }
  destruct (it_conn x =? c) eqn:E; [|exact K]. cbn. constructor; [exact K|].
  apply Nat.eqb_eq in E. apply Forall_forall. intros k Hk. apply in_map_iff in Hk. destruct Hk as (ju & <- & Hj).
  apply filter_In in Hj. destruct Hj as (Hj & F). apply Nat.eqb_eq in F. apply In_nth_error in Hj. destruct Hj as (q & Hq).
  apply (H 0 (S q) x ju); [lia|reflexivity|exact Hq|congruence].
Qed.
Lemma nth_firstn {B} n (l : list B) p x : nth_error (firstn n l) p = Some x -> nth_error l p = Some x.
Proof. revert l p. induction n as [|n IH]; intros [|y l] [|p] H; cbn in *; try discriminate; [exact H|apply IH; exact H]. Qed.
Lemma sorted_filter (p : item -> bool) l : StronglySorted lt (map it_no l) -> StronglySorted lt (map it_no (filter p l)).
Proof.
  induction l as [|x l IH]; intros H; [constructor|]. cbn in H. inversion H; subst. cbn. destruct (p x); [|apply IH; assumption].
  cbn. constructor; [apply IH; assumption|]. rewrite Forall_forall in *. intros k Hk. apply in_map_iff in Hk.
  destruct Hk as (it & <- & Hi). apply filter_In in Hi. destruct Hi as (Hi & _). match goal with H : forall x, In x _ -> _ |- _ => apply H end. apply in_map. exact Hi.
Qed.
Lemma filter_comm {B} (p q : B -> bool) l : filter p (filter q l) = filter q (filter p l).
Proof. induction l as [|x l IH]; [reflexivity|]. cbn. destruct (q x) eqn:Q, (p x) eqn:P; cbn; rewrite ?P, ?Q, IH; reflexivity. Qed.

Lemma iface_sorted tr s i y c : Inv bk tr (view s) -> nth_error (r_ifaces s) i = Some y ->
  StronglySorted lt (map it_no (from_conn c (i_log y))).
Proof.
  intros V Hy. apply sorted_positions. intros p q it ju L Hp Hq E.
  eapply (v_ord _ _ (in5 _ _ _ V)); [exact Hy|exact L|exact Hp|exact Hq|exact E].
Qed.
Lemma taken_sorted tr s i y c : Inv bk tr (view s) -> nth_error (r_ifaces s) i = Some y ->
  StronglySorted lt (map it_no (from_conn c (taken y))).
Proof.
  intros V Hy. apply sorted_positions. intros p q it ju L Hp Hq E. unfold taken in *.
  eapply (v_ord _ _ (in5 _ _ _ V)); [exact Hy|exact L|eapply nth_firstn; exact Hp|eapply nth_firstn; exact Hq|exact E].
Qed.
Lemma in_order tr s n c : history tr s ->
  StronglySorted lt (map it_no (from_conn c (stub_got n tr))) /\
  StronglySorted lt (map it_no (from_conn c (proxy_got n tr))).
Proof.
  intros H. assert (V := history_inv _ _ _ _ _ H). split.
  - destruct (nth_error (r_stubs s) n) as [t|] eqn:E.
    + destruct (stub_iface _ _ _ _ V E) as (y & Hy & _ & ->). eapply taken_sorted; eassumption.
    + rewrite (v_got0 _ _ (in6 _ _ _ V)); [constructor|]. cbn. rewrite nth_error_map, E. reflexivity.
  - destruct (nth_error (r_proxies s) n) as [t|] eqn:E.
    + destruct (proxy_iface _ _ _ _ V E) as (y & Hy & _ & ->). unfold from_conn, mine. rewrite filter_comm.
      apply sorted_filter. eapply taken_sorted; eassumption.
    + rewrite (v_pgot0 _ _ (in6 _ _ _ V)); [constructor|]. exact E.
Qed.
Lemma at_most_once tr s : history tr s -> NoDup (map which (all_got tr)).
Proof. intros H. exact (v_nodup _ _ (in6 _ _ _ (history_inv _ _ _ _ _ H))). Qed.
Lemma backlog_bounded tr s n : history tr s -> length (stub_backlog s n) <= 16 /\ length (proxy_backlog s n) <= 16.
Proof.
  intros H. assert (V := history_inv _ _ _ _ _ H). unfold stub_backlog, proxy_backlog. split.
  - destruct (nth_error (r_stubs s) n) as [t|]; [|cbn; lia]. destruct (nth_error (r_ifaces s) (st_iface t)) as [y|] eqn:E; [|cbn; lia].
    assert (K := v_cap _ _ (in5 _ _ _ V) _ _ E). unfold i_queue. rewrite skipn_length. lia.
  - destruct (nth_error (r_proxies s) n) as [t|]; [|cbn; lia]. destruct (nth_error (r_ifaces s) (px_iface t)) as [y|] eqn:E; [|cbn; lia].
    assert (K := v_cap _ _ (in5 _ _ _ V) _ _ E). unfold i_queue. rewrite skipn_length. lia.
Qed.

Lemma stub_owned s tr n t : Inv bk tr (view s) -> nth_error (r_stubs s) n = Some t -> st_alive t = true ->
  stub_listening s n -> exists id, idof (view s) (st_iface t) = Some id /\ held (view s) id (st_iface t) /\ rx (view s) (st_iface t).
Proof.
  intros V Ht Ha (t' & x & Ht' & Hx & Hl). assert (t' = t) by congruence. subst t'.
  destruct (v_listen _ (in4 _ _ _ V) n (vs t) (vl x)) as (id & Hi & G).
  - apply nth_vs. exact Ht.
  - exact Ha.
  - apply (nth_vl s). exact Hx.
  - exact Hl.
  - exists id. split; [exact Hi|]. split; [eapply held_settled; [apply (nth_vl s); exact Hx|exact G]|].
    destruct (stub_iface _ _ _ _ V Ht) as (y & Hy & R & _). exists y. split; [exact Hy|congruence].
Qed.
Lemma proxy_owned s tr n p : Inv bk tr (view s) -> nth_error (r_proxies s) n = Some p -> px_alive p = true ->
  proxy_connected s n -> exists id, idof (view s) (px_iface p) = Some id /\ held (view s) id (px_iface p) /\ rx (view s) (px_iface p).
Proof.
  intros V Ht Ha (t' & Ht' & x & Hx & Hl). assert (t' = p) by congruence. subst t'.
  destruct (v_linked _ (in4 _ _ _ V) n p (vc x)) as (id & Hi & G).
  - exact Ht.
  - exact Ha.
  - apply (nth_vc s). exact Hx.
  - exact Hl.
  - exists id. split; [exact Hi|]. split; [eapply held_csettled; [apply (nth_vc s); exact Hx|exact G]|].
    destruct (proxy_iface _ _ _ _ V Ht) as (y & Hy & R & _). exists y. split; [exact Hy|congruence].
Qed.

(** Nothing is lost. *)
Definition vwait (A : av) (c : nat) : list item := match nth_error (a_conns A) c with Some x => pend x | None => [] end.
Definition vlog (A : av) (i : nat) : list item := match nth_error (a_ifaces A) i with Some y => i_log y | None => [] end.
Definition vruns (A : av) (c : nat) : Prop := exists x, nth_error (a_conns A) c = Some x /\ v_alive x = true.
Lemma decoded_one c e o tr : decoded c (tr ++ [(e, o)]) = decoded c tr ++ decoded c [(e, o)].
Proof. unfold decoded. apply flat_map_app. Qed.
Lemma for_id_app id p q : for_id id (p ++ q) = for_id id p ++ for_id id q.
Proof. apply filter_app. Qed.
Lemma from_conn_app c p q : from_conn c (p ++ q) = from_conn c p ++ from_conn c q.
Proof. apply filter_app. Qed.
Lemma for_id_number id c a n ms : map it_msg (for_id id (number c a n ms)) = filter (of_id id) ms.
Proof.
  revert n. induction ms as [|m ms IH]; intros n; [reflexivity|]. unfold for_id in *. cbn [number filter it_msg].
  destruct (of_id id m); cbn [map it_msg]; rewrite IH; reflexivity.
Qed.
Lemma quiet_decoded c e o o' : quiet e o' -> decoded c [(e, o)] = [].
Proof. intros Q. assert (K := decoded_quiet c [] e o o' Q). exact K. Qed.

Lemma keeps_step tr A e o A' c i id : Inv bk tr A -> astep bk A e o A' -> held A id i -> rx A i -> vruns A' c ->
  exists more, vlog A' i = vlog A i ++ more /\
    map it_msg (from_conn c more ++ for_id id (vwait A' c)) = map it_msg (for_id id (vwait A c)) ++ filter (of_id id) (decoded c [(e, o)]).
Proof.
  intros V S Hh Hr (x' & Hx' & Ha).
  assert (G : get A id = Some i) by (apply (v_reach _ (in2 _ _ _ V)); assumption).
  assert (I : idof A i = Some id) by (apply (v_ids _ _ (in1 _ _ _ V)); assumption).
  destruct Hr as (y & Hy & Hrx).
  assert (W : vwait A' c = pend x') by (unfold vwait; rewrite Hx'; reflexivity).
  destruct (iface_later _ _ _ _ _ _ _ S Hy) as (y' & more & Hy' & _ & _ & L).
  assert (M : vlog A' i = vlog A i ++ more) by (unfold vlog; rewrite Hy, Hy'; exact L).
  exists more. split; [exact M|].
  (* what was added to the log of [i] *)
  assert (B : more = [] \/ exists d x it todo, more = [it] /\ e = ERoute d /\ o = ORouted it /\ nth_error (a_conns A) d = Some x /\
              v_recv x = RHold i it todo /\ a_conns A' = upd d (v_with_recv (RWait todo)) (a_conns A)).
  { destruct more as [|it more]; [left; reflexivity|right].
    destruct (log_back _ _ _ _ _ _ _ (length (i_log y)) it S Hy') as [(z & Hz & Hn & _)|(d & x & z & todo & -> & -> & Hx & Hv & Hc & Hz & _ & Hl & _)].
    - rewrite L, nth_error_app2, Nat.sub_diag by lia. reflexivity.
    - assert (z = y) by congruence. subst z. rewrite nth_length_none in Hn. discriminate.
    - assert (z = y) by congruence. subst z y'. cbn in L. apply app_inv_head in L. injection L as <-. exists d, x, it, todo. auto 10. }
  assert (P : forall d x it, nth_error (a_conns A) d = Some x -> In it (pend x) -> it_conn it = d)
    by (intros d x it Hd Hi; apply (v_pend _ _ (in5 _ _ _ V) d x it Hd Hi)).
  rewrite W, map_app. unfold vwait.
  destruct (step_pchange bk A tr _ _ _ _ _ S Hx') as [a -> -> -> D|x H Q Ad C D|x H Q Ad C D|x it H -> Ho Q Ad C D|x ms H Q Q' Ad C D];
    rewrite decoded_one in D.
  - rewrite nth_length_none. destruct B as [->|(d & x & it & todo & _ & _ & [=] & _)].
    rewrite <- (app_nil_r (decoded _ tr)) in D at 2. apply app_inv_head in D. rewrite D. reflexivity.
  - rewrite H, Q. rewrite <- (app_nil_r (decoded _ tr)) in D at 2. apply app_inv_head in D. rewrite D, app_nil_r.
    destruct B as [->|(d & z & it & todo & -> & _ & _ & Hz & Hv & Hc)]; [reflexivity|].
    unfold from_conn. cbn. assert (E : it_conn it = d) by (eapply P; [exact Hz|unfold pend; rewrite Hv; left; reflexivity]).
    destruct (it_conn it =? c) eqn:E'; [|reflexivity]. exfalso. apply Nat.eqb_eq in E'. subst d. rewrite E' in *.
    assert (z = x) by congruence. subst z. rewrite Hc, nth_upd_same, H in Hx'. injection Hx' as <-.
    unfold pend in Q. rewrite Hv in Q. cbn in Q. apply (f_equal (@length _)) in Q. cbn in Q. lia.
  - congruence.
  - rewrite H, Q. rewrite <- (app_nil_r (decoded _ tr)) in D at 2. apply app_inv_head in D. rewrite D, app_nil_r, <- map_app.
    unfold for_id. cbn [filter]. fold (for_id id (pend x')).
    change (of_id id (it_msg it)) with (iid_eqb (iid_of (it_msg it)) id).
    destruct (pop_spec _ _ _ _ _ _ _ S H Ho) as [(-> & j & todo & z & Hv & Hz & Hi)|(-> & Hi & Hd)].
    + assert (E : it_conn it = c) by (eapply P; [exact H|unfold pend; rewrite Hv; left; reflexivity]).
      assert (Gj := v_lock _ _ (in1 _ _ _ V) _ _ _ _ _ H Hv).
      destruct (iid_eqb (iid_of (it_msg it)) id) eqn:F.
      * apply iid_eqb_ok in F. rewrite F in Gj. change (get A id = Some j) in Gj. assert (j = i) by congruence. subst j.
        rewrite Hi, nth_upd_same, Hy in Hy'. injection Hy' as <-. cbn in L. apply app_inv_head in L. subst more.
        unfold from_conn. cbn. rewrite E, Nat.eqb_refl. reflexivity.
      * assert (j <> i). { intros ->. apply (v_map _ _ (in1 _ _ _ V)) in Gj. assert (iid_of (it_msg it) = id) by congruence.
          apply iid_eqb_ok in H0. congruence. }
        rewrite Hi, nth_upd_other, Hy in Hy' by congruence. injection Hy' as <-. rewrite <- (app_nil_r (i_log y)) in L at 1.
        apply app_inv_head in L. subst more. reflexivity.
    + assert (F : iid_eqb (iid_of (it_msg it)) id = false).
      { destruct (iid_eqb (iid_of (it_msg it)) id) eqn:F; [|reflexivity]. exfalso. apply iid_eqb_ok in F. rewrite F in Hd.
        destruct Hd as [Hd|[(j & Hg & Hs)|(j & todo & z & Hv & Hz & Hzr)]].
        - congruence.
        - assert (j = i) by congruence. subst j. rewrite (proj2 (strong_held bk _ _ (in1 _ _ _ V))) in Hs by eauto. discriminate.
        - assert (Gj := v_lock _ _ (in1 _ _ _ V) _ _ _ _ _ H Hv). rewrite F in Gj. change (get A id = Some j) in Gj.
          assert (j = i) by congruence. subst j. congruence. }
      rewrite F. rewrite Hi, Hy in Hy'. injection Hy' as <-. rewrite <- (app_nil_r (i_log y)) in L at 1.
      apply app_inv_head in L. subst more. reflexivity.
  - rewrite H, Q, Q'. apply app_inv_head in D. rewrite D. cbn. rewrite for_id_number.
    destruct B as [->|(d & z & it & todo & -> & -> & -> & Hz & Hv & Hc)]; [reflexivity|].
    cbn in D. subst ms. unfold from_conn. cbn. 
    assert (E : it_conn it = d) by (eapply P; [exact Hz|unfold pend; rewrite Hv; left; reflexivity]).
    destruct (it_conn it =? c) eqn:E'; [|reflexivity]. exfalso. apply Nat.eqb_eq in E'. subst d. rewrite E' in *.
    assert (z = x) by congruence. subst z. unfold pend in Q. rewrite Hv in Q. discriminate.
Qed.

Lemma steps_unsnoc s tr e o s2 : steps s (tr ++ [(e, o)]) s2 -> exists s1, steps s tr s1 /\ step s1 e = Some (s2, o).
Proof.
  revert s. induction tr as [|p tr IH]; intros s S; cbn in S; inversion S; subst.
  - match goal with H : RuntimeSpec.steps _ _ _ [] _ |- _ => inversion H; subst end. eexists. split; [apply s_none|assumption].
  - match goal with H : RuntimeSpec.steps _ _ _ (_ ++ _) _ |- _ => apply IH in H; destruct H as (s1' & S1 & E1) end.
    exists s1'. split; [|exact E1]. eapply s_more; eassumption.
Qed.
Lemma view_runs s c : conn_runs s c -> vruns (view s) c.
Proof. intros (x & Hx & Ha). exists (vc x). split; [apply nth_vc; exact Hx|exact Ha]. Qed.
Lemma view_wait s c : vwait (view s) c = waiting s c.
Proof. unfold vwait, waiting. cbn. rewrite nth_error_map. destruct (nth_error (r_conns s) c) as [x|]; reflexivity. Qed.
Lemma decoded_app c t1 t2 : decoded c (t1 ++ t2) = decoded c t1 ++ decoded c t2.
Proof. apply flat_map_app. Qed.

Lemma keeps (R : rt -> Prop) c i id tr1 s1 :
  history tr1 s1 ->
  (forall tr s, steps s1 tr s -> R s -> held (view s) id i /\ rx (view s) i) ->
  (forall tr s e o s', steps s1 tr s -> step s e = Some (s', o) -> R s' -> R s) ->
  forall tr2 s2, steps s1 tr2 s2 -> R s2 -> conn_runs s2 c \/ nth_error (r_conns s2) c = None ->
  exists more, vlog (view s2) i = vlog (view s1) i ++ more /\
    map it_msg (from_conn c more ++ for_id id (waiting s2 c)) = map it_msg (for_id id (waiting s1 c)) ++ filter (of_id id) (decoded c tr2).
Proof.
  intros H1 RH RB tr2. induction tr2 as [|[e o] tr IH] using rev_ind; intros s2 S R2 C.
  - inversion S; subst. exists []. rewrite app_nil_r. split; [reflexivity|]. cbn. rewrite app_nil_r. reflexivity.
  - apply steps_unsnoc in S. destruct S as (s & S & E).
    assert (H := steps_history _ _ _ _ H1 S). assert (V := history_inv _ _ _ _ _ H). assert (Rs := RB _ _ _ _ _ S E R2).
    assert (H' := h_more _ _ _ _ _ _ _ _ H E). assert (V' := history_inv _ _ _ _ _ H').
    assert (E0 := E). apply step_view in E. destruct (RH _ _ S Rs) as (Hh & Hr).
    assert (C0 : conn_runs s c \/ nth_error (r_conns s) c = None).
    { destruct (nth_error (r_conns s) c) as [x|] eqn:X; [|right; reflexivity]. left.
      destruct C as [(x' & Hx' & Ha)|C].
      - exists x. split; [exact X|]. change (v_alive (vc x) = true). eapply alive_back; [exact E|apply nth_vc; exact X|apply nth_vc; exact Hx'|exact Ha].
      - exfalso. destruct (conn_later _ _ _ _ _ _ _ E (nth_vc _ _ _ X)) as (x' & Hx' & _). cbn in Hx'. rewrite nth_error_map, C in Hx'. discriminate. }
    destruct (IH _ S Rs C0) as (more & L & M).
    destruct C as [C|C].
    + destruct (keeps_step _ _ _ _ _ c i id V E Hh Hr (view_runs _ _ C)) as (more' & L' & M').
      exists (more ++ more'). rewrite L', L, app_assoc. split; [reflexivity|].
      rewrite !view_wait in M'. rewrite from_conn_app, decoded_app, filter_app, <- app_assoc, map_app, M', !app_assoc. f_equal.
      rewrite <- M, map_app. reflexivity.
    + (* the connection does not exist yet *)
      assert (N2 : decoded c ((tr1 ++ tr) ++ [(e, o)]) = []).
      { apply (v_cnt0 _ _ (in5 _ _ _ V')). cbn. rewrite nth_error_map, C. reflexivity. }
      rewrite <- app_assoc, decoded_app in N2. apply app_eq_nil in N2. destruct N2 as [_ N2].
      assert (N1 : nth_error (r_conns s1) c = None).
      { destruct (nth_error (r_conns s1) c) as [x|] eqn:X; [|reflexivity]. exfalso.
        assert (K : forall tr' s', steps s1 tr' s' -> nth_error (r_conns s') c <> None).
        { intros tr'. induction tr' as [|[e' o'] tr' IHt] using rev_ind; intros s' S'.
          - inversion S'; subst. congruence.
          - apply steps_unsnoc in S'. destruct S' as (s0 & S0 & E'). specialize (IHt _ S0). apply step_view in E'.
            destruct (nth_error (r_conns s0) c) as [z|] eqn:Z; [|congruence].
            destruct (conn_later _ _ _ _ _ _ _ E' (nth_vc _ _ _ Z)) as (x' & Hx' & _). cbn in Hx'. rewrite nth_error_map in Hx'.
            destruct (nth_error (r_conns s') c); [discriminate|discriminate Hx']. }
        eapply K; [eapply steps_snoc; [exact S|exact E0]|exact C]. }
      destruct Hr as (y & Hy & Hrx). destruct (iface_later _ _ _ _ _ _ _ E Hy) as (y' & m & Hy' & _ & _ & Lm).
      exists (more ++ m). rewrite app_assoc, <- L. unfold vlog at 1 2. rewrite Hy, Hy'. split; [exact Lm|].
      rewrite N2. unfold waiting. rewrite C, N1. cbn. rewrite app_nil_r.
      assert (F : forall it, In it (more ++ m) -> (it_conn it =? c) = false).
      { intros it Hi. apply Nat.eqb_neq. intros F. destruct (v_log _ _ (in5 _ _ _ V') i y' it Hy') as (_ & _ & z & Hz & _).
        - rewrite Lm. unfold vlog in L. rewrite Hy in L. rewrite L, <- app_assoc. apply in_or_app. right. exact Hi.
        - rewrite F in Hz. cbn in Hz. rewrite nth_error_map, C in Hz. discriminate. }
      unfold from_conn. clear - F. induction (more ++ m) as [|it l IHl]; [reflexivity|]. cbn. rewrite F by (left; reflexivity).
      apply IHl. intros ju Hj. apply F. right. exact Hj.
Qed.

(** A connection has one address. *)
Lemma opened_is tr s c a : history tr s -> opened c a tr -> exists x, nth_error (r_conns s) c = Some x /\ c_addr x = a.
Proof.
  induction 1 as [|tr s e s' o H IH E]; intros (e' & He); [destruct He|]. apply step_view in E. apply in_snoc in He. destruct He as [He|He].
  - destruct IH as (x & Hx & Ha); [exists e'; exact He|].
    destruct (conn_later _ _ _ _ _ _ _ E (nth_vc _ _ _ Hx)) as (x' & Hx' & Ha'). cbn in Hx'. rewrite nth_error_map in Hx'.
    destruct (nth_error (r_conns s') c) as [z|]; [|discriminate]. injection Hx' as <-. exists z. split; [reflexivity|]. cbn in Ha'. congruence.
  - injection He as -> <-. destruct (spawned_is _ _ _ _ _ _ E) as (x & Hx & Ha). cbn in Hx. rewrite nth_error_map in Hx.
    destruct (nth_error (r_conns s') c) as [z|]; [|discriminate]. injection Hx as <-. exists z. auto.
Qed.

Lemma stub_log tr s n t : Inv bk tr (view s) -> nth_error (r_stubs s) n = Some t -> stub_got n tr ++ stub_backlog s n = vlog (view s) (st_iface t).
Proof.
  intros V Ht. destruct (stub_iface _ _ _ _ V Ht) as (y & Hy & _ & G). unfold stub_backlog, vlog. cbn [view a_ifaces].
  rewrite Ht, Hy, G. apply firstn_skipn.
Qed.
Lemma nothing_lost_stub tr1 s1 tr2 s2 n id c : history tr1 s1 -> served n id tr1 -> steps s1 tr2 s2 ->
  stub_exists s2 n -> stub_listening s2 n -> conn_runs s2 c ->
  exists more,
    stub_got n (tr1 ++ tr2) ++ stub_backlog s2 n = (stub_got n tr1 ++ stub_backlog s1 n) ++ more /\
    map it_msg (from_conn c more) ++ map it_msg (for_id id (waiting s2 c)) =
    map it_msg (for_id id (waiting s1 c)) ++ filter (of_id id) (decoded c tr2).
Proof.
  intros H Hs S (t & Ht & Ha) (t' & x & Ht' & Hx & Hl) C. assert (t' = t) by congruence. subst t'.
  assert (V := history_inv _ _ _ _ _ H). destruct (stub_of_served _ _ _ _ V Hs) as (t0 & Ht0 & Hi).
  set (R := fun s => exists t x, nth_error (r_stubs s) n = Some t /\ st_alive t = true /\ st_iface t = st_iface t0 /\ st_lst t = st_lst t0 /\
                     nth_error (r_lsnrs s) (st_lst t) = Some x /\ l_alive x = true).
  assert (RS : forall tr s, steps s1 tr s -> exists t, nth_error (r_stubs s) n = Some t /\ st_iface t = st_iface t0 /\ st_lst t = st_lst t0).
  { intros tr. induction tr as [|[e o] tr IH] using rev_ind; intros s Ss.
    - inversion Ss; subst. eauto.
    - apply steps_unsnoc in Ss. destruct Ss as (s' & S' & E). destruct (IH _ S') as (u & Hu & U1 & U2). apply step_view in E.
      destruct (stub_later _ _ _ _ _ _ _ E (nth_vs _ _ _ Hu)) as (u' & Hu' & W1 & W2). cbn in Hu'. rewrite nth_error_map in Hu'.
      destruct (nth_error (r_stubs s) n) as [w|]; [|discriminate]. injection Hu' as <-. cbn in W1, W2. exists w. split; [reflexivity|]. split; congruence. }
  assert (HT := steps_history _ _ _ _ H S). assert (V2 := history_inv _ _ _ _ _ HT).
  destruct (RS _ _ S) as (t2 & Ht2 & E1 & E2). assert (t2 = t) by congruence. subst t2.
  (* all the states on the way are histories that extend [tr1] *)
  assert (RB : forall tr s, steps s1 tr s -> R s -> held (view s) id (st_iface t0) /\ rx (view s) (st_iface t0)).
  { intros tr s Ss (u & z & Hu & Ua & U1 & U2 & Hz & Hl'). assert (Hh := steps_history _ _ _ _ H Ss). assert (W := history_inv _ _ _ _ _ Hh).
    destruct (stub_owned _ _ _ _ W Hu Ua) as (id' & Q1 & Q2 & Q3); [exists u, z; auto|].
    destruct (stub_of_served s (tr1 ++ tr) n id W) as (u' & Hu' & Q4).
    { destruct Hs as (e & He). exists e. apply in_or_app. left. exact He. }
    assert (u' = u) by congruence. subst u'. assert (id' = id) by congruence. subst id'. rewrite U1 in *. auto. }
  destruct (keeps R c (st_iface t0) id tr1 s1 H RB) with (tr2 := tr2) (s2 := s2) as (more & L & M).
  - intros tr s e o s' Ss E (u' & z' & Hu' & Ua & U1 & U2 & Hz' & Hl'). apply step_view in E.
    destruct (RS _ _ Ss) as (u & Hu & W1 & W2).
    destruct (nth_error (r_lsnrs s) (st_lst u)) as [z|] eqn:Hz.
    2: { exfalso. assert (K := v_lst _ (in4 _ _ _ (history_inv _ _ _ _ _ (steps_history _ _ _ _ H Ss))) n (vs u) (nth_vs _ _ _ Hu)).
         rewrite <- len_vl in K. cbn in K. apply nth_error_None in Hz. lia. }
    exists u, z. split; [exact Hu|]. split; [|split; [exact W1|split; [exact W2|split; [exact Hz|]]]].
    + change (vs_alive (vs u) = true). eapply exists_back; [exact E|apply nth_vs; exact Hu|apply nth_vs; exact Hu'|exact Ua].
    + change (vl_alive (vl z) = true). eapply listens_back; [exact E|apply nth_vl; exact Hz|apply nth_vl|exact Hl'].
      rewrite W2, <- U2. exact Hz'.
  - exact S.
  - exists t, x. auto 10.
  - left. exact C.
  - exists more. rewrite <- map_app. split; [|exact M].
    rewrite (stub_log _ _ _ _ V2 Ht), E1, (stub_log _ _ _ _ V Ht0). exact L.
Qed.

Lemma proxy_log tr s n p c : history tr s -> Inv bk tr (view s) -> nth_error (r_proxies s) n = Some p -> opened c (px_remote p) tr ->
  from_conn c (proxy_got n tr ++ proxy_backlog s n) = from_conn c (vlog (view s) (px_iface p)).
Proof.
  intros HH V Ht O. destruct (proxy_iface _ _ _ _ V Ht) as (y & Hy & _ & G). unfold proxy_backlog, vlog. cbn [view a_ifaces].
  rewrite Ht, Hy, G, <- (firstn_skipn (i_next y) (i_log y)), !from_conn_app. fold (taken y) (i_queue y). f_equal.
  unfold mine, from_conn. rewrite filter_comm.
  assert (K : forall it, In it (filter (fun it => it_conn it =? c) (taken y)) -> N.eqb (px_remote p) (it_addr it) = true).
  { intros it Hi. apply filter_In in Hi. destruct Hi as (Hi & E). apply Nat.eqb_eq in E. apply in_taken in Hi.
    destruct (logged _ _ _ _ _ V Hy Hi) as (_ & _ & L). rewrite E in L. apply N.eqb_eq.
    destruct (opened_is _ _ _ _ HH L) as (x1 & X1 & A1). destruct (opened_is _ _ _ _ HH O) as (x2 & X2 & A2). congruence. }
  induction (filter (fun it => it_conn it =? c) (taken y)) as [|it l IHl]; [reflexivity|]. cbn. rewrite K by (left; reflexivity).
  f_equal. apply IHl. intros ju Hj. apply K. right. exact Hj.
Qed.

Lemma nothing_lost_proxy tr1 s1 tr2 s2 n id a c : history tr1 s1 -> proxied n id a tr1 -> opened c a (tr1 ++ tr2) -> steps s1 tr2 s2 ->
  proxy_exists s2 n -> proxy_connected s2 n -> conn_runs s2 c ->
  exists more,
    from_conn c (proxy_got n (tr1 ++ tr2) ++ proxy_backlog s2 n) = from_conn c (proxy_got n tr1 ++ proxy_backlog s1 n) ++ more /\
    map it_msg more ++ map it_msg (for_id id (waiting s2 c)) =
    map it_msg (for_id id (waiting s1 c)) ++ filter (of_id id) (decoded c tr2).
Proof.
  intros H Hs O S (t & Ht & Ha) (t' & Ht' & x & Hx & Hl) C. assert (t' = t) by congruence. subst t'.
  assert (V := history_inv _ _ _ _ _ H). destruct (v_proxied _ _ (in6 _ _ _ V) n id a Hs) as (t0 & Ht0 & Ra & Hi). cbn in Ht0.
  set (R := fun s => exists t x, nth_error (r_proxies s) n = Some t /\ px_alive t = true /\ px_iface t = px_iface t0 /\ px_conn t = px_conn t0 /\
                     nth_error (r_conns s) (px_conn t) = Some x /\ c_alive x = true).
  assert (RS : forall tr s, steps s1 tr s -> exists t, nth_error (r_proxies s) n = Some t /\ px_iface t = px_iface t0 /\ px_conn t = px_conn t0 /\
                 px_remote t = px_remote t0).
  { intros tr. induction tr as [|[e o] tr IH] using rev_ind; intros s Ss.
    - inversion Ss; subst. eauto.
    - apply steps_unsnoc in Ss. destruct Ss as (s' & S' & E). destruct (IH _ S') as (u & Hu & U1 & U2 & U3). apply step_view in E.
      destruct (proxy_later _ _ _ _ _ _ _ E Hu) as (w & Hw & W1 & W2 & W3). exists w. split; [exact Hw|]. repeat split; congruence. }
  assert (HT := steps_history _ _ _ _ H S). assert (V2 := history_inv _ _ _ _ _ HT).
  destruct (RS _ _ S) as (t2 & Ht2 & E1 & E2 & E3). assert (t2 = t) by congruence. subst t2.
  assert (RB : forall tr s, steps s1 tr s -> R s -> held (view s) id (px_iface t0) /\ rx (view s) (px_iface t0)).
  { intros tr s Ss (u & z & Hu & Ua & U1 & U2 & Hz & Hl'). assert (Hh := steps_history _ _ _ _ H Ss). assert (W := history_inv _ _ _ _ _ Hh).
    destruct (proxy_owned _ _ _ _ W Hu Ua) as (id' & Q1 & Q2 & Q3); [exists u; split; [exact Hu|exists z; auto]|].
    destruct (v_proxied _ _ (in6 _ _ _ W) n id a) as (u' & Hu' & _ & Q4).
    { destruct Hs as (e & He). exists e. apply in_or_app. left. exact He. }
    cbn in Hu'. assert (u' = u) by congruence. subst u'. assert (id' = id) by congruence. subst id'. rewrite U1 in *. auto. }
  destruct (keeps R c (px_iface t0) id tr1 s1 H RB) with (tr2 := tr2) (s2 := s2) as (more & L & M).
  - intros tr s e o s' Ss E (u' & z' & Hu' & Ua & U1 & U2 & Hz' & Hl'). apply step_view in E.
    destruct (RS _ _ Ss) as (u & Hu & W1 & W2 & W3).
    destruct (nth_error (r_conns s) (px_conn u)) as [z|] eqn:Hz.
    2: { exfalso. assert (K := v_pcn _ (in4 _ _ _ (history_inv _ _ _ _ _ (steps_history _ _ _ _ H Ss))) n u Hu).
         rewrite <- len_vc in K. apply nth_error_None in Hz. lia. }
    exists u, z. split; [exact Hu|]. split; [|split; [exact W1|split; [exact W2|split; [exact Hz|]]]].
    + eapply pexists_back; [exact E|exact Hu|exact Hu'|exact Ua].
    + change (v_alive (vc z) = true). eapply alive_back; [exact E|apply nth_vc; exact Hz|apply nth_vc|exact Hl'].
      rewrite W2, <- U2. exact Hz'.
  - exact S.
  - exists t, x. auto 10.
  - left. exact C.
  - exists (from_conn c more). rewrite <- map_app. split; [|exact M].
    rewrite (proxy_log _ _ _ _ _ HT V2 Ht), E1 by congruence. rewrite L, from_conn_app. f_equal.
    destruct (nth_error (r_conns s1) c) as [z|] eqn:Z.
    + assert (O1 := v_opened _ _ (in5 _ _ _ V) _ _ (nth_vc _ _ _ Z)). cbn in O1.
      symmetry. apply proxy_log; [exact H|exact V|exact Ht0|]. rewrite Ra.
      replace a with (c_addr z); [exact O1|].
      destruct (opened_is _ _ _ _ HT O) as (x2 & X2 & A2).
      destruct (opened_is _ _ c (c_addr z) HT) as (x1 & X1 & A1); [destruct O1 as (e & He); exists e; apply in_or_app; auto|]. congruence.
    + assert (F : forall y it, nth_error (r_ifaces s1) (px_iface t0) = Some y -> In it (i_log y) -> (it_conn it =? c) = false).
      { intros y it Hy Hin. apply Nat.eqb_neq. intros F. destruct (v_log _ _ (in5 _ _ _ V) _ _ _ Hy Hin) as (_ & _ & w & Hw & _).
        rewrite F in Hw. cbn in Hw. rewrite nth_error_map, Z in Hw. discriminate. }
      destruct (proxy_iface _ _ _ _ V Ht0) as (y & Hy & _ & G). rewrite G. unfold proxy_backlog, vlog. cbn [view a_ifaces]. rewrite Ht0, Hy.
      assert (K : forall l, (forall it, In it l -> In it (i_log y)) -> from_conn c l = []).
      { intros l. unfold from_conn. induction l as [|it l IHl]; intros K; [reflexivity|]. cbn. rewrite (F y it Hy) by (apply K; left; reflexivity).
        apply IHl. intros ju Hj. apply K. right. exact Hj. }
      rewrite !K; [reflexivity| |auto]. intros it Hin. apply in_app_or in Hin. destruct Hin as [Hin|Hin].
      * apply in_taken. unfold mine in Hin. apply filter_In in Hin. apply Hin.
      * rewrite <- (firstn_skipn (i_next y) (i_log y)). apply in_or_app. right. exact Hin.
Qed.

(** ** C48 *)
(** The id is in use: a stub whose listener runs, or a proxy whose connection runs. *)
Lemma in_use_owned s tr id : Inv bk tr (view s) -> in_use s tr id ->
  exists i k, held (view s) id i /\ rx (view s) i /\ reads_from (view s) i k true /\ get (view s) id = Some i.
Proof.
  intros V [(n & Hs & (t & Ht & Ha) & Hl)|(n & a & Hs & (p & Hp & Ha) & Hl)].
  - destruct (stub_owned _ _ _ _ V Ht Ha Hl) as (id' & Hi & Hh & Hr).
    destruct (stub_of_served _ _ _ _ V Hs) as (t' & Ht' & Hi'). assert (t' = t) by congruence. subst t'.
    assert (id' = id) by congruence. subst id'. exists (st_iface t), (RStub n). split; [exact Hh|]. split; [exact Hr|].
    split; [rewrite <- Ha; change (st_alive t) with (vs_alive (vs t)); eapply rf_stub; [apply nth_vs; exact Ht|reflexivity]|].
    apply (v_reach _ (in2 _ _ _ V)); assumption.
  - destruct (proxy_owned _ _ _ _ V Hp Ha Hl) as (id' & Hi & Hh & Hr).
    destruct (v_proxied _ _ (in6 _ _ _ V) n id a Hs) as (p' & Hp' & _ & Hi'). cbn in Hp'. assert (p' = p) by congruence. subst p'.
    assert (id' = id) by congruence. subst id'. exists (px_iface p), (RProxy n). split; [exact Hh|]. split; [exact Hr|].
    split; [rewrite <- Ha; eapply rf_proxy; [exact Hp|reflexivity]|].
    apply (v_reach _ (in2 _ _ _ V)); assumption.
Qed.
Lemma refused tr s id k ok s' o : history tr s -> in_use s tr id -> r_ep s = EpCheck id k ->
  step s (EEp ok) = Some (s', o) -> o = OExists /\ s' = set_ep EpWait s.
Proof.
  intros H U P E. assert (V := history_inv _ _ _ _ _ H).
  destruct (in_use_owned _ _ _ V U) as (i & r & Hh & Hr & _ & G).
  cbn in E. unfold step_ep in E. rewrite P in E. destruct (locked bk s id); [discriminate|].
  unfold live_iface in E. change (map_get iid_eqb id (r_imap s)) with (get (view s) id) in E. rewrite G in E.
  rewrite strong_view in E. rewrite (proj2 (strong_held bk _ _ (in1 _ _ _ V))) in E by eauto.
  injection E as <- <-. auto.
Qed.
(** After its stub is dropped, the id stays taken while the listener runs, until a message for it
    arrives and is dropped.  Likewise for a proxy and its connection. *)
Definition stuck (s : rt) (id : iid) (i : nat) : Prop :=
  get (view s) id = Some i /\ (forall k, r_ep s <> EpReady id k) /\ (forall ow, r_ep s <> EpShare ow id) /\ (forall ow j, r_ep s <> EpTake ow id j).
Lemma stuck_step tr s e o s' id i : history tr s -> step s e = Some (s', o) -> held (view s) id i -> stuck s id i ->
  (forall it, o = ODropped it -> iid_of (it_msg it) <> id) -> stuck s' id i.
Proof.
  intros H E Hh (G & N1 & N2 & N3) D. assert (V := history_inv _ _ _ _ _ H). apply step_view in E.
  split; [|apply (ep_past bk (view s) e o (view s') id i (in1 _ _ _ V) E G Hh N1 N2 N3)].
  destruct (imap_change _ _ _ _ _ _ _ E G) as [?|ow F|it F I|c x j it todo F _ _ I]; [assumption|..].
  - destruct (N2 _ F).
  - destruct (D it F I).
  - destruct (D it F I).
Qed.
Lemma in_use_stuck s tr id i k : Inv bk tr (view s) -> held (view s) id i -> rx (view s) i -> reads_from (view s) i k true -> stuck s id i.
Proof.
  intros V Hh Hr R. split; [apply (v_reach _ (in2 _ _ _ V)); assumption|]. repeat split.
  - intros k0 E. eapply (v_none _ (in2 _ _ _ V)); [left; exists k0; exact E|exact Hh|exact Hr].
  - intros ow E. eapply (v_none _ (in2 _ _ _ V)); [right; exists ow; exact E|exact Hh|exact Hr].
  - intros ow j E. eapply taking_new; [apply (in2 _ _ _ V)|apply (in3 _ _ _ V)|exact E|exact Hh|exact R].
Qed.
Lemma stuck_refused tr s id i k ok s' o : history tr s -> held (view s) id i -> stuck s id i -> r_ep s = EpCheck id k ->
  step s (EEp ok) = Some (s', o) -> o = OExists /\ s' = set_ep EpWait s.
Proof.
  intros H Hh (G & _) P E. assert (V := history_inv _ _ _ _ _ H).
  cbn in E. unfold step_ep in E. rewrite P in E. destruct (locked bk s id); [discriminate|].
  unfold live_iface in E. change (map_get iid_eqb id (r_imap s)) with (get (view s) id) in E. rewrite G in E.
  rewrite strong_view in E. rewrite (proj2 (strong_held bk _ _ (in1 _ _ _ V))) in E by eauto.
  injection E as <- <-. auto.
Qed.
Lemma still_refused_stub tr1 s1 tr2 s2 n id k ok s3 o : history tr1 s1 -> stub_user s1 tr1 id n -> steps s1 tr2 s2 ->
  stub_listening s2 n -> (forall e it, In (e, ODropped it) tr2 -> iid_of (it_msg it) <> id) ->
  r_ep s2 = EpCheck id k -> step s2 (EEp ok) = Some (s3, o) -> o = OExists /\ s3 = set_ep EpWait s2.
Proof.
  intros H (Hs & (t & Ht & Ha) & (t' & x & Ht' & Hx & Hl)) S L D P E. assert (t' = t) by congruence. subst t'. clear Ht'.
  assert (V := history_inv _ _ _ _ _ H).
  destruct (stub_owned _ _ _ _ V Ht Ha) as (id' & Hi & Hh & Hr); [exists t, x; auto|].
  destruct (stub_of_served _ _ _ _ V Hs) as (t' & Ht' & Hi'). assert (t' = t) by congruence. subst t'.
  assert (id' = id) by congruence. subst id'.
  assert (K0 : stuck s1 id (st_iface t)).
  { eapply in_use_stuck; [exact V|exact Hh|exact Hr|]. rewrite <- Ha. change (st_alive t) with (vs_alive (vs t)).
    eapply rf_stub; [apply nth_vs; exact Ht|reflexivity]. }
  destruct (v_listen _ (in4 _ _ _ V) n (vs t) (vl x) (nth_vs _ _ _ Ht) Ha (nth_vl _ _ _ Hx) Hl) as (id' & J & G).
  cbn in J. assert (id' = id) by congruence. subst id'.
  set (kept := fun s => exists z, nth_error (r_lsnrs s) (st_lst t) = Some z /\ map_get iid_eqb id (settle (l_cmds z) (l_local z)) = Some (st_iface t)).
  assert (M : forall tr s, steps s1 tr s -> stub_listening s n -> (forall e it, In (e, ODropped it) tr -> iid_of (it_msg it) <> id) ->
              kept s /\ stuck s id (st_iface t) /\ (exists u, nth_error (r_stubs s) n = Some u /\ st_lst u = st_lst t)).
  { intros tr. induction tr as [|[e' o'] tr IH] using rev_ind; intros s Ss Ls Ds.
    - inversion Ss; subst. split; [exists x; auto|]. split; [exact K0|eauto].
    - apply steps_unsnoc in Ss. destruct Ss as (s' & S' & E'). assert (H' := steps_history _ _ _ _ H S').
      assert (V' := history_inv _ _ _ _ _ H').
      assert (Eu : exists u, nth_error (r_stubs s') n = Some u /\ st_lst u = st_lst t).
      { clear - S' Ht. revert s' S'. induction tr as [|[e0 o0] tr IH] using rev_ind; intros s' S'; [inversion S'; subst; eauto|].
        apply steps_unsnoc in S'. destruct S' as (s0 & S0 & E0). destruct (IH _ S0) as (u & Hu & U). apply step_view in E0.
        destruct (stub_later _ _ _ _ _ _ _ E0 (nth_vs _ _ _ Hu)) as (u' & Hu' & _ & W). cbn in Hu'. rewrite nth_error_map in Hu'.
        destruct (nth_error (r_stubs s') n) as [w|]; [|discriminate]. injection Hu' as <-. exists w. cbn in W. split; [reflexivity|congruence]. }
      destruct Eu as (u & Hu & Lu). assert (E0 := E'). apply step_view in E'.
      destruct (stub_later _ _ _ _ _ _ _ E' (nth_vs _ _ _ Hu)) as (u' & Hu' & _ & W). cbn in Hu'. rewrite nth_error_map in Hu'.
      destruct (nth_error (r_stubs s) n) as [w|] eqn:Hw; [|discriminate]. injection Hu' as <-. cbn in W.
      destruct Ls as (w' & z' & Hw' & Hz' & Al). assert (w' = w) by congruence. subst w'.
      rewrite W, Lu in Hz'.
      destruct (nth_error (r_lsnrs s') (st_lst t)) as [z|] eqn:Hz.
      2: { exfalso. assert (K := v_lst _ (in4 _ _ _ V') n (vs u) (nth_vs _ _ _ Hu)). rewrite <- len_vl in K. cbn in K. rewrite Lu in K. apply nth_error_None in Hz. lia. }
      assert (Az : l_alive z = true).
      { change (vl_alive (vl z) = true). eapply listens_back; [exact E'|apply nth_vl; exact Hz|apply nth_vl; exact Hz'|exact Al]. }
      destruct (IH _ S') as ((z0 & Hz0 & Gz) & St & _).
      { exists u, z. rewrite Lu. auto. }
      { intros e0 it I. apply (Ds e0). apply in_or_app. auto. }
      assert (z0 = z) by congruence. subst z0.
      assert (Hd : held (view s') id (st_iface t)) by (eapply held_settled; [apply nth_vl; exact Hz|exact Gz]).
      split; [|split].
      + exists z'. split; [exact Hz'|]. change (map_get iid_eqb id (settle (vl_cmds (vl z')) (vl_local (vl z'))) = Some (st_iface t)).
        eapply kept_listener; [exact E'| |apply nth_vl; exact Hz|apply nth_vl; exact Hz'|exact Al|exact Gz]. apply St.
      + eapply stuck_step; [exact H'|exact E0|exact Hd|exact St|]. intros it ->. apply (Ds e'). apply in_or_app. right. left. reflexivity.
      + exists w. split; [reflexivity|congruence]. }
  destruct (M _ _ S L D) as ((z & Hz & Gz) & St & _).
  eapply stuck_refused; [eapply steps_history; eassumption| |exact St|exact P|exact E].
  eapply held_settled; [apply nth_vl; exact Hz|exact Gz].
Qed.
Lemma still_refused_proxy tr1 s1 tr2 s2 n id k ok s3 o : history tr1 s1 -> proxy_user s1 tr1 id n -> steps s1 tr2 s2 ->
  proxy_connected s2 n -> (forall e it, In (e, ODropped it) tr2 -> iid_of (it_msg it) <> id) ->
  r_ep s2 = EpCheck id k -> step s2 (EEp ok) = Some (s3, o) -> o = OExists /\ s3 = set_ep EpWait s2.
Proof.
  intros H (a & Hs & (t & Ht & Ha) & (t' & Ht' & x & Hx & Hl)) S L D P E. assert (t' = t) by congruence. subst t'. clear Ht'.
  assert (V := history_inv _ _ _ _ _ H).
  destruct (proxy_owned _ _ _ _ V Ht Ha) as (id' & Hi & Hh & Hr); [exists t; split; [exact Ht|exists x; auto]|].
  destruct (v_proxied _ _ (in6 _ _ _ V) n id a Hs) as (t' & Ht' & _ & Hi'). cbn in Ht'. assert (t' = t) by congruence. subst t'.
  assert (id' = id) by congruence. subst id'.
  assert (K0 : stuck s1 id (px_iface t)).
  { eapply in_use_stuck; [exact V|exact Hh|exact Hr|]. rewrite <- Ha. eapply rf_proxy; [exact Ht|reflexivity]. }
  destruct (v_linked _ (in4 _ _ _ V) n t (vc x) Ht Ha (nth_vc _ _ _ Hx) Hl) as (id' & J & G).
  assert (id' = id) by congruence. subst id'.
  set (kept := fun s => exists z, nth_error (r_conns s) (px_conn t) = Some z /\ map_get iid_eqb id (settle (v_takes (vc z)) (v_local (vc z))) = Some (px_iface t)).
  assert (M : forall tr s, steps s1 tr s -> proxy_connected s n -> (forall e it, In (e, ODropped it) tr -> iid_of (it_msg it) <> id) ->
              kept s /\ stuck s id (px_iface t)).
  { intros tr. induction tr as [|[e' o'] tr IH] using rev_ind; intros s Ss Ls Ds.
    - inversion Ss; subst. split; [exists x; auto|exact K0].
    - apply steps_unsnoc in Ss. destruct Ss as (s' & S' & E'). assert (H' := steps_history _ _ _ _ H S').
      assert (V' := history_inv _ _ _ _ _ H').
      assert (Eu : exists u, nth_error (r_proxies s') n = Some u /\ px_conn u = px_conn t).
      { clear - S' Ht. revert s' S'. induction tr as [|[e0 o0] tr IH] using rev_ind; intros s' S'; [inversion S'; subst; eauto|].
        apply steps_unsnoc in S'. destruct S' as (s0 & S0 & E0). destruct (IH _ S0) as (u & Hu & U). apply step_view in E0.
        destruct (proxy_later _ _ _ _ _ _ _ E0 Hu) as (u' & Hu' & _ & _ & W). exists u'. split; [exact Hu'|congruence]. }
      destruct Eu as (u & Hu & Lu). assert (E0 := E'). apply step_view in E'.
      destruct (proxy_later _ _ _ _ _ _ _ E' Hu) as (w & Hw & _ & _ & W).
      destruct Ls as (w' & Hw' & z' & Hz' & Al). cbn in Hw. assert (w' = w) by congruence. subst w'.
      rewrite W, Lu in Hz'.
      destruct (nth_error (r_conns s') (px_conn t)) as [z|] eqn:Hz.
      2: { exfalso. assert (K := v_pcn _ (in4 _ _ _ V') n u Hu). rewrite <- len_vc in K. rewrite Lu in K. apply nth_error_None in Hz. lia. }
      assert (Az : c_alive z = true).
      { change (v_alive (vc z) = true). eapply alive_back; [exact E'|apply nth_vc; exact Hz|apply nth_vc; exact Hz'|exact Al]. }
      destruct (IH _ S') as ((z0 & Hz0 & Gz) & St).
      { exists u. split; [exact Hu|]. exists z. rewrite Lu. auto. }
      { intros e0 it I. apply (Ds e0). apply in_or_app. auto. }
      assert (z0 = z) by congruence. subst z0.
      assert (Hd : held (view s') id (px_iface t)) by (eapply held_csettled; [apply nth_vc; exact Hz|exact Gz]).
      split.
      + exists z'. split; [exact Hz'|].
        eapply kept_conn; [exact E'| |apply nth_vc; exact Hz|apply nth_vc; exact Hz'|exact Al|exact Gz]. apply St.
      + eapply stuck_step; [exact H'|exact E0|exact Hd|exact St|]. intros it ->. apply (Ds e'). apply in_or_app. right. left. reflexivity. }
  destruct (M _ _ S L D) as ((z & Hz & Gz) & St).
  eapply stuck_refused; [eapply steps_history; eassumption| |exact St|exact P|exact E].
  eapply held_csettled; [apply nth_vc; exact Hz|exact Gz].
Qed.
(** When a message for an id has just been dropped, the id passes the check. *)
Lemma freed tr s c it s1 k ok s2 o : history tr s -> step s (ERoute c) = Some (s1, ODropped it) ->
  step (set_ep (EpCheck (iid_of (it_msg it)) k) s1) (EEp ok) = Some (s2, o) ->
  o = OUnit /\ s2 = set_ep (EpReady (iid_of (it_msg it)) k) s1.
Proof.
  intros _ E F. apply step_view, dropped_free in E. cbn in F. unfold step_ep in F. cbn in F.
  match type of F with (if ?b then _ else _) = _ => destruct b; [discriminate|] end.
  unfold live_iface in F. cbn in F. change (map_get iid_eqb ?i (r_imap s1)) with (get (view s1) i) in F. rewrite E in F.
  injection F as <- <-. auto.
Qed.
(** A new stub or proxy is only created when the id was not in use. *)
Lemma one_user tr s id : history tr s ->
  (forall n m, stub_user s tr id n -> stub_user s tr id m -> n = m) /\
  (forall n m, proxy_user s tr id n -> proxy_user s tr id m -> n = m) /\
  (forall n m, stub_user s tr id n -> proxy_user s tr id m -> False).
Proof.
  intros H. assert (V := history_inv _ _ _ _ _ H).
  assert (F : forall n, stub_user s tr id n -> exists i, get (view s) id = Some i /\ reads_from (view s) i (RStub n) true).
  { intros n (Hs & (t & Ht & Ha) & Hl). destruct (stub_owned _ _ _ _ V Ht Ha Hl) as (id' & Hi & Hh & Hr).
    destruct (stub_of_served _ _ _ _ V Hs) as (t' & Ht' & Hi'). assert (t' = t) by congruence. subst t'.
    assert (id' = id) by congruence. subst id'. exists (st_iface t). split; [apply (v_reach _ (in2 _ _ _ V)); assumption|].
    rewrite <- Ha; change (st_alive t) with (vs_alive (vs t)); eapply rf_stub; [apply nth_vs; exact Ht|reflexivity]. }
  assert (G : forall n, proxy_user s tr id n -> exists i, get (view s) id = Some i /\ reads_from (view s) i (RProxy n) true).
  { intros n (a & Hs & (p & Hp & Ha) & Hl). destruct (proxy_owned _ _ _ _ V Hp Ha Hl) as (id' & Hi & Hh & Hr).
    destruct (v_proxied _ _ (in6 _ _ _ V) n id a Hs) as (p' & Hp' & _ & Hi'). cbn in Hp'. assert (p' = p) by congruence. subst p'.
    assert (id' = id) by congruence. subst id'. exists (px_iface p). split; [apply (v_reach _ (in2 _ _ _ V)); assumption|].
    rewrite <- Ha; eapply rf_proxy; [exact Hp|reflexivity]. }
  split; [|split]; intros n m U W.
  - destruct (F _ U) as (i & Gi & Ri). destruct (F _ W) as (j & Gj & Rj). assert (i = j) by congruence. subst j.
    assert (Q := v_uniq _ (in3 _ _ _ V) _ _ _ _ _ Ri Rj). congruence.
  - destruct (G _ U) as (i & Gi & Ri). destruct (G _ W) as (j & Gj & Rj). assert (i = j) by congruence. subst j.
    assert (Q := v_uniq _ (in3 _ _ _ V) _ _ _ _ _ Ri Rj). congruence.
  - destruct (F _ U) as (i & Gi & Ri). destruct (G _ W) as (j & Gj & Rj). assert (i = j) by congruence. subst j.
    assert (Q := v_uniq _ (in3 _ _ _ V) _ _ _ _ _ Ri Rj). discriminate.
Qed.
End Locks.
