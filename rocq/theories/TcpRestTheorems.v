(** Every endpoint over TCP comes to rest, or is jammed; and two endpoints over TCP at rest. *)
From Coq Require Import List NArith Bool PeanoNat Lia Wf_nat.
From Verif Require Import BytesModel WireSpec SomeipModel SomeipSpec MapModel EndpointProofs RuntimeModel RuntimeSpec RuntimeProofs RuntimeTheorems
  RuntimePacketTheorems RuntimeProgressTheorems RuntimeWorkTheorems RuntimeAddrTheorems
  TcpModel TcpSpec TcpTheorems TcpNodeModel TcpNodeSpec TcpNodeTheorems TcpRestSpec.
From Verif Require ExchangeRestTheorems.
Import ListNotations.
Open Scope nat_scope.

Section Locks.
Context (bk : iid -> N) (cbk : N -> N).
Local Notation step := (step bk cbk).
Local Notation tnode_step := (tnode_step bk cbk).
Local Notation thistory := (thistory bk cbk).
Local Notation tcp_settling := (tcp_settling bk cbk).

Ltac cases_in H :=
  repeat (match type of H with
  | context [match ?x with _ => _ end] =>
      lazymatch x with context [match _ with _ => _ end] => fail | _ => destruct x eqn:? end
  end; try discriminate H).

(** ** How much is left to do *)
Definition unread_w (k : link) : nat := length (t_avail (k_in k)).
Definition unsent_w (p : conn * link) : nat := match c_out (fst p) with Some bs => length bs - k_sent (snd p) | None => 0 end.
Definition unreads (s : tnode) : nat := total unread_w (t_links s).
Definition unsent (s : tnode) : nat := total unsent_w (combine (r_conns (t_rt s)) (t_links s)).
Definition less (s' s : tnode) : Prop :=
  unreads s' < unreads s \/ (unreads s' = unreads s /\
  (left_to_do (t_rt s') < left_to_do (t_rt s) \/ (left_to_do (t_rt s') = left_to_do (t_rt s) /\ unsent s' < unsent s))).
Lemma less_wf : well_founded less.
Proof.
  intros s. remember (unreads s) as a eqn:A. revert s A. induction a as [a IHa] using lt_wf_ind.
  intros s A. remember (left_to_do (t_rt s)) as b eqn:B. revert s A B. induction b as [b IHb] using lt_wf_ind.
  intros s A B. remember (unsent s) as c eqn:C. revert s A B C. induction c as [c IHc] using lt_wf_ind.
  intros s A B C. constructor. intros s' [L|(E & [L|(E' & L)])].
  - eapply IHa; [|reflexivity]. lia.
  - eapply IHb; [|congruence|reflexivity]. lia.
  - eapply IHc; [|congruence|congruence|reflexivity]. lia.
Qed.
Lemma unread_grow l n : total unread_w (l ++ repeat new_link n) = total unread_w l.
Proof. induction l as [|k l IH]; cbn; [|rewrite IH; reflexivity]. induction n as [|n IH]; cbn; [reflexivity|exact IH]. Qed.
Lemma total_combine {A B} (w : A * B -> nat) l l' c f x k : nth_error l c = Some x -> nth_error l' c = Some k ->
  total w (combine l (upd c f l')) + w (x, k) = total w (combine l l') + w (x, f k).
Proof.
  revert c l'. induction l as [|y l IH]; intros [|c] [|z l'] X K; try discriminate X; try discriminate K; cbn in X, K.
  - injection X as ->. injection K as ->. cbn. lia.
  - specialize (IH _ _ X K). cbn. lia.
Qed.

(** A read that finds the end, and no bytes. *)
Lemma empty_read s c k r o : nth_error (t_links s) c = Some k -> length (t_links s) = length (r_conns (t_rt s)) ->
  step (t_rt s) (EPacket c []) = Some (r, o) -> mkTN r (upd c (k_with_in (k_in k)) (t_links s) ++ repeat new_link (length (r_conns r) - length (t_links s))) = s.
Proof.
  intros K L S. cbn [RuntimeModel.step] in S. destruct (nth_error (r_conns (t_rt s)) c) as [x|] eqn:X; [|discriminate]. destruct (c_alive x); [|discriminate].
  destruct (c_recv x) as [[|]|] eqn:R; try discriminate. rewrite decode_nil in S. injection S as <- <-.
  assert (E : upd_conn c (fun x0 => c_with_count (c_count x0 + 0) (c_with_recv (RWait []) x0)) (t_rt s) = t_rt s).
  { unfold upd_conn, set_conns. rewrite (upd_same _ _ _ _ X); [destruct (t_rt s); reflexivity|].
    unfold c_with_count, c_with_recv. cbn. rewrite Nat.add_0_r. destruct x; cbn in *. rewrite R. reflexivity. }
  rewrite (upd_same _ _ _ _ K) by (destruct k; reflexivity).
  match goal with |- mkTN ?r _ = _ => replace r with (t_rt s) by (rewrite <- E at 1; reflexivity) end.
  rewrite <- L, Nat.sub_diag. cbn. rewrite app_nil_r. destruct s; reflexivity.
Qed.

Lemma settle_less tr s e s' x : thistory tr s -> tcp_settles s e -> tnode_step s e = Some (s', x) -> s' = s \/ less s' s.
Proof.
  intros H Q ST. pose proof (links_length _ _ _ _ H) as LL. pose proof (writing _ _ _ _ H) as WR.
  assert (E0 : forall r ls, total unread_w ls = unreads s -> left_to_do r < left_to_do (t_rt s) -> less (mkTN r ls) s).
  { intros r ls E L. right. split; [exact E|]. left. exact L. }
  destruct (tnode_stepped _ _ _ _ _ _ ST) as
    [e r o n IN S N|c d k K F|c k K|c q d t k r o n K R S N|c q t k r o n K R S N|c q y k bs w z r o n Y K O W S N|c q y k bs w z r o n Y K O W S N|c q y k bs w z Y K O W];
    cbn [tcp_settles] in Q; try contradiction Q.
  - destruct (ExchangeRestTheorems.quiet_obs o) as [B|[N1 N2]].
    + left. pose proof (ExchangeRestTheorems.no_news_same _ _ _ _ _ _ Q S B) as ->. rewrite N, LL, Nat.sub_diag. cbn. rewrite app_nil_r. destruct s; reflexivity.
    + right. apply E0; [apply unread_grow|]. exact (ExchangeRestTheorems.work_less _ _ _ _ _ _ (ExchangeRestTheorems.coop_brings _ Q) S N1 N2).
  - destruct (recv_one _ _ _ _ R) as (_ & A & F). destruct d as [|b d].
    + left. cbn in A. assert (t = k_in k) as -> by (destruct t, (k_in k); cbn in *; congruence). subst n. eapply empty_read; eassumption.
    + right. left. unfold unreads. cbn [t_links]. rewrite unread_grow. pose proof (total_upd unread_w c (k_with_in t) _ _ K) as T.
      unfold unread_w in T at 2 4. cbn in T. rewrite A in T. cbn in T. rewrite app_length in T. lia.
  - exfalso. destruct Q as ([J|[J J']] & RD); destruct q as [rd w]; cbn in J; subst rd; [discriminate R|].
    cbn in J'. destruct w as [m|]; [|congruence]. destruct (RD eq_refl) as (k' & K' & G). rewrite K in K'. injection K' as <-. cbn in R.
    destruct (t_avail (k_in k)); [|discriminate R]. destruct G as [G|G]; [congruence|]. rewrite G in R. discriminate R.
  - right. apply E0.
    + rewrite unread_grow. apply total_upd_same. reflexivity.
    + eapply ExchangeRestTheorems.work_less; [|exact S| |]; [reflexivity|..]; intros ->; cbn in S; cases_in S.
  - right. apply E0.
    + rewrite unread_grow. apply total_upd_same. reflexivity.
    + eapply ExchangeRestTheorems.work_less; [|exact S| |]; [reflexivity|..]; intros ->; cbn in S; cases_in S.
  - specialize (WR c). unfold wrote in WR. rewrite Y, O, (lk_is _ _ _ K) in WR.
    destruct (c_alive y); [|destruct WR; discriminate]. destruct WR as [LE _]. destruct (write_one _ _ _ _ _ _ LE W) as (LE' & _).
    destruct w as [|b w].
    + left. rewrite (upd_same _ _ _ _ K); [destruct s; reflexivity|]. cbn. rewrite Nat.add_0_r. destruct k; reflexivity.
    + right. right. split; [apply total_upd_same; reflexivity|]. right. split; [reflexivity|]. unfold unsent. cbn [t_rt t_links].
      pose proof (total_combine unsent_w _ _ c (k_with_sent (k_sent k + length (b :: w))) _ _ Y K) as T.
      unfold unsent_w in T at 2 4. cbn [fst snd k_sent k_with_sent] in T. rewrite O in T. cbn [length] in *. lia.
Qed.

(** ** It goes on until there is nothing left *)
Lemma settle_history tr s : thistory tr s -> forall tr' s', tcp_settling s tr' s' -> thistory (tr ++ tr') s'.
Proof.
  intros H tr' s' S. revert tr H. induction S as [s|s e s1 x t s2 Q ST S IH]; intros tr H; [rewrite app_nil_r; exact H|].
  replace (tr ++ (e, x) :: t) with ((tr ++ [(e, x)]) ++ t) by (rewrite <- app_assoc; reflexivity). apply IH. eapply t_more; eassumption.
Qed.
Lemma send_goes tr s c r o : thistory tr s -> step (t_rt s) (ESocket c true) = Some (r, o) ->
  exists q s' x, faultless q /\ tnode_step s (TWrite c q) = Some (s', x) /\ t_rt s' = r.
Proof.
  intros H S. pose proof S as S'. cbn in S'. destruct (nth_error (r_conns (t_rt s)) c) as [y|] eqn:Y; [|discriminate]. destruct (c_alive y) eqn:A; [|discriminate].
  destruct (c_out y) as [bs|] eqn:O; [|discriminate]. clear S'. pose proof (has_link _ _ _ _ _ _ H Y) as K.
  assert (W : exists q w, faultless q /\ tcp_send [q] bs (k_sent (lk s c)) = (SOk, w, [])).
  { exists (Ready, Some (length bs)). eexists. split; [right; split; [reflexivity|discriminate]|]. cbn [tcp_send]. rewrite firstn_all2 by (rewrite skipn_length; lia). rewrite skipn_length.
    destruct (Nat.ltb_spec (k_sent (lk s c) + (length bs - k_sent (lk s c))) (length bs)); [lia|reflexivity]. }
  destruct W as (q & w & F & W). exists q. eexists. eexists. split; [exact F|].
  split; [unfold TcpNodeModel.tnode_step; rewrite Y, K, O, W; unfold tcp_answer; rewrite S; reflexivity|reflexivity].
Qed.
Lemma step_on tr s : thistory tr s ->
  (exists e s' x, tcp_settles s e /\ tnode_step s e = Some (s', x) /\ s' <> s) \/ (idle (t_rt s) /\ all_read tr s) \/
  exists c n, jammed bk (tcp_trace tr) (t_rt s) c n.
Proof.
  intros H. pose proof (tcp_history _ _ _ _ H) as HR.
  destruct (progress _ _ _ _ _ HR) as [(e & r & o & Q & S & N1 & N2)|[P|J]]; [| |auto].
  - left. pose proof (ExchangeRestTheorems.work_less _ _ _ _ _ _ (ExchangeRestTheorems.coop_brings _ Q) S N1 N2) as W.
    assert (SK : (exists c, e = ESocket c true) \/ forall c, e <> ESocket c true).
    { destruct e; try (right; intros ? ?; discriminate). destruct ok; [left; eauto|right; intros ? ?; discriminate]. }
    destruct SK as [(c & ->)|SK].
    + destruct (send_goes _ _ _ _ _ H S) as (q & s' & x & F & ST & E). exists (TWrite c q), s', x. split; [exact F|]. split; [exact ST|].
      intros ->. rewrite E in W. exact (Nat.lt_irrefl _ W).
    + assert (I : tcp_internal e = true).
      { destruct e; try contradiction Q; try reflexivity. destruct ok; [|contradiction Q]. exfalso. exact (SK _ eq_refl). }
      exists (TRun e). cbn [TcpNodeModel.tnode_step]. rewrite I. unfold tcp_answer. rewrite S. eexists. eexists. split; [exact Q|]. split; [reflexivity|].
      intros E. apply (f_equal t_rt) in E. cbn in E. subst r. exact (Nat.lt_irrefl _ W).
  - set (p := fun c => match nth_error (r_conns (t_rt s)) c, nth_error (t_links s) c with
                       | Some x, Some k => c_alive x && negb (unread_w k =? 0) | _, _ => false end).
    destruct (existsb p (seq 0 (length (t_links s)))) eqn:E.
    + left. apply existsb_exists in E. destruct E as (c & _ & E). unfold p in E.
      destruct (nth_error (r_conns (t_rt s)) c) as [x|] eqn:X; [|discriminate]. destruct (nth_error (t_links s) c) as [k|] eqn:K; [|discriminate].
      apply andb_prop in E. destruct E as [A U]. apply negb_true_iff, Nat.eqb_neq in U.
      assert (G : exists z : round, faultless z /\ z = (Ready, Some 1)) by (exists (Ready, Some 1); split; [right; split; [reflexivity|discriminate]|reflexivity]). destruct G as (z & FZ & EZ).
      exists (TRead c z). destruct (tcp_recv [z] (k_in k)) as [q t] eqn:R.
      assert (RW : c_recv x = RWait []).
      { pose proof (all_routed _ P c) as AR. unfold waiting in AR. rewrite X in AR. destruct (c_recv x) as [todo|]; [rewrite AR; reflexivity|discriminate]. }
      assert (AV : t_avail (k_in k) <> []) by (intros Z; apply U; unfold unread_w; rewrite Z; reflexivity).
      assert (D : exists d, q = ROk d). { rewrite EZ in R. cbn in R. destruct (t_avail (k_in k)); [congruence|]. injection R as <- _. eauto. }
      destruct D as (d & ->).
      assert (SS : exists r o, step (t_rt s) (EPacket c d) = Some (r, o)).
      { cbn [RuntimeModel.step]. rewrite X, A, RW. destruct (decode d); eauto. }
      destruct SS as (r & o & SS). unfold TcpNodeModel.tnode_step. rewrite K, R. unfold tcp_answer. rewrite SS. eexists. eexists.
      split; [split; [exact FZ|intros _; exists k; auto]|]. split; [reflexivity|].
      intros Z. apply (f_equal unreads) in Z. unfold unreads in Z. cbn [t_links] in Z. rewrite unread_grow in Z.
      pose proof (total_upd unread_w c (k_with_in t) _ _ K) as T. unfold unread_w in T at 2 4. cbn in T.
      assert (LT : length (t_avail t) < length (t_avail (k_in k))).
      { destruct (recv_one _ _ _ _ R) as (_ & B & _). rewrite B, app_length. rewrite EZ in R. cbn in R. destruct (t_avail (k_in k)); [congruence|]. injection R as <- _. cbn. lia. }
      lia.
    + right. left. split; [exact P|]. intros c (x & X & A). destruct (reading _ _ _ _ H c) as (B & _). pose proof (has_link _ _ _ _ _ _ H X) as K.
      assert (U : unread_w (lk s c) = 0).
      { destruct (Nat.eqb_spec (unread_w (lk s c)) 0) as [Z|Z]; [exact Z|exfalso].
        assert (PC : p c = true) by (unfold p; rewrite X, K, A; apply Nat.eqb_neq in Z; rewrite Z; reflexivity).
        assert (existsb p (seq 0 (length (t_links s))) = true); [|congruence]. apply existsb_exists. exists c. split; [|exact PC].
        apply in_seq. split; [lia|]. cbn. apply nth_error_Some. congruence. }
      apply length_zero_iff_nil in U. rewrite U, app_nil_r in B. symmetry. exact B.
Qed.

Theorem tcp_stops (f : nat -> tnode) tr : thistory tr (f 0) ->
  ~ (forall n, f (S n) <> f n /\ exists e x, tcp_settles (f n) e /\ tnode_step (f n) e = Some (f (S n), x)).
Proof.
  intros H F. assert (HN : forall n, exists t, thistory t (f n)).
  { induction n as [|n (t & IH)]; [eauto|]. destruct (F n) as (_ & e & x & _ & ST). eexists. eapply t_more; eassumption. }
  assert (L : forall n, less (f (S n)) (f n)).
  { intros n. destruct (HN n) as (t & Ht). destruct (F n) as (N & e & x & Q & ST). destruct (settle_less _ _ _ _ _ Ht Q ST); [contradiction|assumption]. }
  assert (A : forall s, Acc less s -> forall n, f n = s -> False).
  { induction 1 as [s _ IH]. intros n E. apply (IH (f (S n))) with (n := S n); [rewrite <- E; apply L|reflexivity]. }
  exact (A _ (less_wf (f 0)) 0 eq_refl).
Qed.
Theorem tcp_stopped tr s : thistory tr s -> (forall e s' x, tcp_settles s e -> tnode_step s e = Some (s', x) -> s' = s) ->
  (idle (t_rt s) /\ all_read tr s) \/ exists c n, jammed bk (tcp_trace tr) (t_rt s) c n.
Proof. intros H F. destruct (step_on _ _ H) as [(e & s' & x & Q & ST & N)|K]; [|exact K]. exfalso. exact (N (F _ _ _ Q ST)). Qed.
Theorem tcp_comes_to_rest tr s : thistory tr s -> exists tr' s', tcp_settling s tr' s' /\ thistory (tr ++ tr') s' /\
  ((idle (t_rt s') /\ all_read (tr ++ tr') s') \/ exists c n, jammed bk (tcp_trace (tr ++ tr')) (t_rt s') c n).
Proof.
  revert tr. induction s as [s IH] using (well_founded_induction less_wf). intros tr H.
  destruct (step_on _ _ H) as [(e & s1 & x & Q & ST & N)|K].
  - assert (L : less s1 s) by (destruct (settle_less _ _ _ _ _ H Q ST); [contradiction|assumption]).
    destruct (IH _ L _ (t_more _ _ _ _ _ _ _ H ST)) as (tr' & s' & S & HH & K). exists ((e, x) :: tr'), s'. split; [eapply ts_more; eassumption|].
    rewrite <- app_assoc in K, HH. split; [exact HH|exact K].
  - exists [], s. rewrite app_nil_r. split; [constructor|]. split; [exact H|exact K].
Qed.
End Locks.

(** Two endpoints at rest. *)
Theorem tcp_all_answered bk cbk bk' cbk' ta a ca tb1 tb2 b cb n id p : thistory bk cbk ta a -> thistory bk' cbk' (tb1 ++ tb2) b ->
  idle (t_rt a) -> conn_runs (t_rt a) ca -> idle (t_rt b) -> conn_runs (t_rt b) cb ->
  bytes_in cb (tb1 ++ tb2) = bytes_out ca ta -> concat (reads cb (tb1 ++ tb2)) = bytes_in cb (tb1 ++ tb2) ->
  Forall ordinary (accepted ca (tcp_trace ta)) -> between_messages (accepted ca (tcp_trace ta)) (reads cb (tb1 ++ tb2)) ->
  proxied n id p (tcp_trace tb1) -> reads cb tb1 = [] -> opened cb p (tcp_trace (tb1 ++ tb2)) -> proxy_exists (t_rt b) n -> proxy_connected (t_rt b) n ->
  map it_msg (from_conn cb (proxy_got n (tcp_trace (tb1 ++ tb2)))) = filter (of_id id) (accepted ca (tcp_trace ta)).
Proof.
  intros HA HB IA RA IB RB E A O B SV NO OP X C. pose proof (tcp_proxy_gets _ _ _ _ _ _ _ _ _ HB SV NO OP X C RB) as G.
  rewrite (proxies_read _ IB _ X), (all_routed _ IB cb), app_nil_r in G. cbn in G. rewrite app_nil_r in G. rewrite G. f_equal.
  eapply tcp_all_read; eassumption.
Qed.
Lemma filter_all {A} (f : A -> bool) l : Forall (fun x => f x = true) l -> filter f l = l.
Proof. induction 1 as [|x l F _ IH]; cbn; [reflexivity|rewrite F, IH; reflexivity]. Qed.
Theorem tcp_exchange bk cbk bk' cbk' ta1 ta2 a ca tb1 tb2 b cb n k id p reply :
  thistory bk cbk (ta1 ++ ta2) a -> thistory bk' cbk' (tb1 ++ tb2) b ->
  idle (t_rt a) -> conn_runs (t_rt a) ca -> all_read (ta1 ++ ta2) a -> idle (t_rt b) -> conn_runs (t_rt b) cb -> all_read (tb1 ++ tb2) b ->
  bytes_in cb (tb1 ++ tb2) = bytes_out ca (ta1 ++ ta2) -> bytes_in ca (ta1 ++ ta2) = bytes_out cb (tb1 ++ tb2) ->
  Forall ordinary (accepted ca (tcp_trace (ta1 ++ ta2))) -> between_messages (accepted ca (tcp_trace (ta1 ++ ta2))) (reads cb (tb1 ++ tb2)) ->
  Forall ordinary (accepted cb (tcp_trace (tb1 ++ tb2))) -> between_messages (accepted cb (tcp_trace (tb1 ++ tb2))) (reads ca (ta1 ++ ta2)) ->
  served n id (tcp_trace tb1) -> reads cb tb1 = [] -> stub_exists (t_rt b) n -> stub_listening (t_rt b) n ->
  proxied k id p (tcp_trace ta1) -> reads ca ta1 = [] -> opened ca p (tcp_trace (ta1 ++ ta2)) -> proxy_exists (t_rt a) k -> proxy_connected (t_rt a) k ->
  Forall (fun m => of_id id m = true) (accepted ca (tcp_trace (ta1 ++ ta2))) -> (forall m, of_id id m = true -> of_id id (reply m) = true) ->
  accepted cb (tcp_trace (tb1 ++ tb2)) = map reply (map it_msg (from_conn cb (stub_got n (tcp_trace (tb1 ++ tb2))))) ->
  map it_msg (from_conn ca (proxy_got k (tcp_trace (ta1 ++ ta2)))) = map reply (accepted ca (tcp_trace (ta1 ++ ta2))).
Proof.
  intros HA HB IA RA AA IB RB AB E1 E2 O1 B1 O2 B2 SV NO SX SL PX NA OP PE PC ID RE AN.
  rewrite (tcp_all_answered _ _ _ _ _ _ _ _ _ _ _ _ _ _ HB HA IB RB IA RA E2 (AA _ RA) O2 B2 PX NA OP PE PC), AN.
  rewrite (tcp_all_got _ _ _ _ _ _ _ _ _ _ _ _ _ HA HB IA RA IB RB E1 (AB _ RB) O1 B1 SV NO SX SL).
  rewrite (filter_all _ _ ID). apply filter_all, Forall_map. eapply Forall_impl; [|exact ID]. exact RE.
Qed.
