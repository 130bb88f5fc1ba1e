(** A step of an endpoint and its calls, by itself, leaves less to send, or no more, and then no packet
    is new in the hands of a connection. *)
From Coq Require Import List NArith Bool PeanoNat Lia.
From Verif Require Import BytesModel MapModel EndpointProofs RuntimeModel RuntimeSpec RuntimeProofs RuntimeWorkTheorems
  TcpModel TcpNodeModel TcpNodeSpec TcpNodeTheorems TcpRestSpec TcpRestTheorems TcpNetRestTheorems
  QueueModel QueueSpec QueueTheorems QueueProgressTheorems QueueNetSendTheorems.
From Verif Require TcpTheorems TcpNetTheorems ExchangeRestTheorems.
Import ListNotations.
Open Scope nat_scope.

(** ** Packets in hand *)
Definition fewer (l l' : list conn) : Prop := Forall2 (fun x x' => c_out x' = c_out x \/ c_out x' = None) l l'.
Lemma fewer_refl l : fewer l l.
Proof. induction l; constructor; auto. Qed.
Lemma fewer_trans l m n : fewer l m -> fewer m n -> fewer l n.
Proof.
  intros H. revert n. induction H as [|x y l m E _ IH]; intros n K; inversion K as [|? z ? n' E' K']; subst; constructor; [|apply IH; exact K'].
  destruct E' as [->| ->]; auto.
Qed.
Lemma fewer_upd c f l : (forall x, c_out (f x) = c_out x \/ c_out (f x) = None) -> fewer l (upd c f l).
Proof. intros F. revert c. induction l as [|x l IH]; intros [|c]; cbn; try constructor; auto; [apply fewer_refl|apply IH]. Qed.
Lemma fewer_same l l' : map c_out l' = map c_out l -> fewer l l'.
Proof. revert l'. induction l as [|x l IH]; intros [|y l'] E; try discriminate E; constructor; cbn in E; injection E as E1 E2; auto. apply IH. exact E2. Qed.
Lemma fewer_length l l' : fewer l l' -> length l' = length l.
Proof. intros H. symmetry. induction H; cbn; auto. Qed.
Lemma fewer_unsent l l' ks : fewer l l' -> total unsent_w (combine l' ks) <= total unsent_w (combine l ks).
Proof.
  intros H. revert ks. induction H as [|x y l l' E _ IH]; intros [|k ks]; cbn; try lia. specialize (IH ks).
  assert (unsent_w (y, k) <= unsent_w (x, k)); [|lia]. unfold unsent_w. cbn [fst snd]. destruct E as [->| ->]; lia.
Qed.

Section Locks.
Context (bk : iid -> N) (cbk : N -> N).
Notation step := (step bk cbk).

Ltac cases_in H :=
  repeat (match type of H with
  | context [match ?x with _ => _ end] =>
      lazymatch x with context [match _ with _ => _ end] => fail | _ => destruct x eqn:? end
  end; try discriminate H).
Ltac step_cases H :=
  unfold RuntimeModel.step, step_ep, step_take, step_route, step_stub, i_recv, push_cmd in H; cases_in H;
  injection H as <- <-.
Ltac rcbn := unfold upd_conn, upd_iface, upd_lsnr, upd_stub, upd_proxy, spawn in *;
  cbn [r_open r_datagram r_ep r_listener r_imap r_cmap r_ifaces r_conns r_lsnrs r_stubs r_proxies r_left
       set_ep set_open set_listener set_imap set_cmap set_ifaces set_conns set_lsnrs set_stubs set_proxies set_left] in *.
Lemma quiet_fewer s e s' o : step s e = Some (s', o) -> brings e = None -> TcpNetRestTheorems.to_send s' < TcpNetRestTheorems.to_send s \/ fewer (r_conns s) (r_conns s').
Proof.
  intros ST B.
  assert (L : inward e -> TcpNetRestTheorems.to_send s' < TcpNetRestTheorems.to_send s \/ fewer (r_conns s) (r_conns s'))
    by (intros I; destruct (TcpNetRestTheorems.send_step _ _ _ _ _ _ ST I) as [L|[_ L]]; [auto|right; apply fewer_same; exact L]).
  destruct e; try discriminate B; try (apply L; left; exact Logic.I);
  try (destruct ok; [apply L; left; exact Logic.I|]); try (apply L; right; right; eauto; fail); clear L;
  try (left; eapply TcpNetRestTheorems.socket_sends; exact ST; fail); step_cases ST; rcbn;
  right; try apply fewer_refl; try (apply fewer_upd; intros; cbn; auto; fail).
  all: match goal with E : _ && false = true |- _ => rewrite andb_false_r in E; discriminate E end.
Qed.
Lemma call_fewer s e s' o : step s e = Some (s', o) -> match e with EServe _ | EProxy _ _ | EAbandon _ _ => True | _ => False end -> fewer (r_conns s) (r_conns s').
Proof. intros ST B. destruct e; try contradiction B; step_cases ST; rcbn; apply fewer_refl. Qed.

(** ** With the calls *)
Lemma dropped_fewer s o l s' : dropped_answer bk cbk s o l s' -> TcpNetRestTheorems.to_send s' < TcpNetRestTheorems.to_send s \/ fewer (r_conns s) (r_conns s').
Proof.
  unfold dropped_answer. destruct (drop_answer o) as [d|] eqn:D; [|intros [-> _]; right; apply fewer_refl]. intros (o' & S & _). eapply quiet_fewer; [exact S|].
  destruct o; try discriminate D; injection D as <-; reflexivity.
Qed.
Lemma calls_fewer dg tr q x q' o l : qhistory bk cbk dg tr q -> qstep bk cbk q x = Some (q', o, l) -> quiet (x, o, l) ->
  calls_send q' < calls_send q \/ (calls_send q' <= calls_send q /\ fewer (r_conns (q_rt q)) (r_conns (q_rt q'))).
Proof.
  intros H S Q. assert (LE : calls_send q' <= calls_send q).
  { eapply sends_less; [exact H|exact S|]. destruct x; try exact Logic.I; try exact Q. left. exact Q. }
  assert (G : calls_send q' < calls_send q \/ fewer (r_conns (q_rt q)) (r_conns (q_rt q'))); [|destruct G; auto].
  pose proof (invariant _ _ _ _ _ H) as V. apply qstepped in S. pose proof (not_refused _ _ _ _ _ _ _ _ V S) as NR.
  destruct S; try congruence; try (exfalso; exact Q); cbn [q_chan q_now q_calls q_rt q_over with_rt with_chan with_now with_calls with_over set_call unwatch];
  try (right; apply fewer_refl).
  - unfold begins in H4. destruct (e_gone e) eqn:G.
    + destruct (quiet_fewer _ _ _ _ H4 eq_refl) as [L|L]; [left|auto]. unfold calls_send. cbn [q_chan q_calls q_rt with_rt with_chan with_now]. rewrite H2. cbn [total]. lia.
    + right. eapply call_fewer; [exact H4|]. destruct to; exact Logic.I.
  - assert (B : brings b = None) by (unfold connects in H2; destruct (e_gone e); [subst b; reflexivity|destruct H2 as (n & _ & ->); reflexivity]).
    destruct (quiet_fewer _ _ _ _ H3 B) as [L|L]; [left|auto]. unfold calls_send. cbn [q_chan q_calls q_rt with_rt with_now]. lia.
  - destruct (quiet_fewer _ _ _ _ H2 eq_refl) as [L|L]; [left|auto]. unfold calls_send. cbn [q_chan q_calls q_rt with_rt]. lia.
  - pose proof (quiet_sends _ _ _ _ _ _ H2 eq_refl) as W1. pose proof (dropped_sends _ _ _ _ _ _ H5) as W2.
    destruct (quiet_fewer _ _ _ _ H2 eq_refl) as [L|L]; [left|]. { unfold calls_send. cbn [q_chan q_calls q_rt with_rt with_now]. lia. }
    destruct (dropped_fewer _ _ _ _ H5) as [M|M]; [left|right; eapply fewer_trans; eassumption]. unfold calls_send. cbn [q_chan q_calls q_rt with_rt with_now]. lia.
  - destruct (quiet_fewer _ _ _ _ H2 eq_refl) as [L|L]; [left|auto]. destruct (now_call _ _ _ _ V H0 H4 H5) as (i & z & T & _).
    pose proof (total_upd call_s _ (k_now (CAnswered o)) _ _ T) as TT. unfold calls_send. cbn [q_chan q_calls q_rt with_rt with_now set_call with_calls]. unfold call_s in *. cbn [k_stat k_now] in *. lia.
  - right. eapply call_fewer; [exact H2|exact Logic.I].
  - destruct (dropped_fewer _ _ _ _ H1) as [L|L]; [left|auto]. pose proof (total_upd call_s _ (k_now COver) _ _ H0) as TT.
    unfold calls_send. cbn [q_chan q_calls q_rt with_rt set_call with_calls]. unfold call_s in *. cbn [k_stat k_now] in *. lia.
  - destruct (quiet_fewer _ _ _ _ H0 eq_refl) as [L|L]; [left|auto]. pose proof (lose_s bk cbk (FSend n) (q_chan q)). unfold calls_send. cbn [q_chan q_calls q_rt with_rt unwatch with_chan with_now]. lia.
  - destruct (quiet_fewer _ _ _ _ H1 eq_refl) as [L|L]; [left|auto]. unfold calls_send. cbn [q_chan q_calls q_rt with_rt]. lia.
  - destruct (quiet_fewer _ _ _ _ H1 Q) as [L|L]; [left|auto]. unfold calls_send. cbn [q_chan q_calls q_rt with_rt]. lia.
Qed.

(** ** A stream at work *)
Lemma stream_more tr s e s' x : thistory bk cbk tr s -> match e with TRead _ _ | TWrite _ _ => True | _ => False end -> tnode_step bk cbk s e = Some (s', x) ->
  (s' = s /\ te_out x = []) \/ TcpNetRestTheorems.to_send (t_rt s') < TcpNetRestTheorems.to_send (t_rt s) \/
  (TcpNetRestTheorems.to_send (t_rt s') = TcpNetRestTheorems.to_send (t_rt s) /\ TcpNetTheorems.nconns s' = TcpNetTheorems.nconns s /\
   (unsent s' < unsent s \/
    (unsent s' = unsent s /\ te_out x = [] /\ unfinished s' = unfinished s /\
     (unreads s' < unreads s \/ (unreads s' = unreads s /\ exists e' o, te_rt x = Some (e', o) /\ brings e' = None /\ o <> OPending /\ o <> OClosed))))).
Proof.
  intros H Q ST. pose proof (links_length _ _ _ _ H) as LL. pose proof (writing _ _ _ _ H) as WR.
  destruct (tnode_stepped _ _ _ _ _ _ ST) as
    [e r o n IN S N|c d k K F|c k K|c q d t k r o n K R S N|c q t k r o n K R S N|c q y k bs w z r o n Y K O W S N|c q y k bs w z r o n Y K O W S N|c q y k bs w z Y K O W];
    try contradiction Q; cbn [t_rt te_out te_rt].
  - destruct (recv_one _ _ _ _ R) as (_ & A & F). destruct d as [|b d].
    + left. split; [|reflexivity]. cbn in A. assert (t = k_in k) as -> by (destruct t, (k_in k); cbn in *; congruence). subst n. eapply empty_read; eassumption.
    + right. destruct (TcpNetRestTheorems.send_step _ _ _ _ _ _ S (or_intror (or_introl (ex_intro _ _ (ex_intro _ _ eq_refl))))) as [L|[E M]]; [left; exact L|right].
      split; [exact E|]. pose proof (f_equal (@length _) M) as ML. rewrite !map_length in ML. split; [exact ML|]. right.
      assert (N0 : n = 0) by lia. subst n. rewrite N0. cbn [repeat]. rewrite app_nil_r. unfold unsent, unfinished, unreads. cbn [t_rt t_links].
      split; [rewrite unsent_links by reflexivity; apply unsent_outs; exact M|]. split; [reflexivity|]. split; [eapply unfin_upd; [exact K|exact F]|]. left.
      pose proof (total_upd unread_w c (k_with_in t) _ _ K) as T.
      unfold unread_w in T at 2 4. cbn in T. rewrite A in T. cbn in T. rewrite app_length in T. lia.
  - right. destruct (TcpNetRestTheorems.send_step _ _ _ _ _ _ S (or_intror (or_intror (ex_intro _ _ eq_refl)))) as [L|[E M]]; [left; exact L|right].
    assert (t = k_in k) as ->. { destruct q as [[] [m|]]; cbn in R; try discriminate R; cases_in R; injection R; congruence. }
    split; [exact E|]. pose proof (f_equal (@length _) M) as ML. rewrite !map_length in ML. split; [exact ML|]. right.
    assert (N0 : n = 0) by lia. subst n. rewrite N0. cbn [repeat]. rewrite app_nil_r. unfold unsent, unfinished, unreads. cbn [t_rt t_links].
    split; [rewrite unsent_links by reflexivity; apply unsent_outs; exact M|]. split; [reflexivity|]. split; [eapply unfin_upd; [exact K|reflexivity]|]. right.
    split; [pose proof (total_upd unread_w c (k_with_in (k_in k)) _ _ K) as T; unfold unread_w in T at 2 4; cbn in T; lia|].
    eexists _, _. split; [reflexivity|]. split; [reflexivity|]. split; intros ->; cbn in S; cases_in S.
  - right. left. eapply TcpNetRestTheorems.socket_sends. exact S.
  - right. left. eapply TcpNetRestTheorems.socket_sends. exact S.
  - specialize (WR c). unfold wrote in WR. rewrite Y, O, (lk_is _ _ _ K) in WR.
    destruct (c_alive y); [|destruct WR; discriminate]. destruct WR as [LE _]. destruct (write_one _ _ _ _ _ _ LE W) as (LE' & _).
    destruct w as [|b w].
    + left. split; [|reflexivity]. rewrite (upd_same _ _ _ _ K); [destruct s; reflexivity|]. cbn. rewrite Nat.add_0_r. destruct k; reflexivity.
    + right. right. split; [reflexivity|]. split; [reflexivity|]. left. unfold unsent. cbn [t_rt t_links].
      pose proof (total_combine unsent_w _ _ c (k_with_sent (k_sent k + length (b :: w))) _ _ Y K) as T.
      unfold unsent_w in T at 2 4. cbn [fst snd k_sent k_with_sent] in T. rewrite O in T. cbn [length] in *. lia.
Qed.
End Locks.
