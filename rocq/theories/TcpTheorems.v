From Coq Require Import List NArith PeanoNat Bool Lia.
From Verif Require Import TcpModel TcpSpec.
Import ListNotations.

Lemma skipn_more {A} m n (l : list A) : skipn m (skipn n l) = skipn (n + m) l.
Proof. revert l. induction n as [|n IH]; intros [|x l]; cbn; rewrite ?skipn_nil; auto. Qed.

Lemma written_step n sent (buffer : list N) : skipn sent buffer = firstn n (skipn sent buffer) ++ skipn (sent + length (firstn n (skipn sent buffer))) buffer.
Proof.
  rewrite <- skipn_more. rewrite <- (firstn_skipn n (skipn sent buffer)) at 1. f_equal. rewrite firstn_length.
  destruct (Nat.le_ge_cases n (length (skipn sent buffer))) as [H|H].
  - rewrite Nat.min_l by exact H. reflexivity.
  - rewrite Nat.min_r by exact H. rewrite !skipn_all2 by lia. reflexivity.
Qed.

Lemma send_from os : forall buffer sent r wire os', sent <= length buffer -> tcp_send os buffer sent = (r, wire, os') ->
  (exists c, skipn sent buffer = wire ++ c /\ (r = SOk -> c = []) /\ (r <> SOk -> c = [] -> skipn sent buffer = [])).
Proof.
  induction os as [|[rd w] os IH]; intros buffer sent r wire os' L H; cbn [tcp_send] in H.
  - injection H as <- <- <-. exists (skipn sent buffer). repeat split; [discriminate|auto].
  - destruct rd.
    + destruct w as [n|].
      * assert (W := written_step n sent buffer). set (wr := firstn n (skipn sent buffer)) in *.
        assert (L' : sent + length wr <= length buffer).
        { unfold wr. rewrite firstn_length, skipn_length. lia. }
        destruct (Nat.ltb_spec (sent + length wr) (length buffer)) as [Lt|Ge].
        -- destruct (tcp_send os buffer (sent + length wr)) as [[r1 w1] o1] eqn:E. injection H as <- <- <-.
           destruct (IH _ _ _ _ _ L' E) as (c & Ec & C1 & C2). exists c. split; [rewrite W at 1; rewrite Ec, app_assoc; reflexivity|].
           split; [exact C1|]. intros Hr Hc. specialize (C2 Hr Hc). assert (X : length (skipn (sent + length wr) buffer) = 0) by (rewrite C2; reflexivity).
           rewrite skipn_length in X. lia.
        -- injection H as <- <- <-. exists []. rewrite app_nil_r. split; [|split; [reflexivity|congruence]].
           rewrite W at 1. rewrite skipn_all2 by lia. apply app_nil_r.
      * injection H as <- <- <-. exists (skipn sent buffer). repeat split; [discriminate|auto].
    + eapply IH; eassumption.
    + injection H as <- <- <-. exists (skipn sent buffer). repeat split; [discriminate|auto].
Qed.

Lemma send_complete os buffer wire os' : tcp_send os buffer 0 = (SOk, wire, os') -> wire = buffer.
Proof.
  intros H. destruct (send_from _ _ _ _ _ _ (Nat.le_0_l _) H) as (c & E & C & _). cbn [skipn] in E. rewrite (C eq_refl), app_nil_r in E. congruence.
Qed.
Lemma send_incomplete os buffer r wire os' : tcp_send os buffer 0 = (r, wire, os') -> r <> SOk -> buffer <> [] -> strict_prefix wire buffer.
Proof.
  intros H Hr Hb. destruct (send_from _ _ _ _ _ _ (Nat.le_0_l _) H) as (c & E & _ & C). cbn [skipn] in *. exists c. split; [|exact E].
  intros Hc. exact (Hb (C Hr Hc)).
Qed.

Lemma sends_in_order os buffers r wire os' : send_all os buffers = (r, wire, os') ->
  (r = SOk -> wire = concat buffers) /\ prefix wire (concat buffers).
Proof.
  revert os r wire os'. induction buffers as [|b bs IH]; intros os r wire os' H; cbn [send_all concat] in *.
  - injection H as <- <- <-. split; [reflexivity|exists []; reflexivity].
  - destruct (tcp_send os b 0) as [[r1 w1] o1] eqn:E.
    destruct (send_from _ _ _ _ _ _ (Nat.le_0_l _) E) as (c & Ec & C & _). cbn [skipn] in Ec. destruct r1.
    + rewrite (C eq_refl), app_nil_r in Ec. destruct (send_all o1 bs) as [[r2 w2] o2] eqn:E2. injection H as <- <- <-.
      destruct (IH _ _ _ _ E2) as [A (d & B)]. subst b. split; [intros ->; rewrite (A eq_refl); reflexivity|].
      exists d. rewrite B, app_assoc. reflexivity.
    + injection H as <- <- <-. split; [discriminate|]. exists (c ++ concat bs). rewrite Ec, app_assoc. reflexivity.
    + injection H as <- <- <-. split; [discriminate|]. exists (c ++ concat bs). rewrite Ec, app_assoc. reflexivity.
Qed.

Lemma send_progress os : forall buffer sent, Forall useful os -> sent <= length buffer -> length buffer - sent <= length os -> 0 < length os ->
  exists wire os', tcp_send os buffer sent = (SOk, wire, os').
Proof.
  induction os as [|rd os IH]; intros buffer sent F L N P; [cbn in P; lia|]. inversion F as [|? ? (n & -> & Hn) F']; subst. cbn [tcp_send].
  set (wr := firstn n (skipn sent buffer)).
  destruct (Nat.ltb_spec (sent + length wr) (length buffer)) as [Lt|Ge].
  - assert (Hw : 0 < length wr).
    { unfold wr. rewrite firstn_length, skipn_length. unfold wr in Lt. rewrite firstn_length, skipn_length in Lt. lia. }
    cbn [length] in N. destruct (IH buffer (sent + length wr) F') as (w & o & E); [lia|lia|lia|]. rewrite E. eexists. eexists. reflexivity.
  - eexists. eexists. reflexivity.
Qed.
Lemma send_succeeds os buffer : Forall useful os -> length buffer <= length os -> 0 < length os ->
  exists os', tcp_send os buffer 0 = (SOk, buffer, os').
Proof.
  intros F N P. destruct (send_progress os buffer 0 F) as (w & o & E); [lia|lia|exact P|]. exists o. rewrite E. f_equal. f_equal. exact (send_complete _ _ _ _ E).
Qed.

Lemma zero_writes_spin k buffer : buffer <> [] -> tcp_send (repeat (Ready, Some 0) k) buffer 0 = (SPending, [], []).
Proof.
  intros H. induction k as [|k IH]; [reflexivity|]. cbn [repeat tcp_send firstn length]. rewrite Nat.add_0_r.
  destruct buffer as [|x b]; [congruence|]. change (0 <? length (x :: b)) with true. cbv beta iota. rewrite IH. reflexivity.
Qed.

Lemma spurious_wakeup n buffer os : n < length buffer ->
  tcp_send ((Ready, Some n) :: (Ready, None) :: os) buffer 0 = (SErr, firstn n buffer, os).
Proof.
  intros H. cbn [tcp_send skipn plus]. rewrite firstn_length, Nat.min_l by lia.
  destruct (Nat.ltb_spec n (length buffer)); [|lia]. rewrite app_nil_r. reflexivity.
Qed.

(** ** The receiving end *)

Lemma recv_stream os t r t' : tcp_recv os t = (r, t') ->
  t_fin t' = t_fin t /\ t_avail t = got [r] ++ t_avail t' /\
  (forall d, r = ROk d -> length d <= 1400 /\ (d = [] -> t_avail t = [] /\ t_fin t = true)).
Proof.
  induction os as [|[rd w] os IH]; intros H; cbn [tcp_recv] in H.
  - injection H as <- <-. repeat split; discriminate.
  - destruct rd; [|exact (IH H)|injection H as <- <-; repeat split; discriminate].
    destruct w as [n|]; [|injection H as <- <-; repeat split; discriminate].
    destruct (t_avail t) as [|x l] eqn:A.
    + destruct (t_fin t) eqn:Fi; injection H as <- <-; rewrite ?A, ?Fi.
      * split; [reflexivity|]. split; [reflexivity|]. intros d [= <-]. split; [cbn; lia|auto].
      * repeat split; discriminate.
    + assert (S1 : 1 <= Nat.min (Nat.max 1 n) 1400) by lia.
      assert (S2 : Nat.min (Nat.max 1 n) 1400 <= 1400) by lia.
      set (size := Nat.min (Nat.max 1 n) 1400) in *. injection H as <- <-. cbn [t_fin t_avail]. split; [reflexivity|].
      split; [cbn [got]; rewrite app_nil_r, firstn_skipn; reflexivity|]. intros d [= <-]. split.
      * rewrite firstn_length. lia.
      * intros E. destruct size; [lia|]. discriminate E.
Qed.

Lemma stream_in_order es : forall t t' rs, tcp_run t es = (t', rs) -> t_fin t = false -> t_avail t ++ arrived es = got rs ++ t_avail t'.
Proof.
  assert (Fin : forall es t t' rs, tcp_run t es = (t', rs) -> t_fin t = true -> t_avail t = got rs ++ t_avail t').
  { clear es. intros es. induction es as [|e es IH]; intros t t' rs H F; cbn [tcp_run] in H.
    - injection H as <- <-. reflexivity.
    - destruct e as [data| |os].
      + rewrite F in H. exact (IH _ _ _ H F).
      + apply (IH _ _ _ H). reflexivity.
      + destruct (tcp_recv os t) as [r t1] eqn:R. destruct (tcp_run t1 es) as [t2 rs2] eqn:E. injection H as <- <-.
        destruct (recv_stream _ _ _ _ R) as (F1 & A1 & _). rewrite F in F1. rewrite A1, (IH _ _ _ E F1).
        destruct r; cbn [got app]; rewrite ?app_nil_r, ?app_assoc; reflexivity. }
  induction es as [|e es IH]; intros t t' rs H F; cbn [tcp_run arrived] in *.
  - injection H as <- <-. cbn. apply app_nil_r.
  - destruct e as [data| |os].
    + rewrite F in H. rewrite app_assoc. exact (IH _ _ _ H eq_refl).
    + rewrite app_nil_r. exact (Fin _ _ _ _ H eq_refl).
    + destruct (tcp_recv os t) as [r t1] eqn:R. destruct (tcp_run t1 es) as [t2 rs2] eqn:E. injection H as <- <-.
      destruct (recv_stream _ _ _ _ R) as (F1 & A1 & _). rewrite F in F1. rewrite A1, <- app_assoc, (IH _ _ _ E F1).
      destruct r; cbn [got]; rewrite ?app_nil_r, ?app_assoc; reflexivity.
Qed.

Lemma recv_in_order es t' rs : tcp_run (mkT [] false) es = (t', rs) -> arrived es = got rs ++ t_avail t'.
Proof. intros H. exact (stream_in_order _ _ _ _ H eq_refl). Qed.

Lemma recv_what_there_is n t os x l : t_avail t = x :: l ->
  exists d t', tcp_recv ((Ready, Some n) :: os) t = (ROk d, t') /\ d <> [].
Proof.
  intros A. cbn [tcp_recv]. rewrite A. eexists. eexists. split; [reflexivity|].
  destruct (Nat.min (Nat.max 1 n) 1400) eqn:E; [lia|]. discriminate.
Qed.

Lemma end_of_stream os t : t_avail t = [] -> t_fin t = true -> Forall faultless os ->
  (exists k, In (Ready, k) os) -> tcp_recv os t = (ROk [], t).
Proof.
  intros A F. induction os as [|[rd w] os IH]; intros Fl (k & Hk); [destruct Hk|]. inversion Fl as [|? ? D Fl']; subst.
  cbn [tcp_recv]. destruct rd.
  - destruct w as [n|]; [rewrite A, F; reflexivity|]. destruct D as [D|[_ D]]; [discriminate|destruct (D eq_refl)].
  - apply IH; [exact Fl'|]. exists k. destruct Hk as [[=]|Hk]. exact Hk.
  - destruct D as [[=]|[[=] _]].
Qed.

Lemma never_closed os t : Forall faultless os -> t_fin t = true -> fst (tcp_recv os t) <> RClosed.
Proof.
  intros Fl F. induction os as [|[rd w] os IH]; cbn [tcp_recv]; [discriminate|]. inversion Fl as [|? ? D Fl']; subst.
  destruct rd.
  - destruct w as [n|]; [|destruct D as [D|[_ D]]; [discriminate|destruct (D eq_refl)]].
    destruct (t_avail t); [rewrite F|]; discriminate.
  - apply IH. exact Fl'.
  - destruct D as [[=]|[[=] _]].
Qed.

Lemma closed_too_early : exists es rs t, tcp_run (mkT [] false) es = (t, rs) /\ rs = [RClosed; ROk [1%N; 2%N]].
Proof. exists [TRecv [(Ready, None)]; TArrive [1%N; 2%N]; TRecv [(Ready, Some 9)]]. eexists. eexists. split; reflexivity. Qed.

(** Both ends. *)
Lemma both_ends os buffers r wire os' es t' rs :
  send_all os buffers = (r, wire, os') -> prefix (arrived es) wire -> tcp_run (mkT [] false) es = (t', rs) ->
  prefix (got rs) (concat buffers) /\
  (r = SOk -> arrived es = wire -> t_avail t' = [] -> got rs = concat buffers).
Proof.
  intros S (c & W) R. destruct (sends_in_order _ _ _ _ _ S) as [A (d & B)]. assert (G := recv_in_order _ _ _ R). split.
  - exists (t_avail t' ++ c ++ d). rewrite B, W, G, <- !app_assoc. reflexivity.
  - intros Hr E Em. rewrite Em, app_nil_r in G. rewrite <- G, E. exact (A Hr).
Qed.

(** Boundaries between buffers are not kept: any cut of the stream into pieces of 1 to 1400
    bytes can be what the receiver sees. *)
Lemma any_boundaries pieces : Forall (fun d => 0 < length d <= 1400) pieces ->
  exists es t, tcp_run (mkT [] false) es = (t, map ROk pieces) /\ arrived es = concat pieces.
Proof.
  intros F. exists (TArrive (concat pieces) :: map (fun d => TRecv [(Ready, Some (length d))]) pieces), (mkT [] false).
  split.
  - cbn [tcp_run t_fin t_avail app]. induction F as [|d ds [H1 H2] F IH]; [reflexivity|].
    cbn [map concat tcp_run]. assert (E : tcp_recv [(Ready, Some (length d))] (mkT (d ++ concat ds) false) = (ROk d, mkT (concat ds) false)).
    { cbn [tcp_recv t_avail t_fin]. destruct d as [|x d]; [cbn in H1; lia|]. cbn [app].
      rewrite Nat.max_r, Nat.min_l by lia. change (x :: d ++ concat ds) with ((x :: d) ++ concat ds).
      rewrite firstn_app, firstn_all, Nat.sub_diag, skipn_app, skipn_all, Nat.sub_diag. cbn [firstn skipn]. rewrite app_nil_r. reflexivity. }
    rewrite E, IH. reflexivity.
  - cbn [arrived]. rewrite <- (app_nil_r (concat pieces)) at 2. f_equal. induction pieces as [|d ds IH]; [reflexivity|]. cbn. inversion F; subst. auto.
Qed.
