(** Theorems about an endpoint over TCP. *)
From Coq Require Import List NArith Bool PeanoNat Lia Sorted.
From Verif Require Import BytesModel BytesProofs WireSpec UniverseModel UniverseProofs SomeipModel SomeipSpec SomeipTheorems MapModel EndpointProofs
  RuntimeModel RuntimeSpec RuntimeProofs RuntimeTheorems RuntimePacketTheorems RuntimeSendTheorems RuntimeWorkTheorems RuntimeCallTheorems RuntimeAddrTheorems
  TcpModel TcpSpec TcpTheorems NodeSpec NodeProofs NodeTheorems NodeLossTheorems NodeNetTheorems TcpNodeModel TcpNodeSpec.
Import ListNotations.
Open Scope nat_scope.

(** ** Links *)
Definition lk (s : tnode) (c : nat) : link := nth c (t_links s) new_link.
Lemma nth_grow c l n : nth c (l ++ repeat new_link n) new_link = nth c l new_link.
Proof.
  destruct (Nat.lt_ge_cases c (length l)) as [L|L]; [apply app_nth1; exact L|].
  rewrite app_nth2 by exact L. rewrite (nth_overflow l) by exact L. generalize (c - length l). clear.
  induction n as [|n IH]; intros [|k]; cbn; auto.
Qed.
Lemma nth_upd_link c d f l k : nth_error l d = Some k -> nth c (upd d f l) new_link = if c =? d then f k else nth c l new_link.
Proof.
  intros E. destruct (Nat.eqb_spec c d) as [->|N].
  - erewrite nth_error_nth; [reflexivity|]. rewrite nth_upd_same, E. reflexivity.
  - destruct (nth_error l c) as [y|] eqn:Y.
    + rewrite (nth_error_nth _ _ _ Y). erewrite nth_error_nth; [reflexivity|]. rewrite nth_upd_other by exact N. exact Y.
    + apply nth_error_None in Y. rewrite 2 nth_overflow; [reflexivity|exact Y|rewrite length_upd; exact Y].
Qed.
Lemma lk_is s c k : nth_error (t_links s) c = Some k -> lk s c = k.
Proof. intros E. unfold lk. apply nth_error_nth. exact E. Qed.

Section Locks.
Context (bk : iid -> N) (cbk : N -> N).
Local Notation step := (step bk cbk).
Local Notation history := (history bk cbk false).
Local Notation tnode_step := (tnode_step bk cbk).
Local Notation thistory := (thistory bk cbk).

(** ** What a step is *)
Inductive tstepped (s : tnode) : tnevent -> tnode -> tentry -> Prop :=
| ts_run e r o n : tcp_internal e = true -> step (t_rt s) e = Some (r, o) ->
    n = length (r_conns r) - length (t_links s) ->
    tstepped s (TRun e) (mkTN r (t_links s ++ repeat new_link n)) (mkTE (Some (e, o)) [])
| ts_bytes c d k : nth_error (t_links s) c = Some k -> t_fin (k_in k) = false ->
    tstepped s (TBytes c d) (mkTN (t_rt s) (upd c (k_with_in (mkT (t_avail (k_in k) ++ d) false)) (t_links s))) (mkTE None [])
| ts_fin c k : nth_error (t_links s) c = Some k ->
    tstepped s (TEnd c) (mkTN (t_rt s) (upd c (k_with_in (mkT (t_avail (k_in k)) true)) (t_links s))) (mkTE None [])
| ts_read c q d t k r o n : nth_error (t_links s) c = Some k -> tcp_recv [q] (k_in k) = (ROk d, t) ->
    step (t_rt s) (EPacket c d) = Some (r, o) -> n = length (r_conns r) - length (t_links s) ->
    tstepped s (TRead c q) (mkTN r (upd c (k_with_in t) (t_links s) ++ repeat new_link n)) (mkTE (Some (EPacket c d, o)) [])
| ts_closed c q t k r o n : nth_error (t_links s) c = Some k -> tcp_recv [q] (k_in k) = (RClosed, t) ->
    step (t_rt s) (EEnd c) = Some (r, o) -> n = length (r_conns r) - length (t_links s) ->
    tstepped s (TRead c q) (mkTN r (upd c (k_with_in t) (t_links s) ++ repeat new_link n)) (mkTE (Some (EEnd c, o)) [])
| ts_written c q x k bs w z r o n : nth_error (r_conns (t_rt s)) c = Some x -> nth_error (t_links s) c = Some k -> c_out x = Some bs ->
    tcp_send [q] bs (k_sent k) = (SOk, w, z) -> step (t_rt s) (ESocket c true) = Some (r, o) -> n = length (r_conns r) - length (t_links s) ->
    tstepped s (TWrite c q) (mkTN r (upd c (k_with_sent 0) (t_links s) ++ repeat new_link n)) (mkTE (Some (ESocket c true, o)) w)
| ts_failed c q x k bs w z r o n : nth_error (r_conns (t_rt s)) c = Some x -> nth_error (t_links s) c = Some k -> c_out x = Some bs ->
    tcp_send [q] bs (k_sent k) = (SErr, w, z) -> step (t_rt s) (ESocket c false) = Some (r, o) -> n = length (r_conns r) - length (t_links s) ->
    tstepped s (TWrite c q) (mkTN r (upd c (k_with_sent 0) (t_links s) ++ repeat new_link n)) (mkTE (Some (ESocket c false, o)) w)
| ts_partly c q x k bs w z : nth_error (r_conns (t_rt s)) c = Some x -> nth_error (t_links s) c = Some k -> c_out x = Some bs ->
    tcp_send [q] bs (k_sent k) = (SPending, w, z) ->
    tstepped s (TWrite c q) (mkTN (t_rt s) (upd c (k_with_sent (k_sent k + length w)) (t_links s))) (mkTE None w).

Lemma tnode_stepped s e s' x : tnode_step s e = Some (s', x) -> tstepped s e s' x.
Proof.
  intros H. destruct e; unfold TcpNodeModel.tnode_step, tcp_answer in H; cases_in H; injection H as <- <-; rewrite ?length_upd.
  all: try (eapply ts_run; [assumption|eassumption|reflexivity]).
  - eapply ts_bytes; eassumption.
  - eapply ts_fin; eassumption.
  - eapply ts_read; try eassumption. reflexivity.
  - eapply ts_closed; try eassumption. reflexivity.
  - eapply ts_written; try eassumption. reflexivity.
  - eapply ts_failed; try eassumption. reflexivity.
  - eapply ts_partly; eassumption.
Qed.

Lemma tcp_trace_snoc tr e x : tcp_trace (tr ++ [(e, x)]) = tcp_trace tr ++ match te_rt x with Some q => [q] | None => [] end.
Proof. unfold tcp_trace. rewrite flat_map_app. cbn. rewrite app_nil_r. reflexivity. Qed.
Lemma tcp_trace_app t1 t2 : tcp_trace (t1 ++ t2) = tcp_trace t1 ++ tcp_trace t2.
Proof. apply flat_map_app. Qed.
Lemma bytes_in_snoc c tr e x : bytes_in c (tr ++ [(e, x)]) = bytes_in c tr ++ match e with TBytes d b => if d =? c then b else [] | _ => [] end.
Proof. unfold bytes_in. rewrite flat_map_app. cbn. rewrite app_nil_r. reflexivity. Qed.
Lemma bytes_out_snoc c tr e x : bytes_out c (tr ++ [(e, x)]) = bytes_out c tr ++ match e with TWrite d _ => if d =? c then te_out x else [] | _ => [] end.
Proof. unfold bytes_out. rewrite flat_map_app. cbn. rewrite app_nil_r. reflexivity. Qed.
Lemma reads_snoc c tr e x : reads c (tr ++ [(e, x)]) =
  reads c tr ++ match te_rt x with Some (EPacket d b, _) => if d =? c then [b] else [] | _ => [] end.
Proof.
  unfold reads. rewrite tcp_trace_snoc, flat_map_app. f_equal. destruct (te_rt x) as [[f o]|]; [|reflexivity].
  cbn. rewrite app_nil_r. reflexivity.
Qed.

Lemma tcp_history tr s : thistory tr s -> history (tcp_trace tr) (t_rt s).
Proof.
  induction 1 as [|tr s e s' x H IH ST]; [constructor|]. rewrite tcp_trace_snoc.
  destruct (tnode_stepped _ _ _ _ ST); cbn [te_rt t_rt]; rewrite ?app_nil_r; try exact IH; eapply h_more; eassumption.
Qed.
Lemma tcp_step_rt s e s' x : tnode_step s e = Some (s', x) ->
  match te_rt x with Some (f, o) => step (t_rt s) f = Some (t_rt s', o) | None => t_rt s' = t_rt s end.
Proof. intros ST. destruct (tnode_stepped _ _ _ _ ST); cbn; auto. Qed.
Lemma links_length tr s : thistory tr s -> length (t_links s) = length (r_conns (t_rt s)).
Proof.
  assert (G : forall q f r o, step q f = Some (r, o) -> length (r_conns q) <= length (r_conns r)).
  { intros q f r o H. apply step_addrs in H. apply (f_equal (@length N)) in H. rewrite app_length, !map_length in H. lia. }
  induction 1 as [|tr s e s' x H IH ST]; [reflexivity|].
  destruct (tnode_stepped _ _ _ _ ST); cbn [t_links t_rt]; rewrite ?app_length, ?length_upd, ?repeat_length; try exact IH;
  match goal with H : step _ _ = Some _ |- _ => apply G in H end; lia.
Qed.
Lemma has_link tr s c x : thistory tr s -> nth_error (r_conns (t_rt s)) c = Some x -> nth_error (t_links s) c = Some (lk s c).
Proof.
  intros H X. apply nth_error_nth'. rewrite (links_length _ _ H). apply nth_error_Some. congruence.
Qed.

(** ** Reading *)
Lemma recv_one q t d t' : tcp_recv [q] t = (ROk d, t') -> length d <= 1400 /\ t_avail t = d ++ t_avail t' /\ t_fin t' = t_fin t.
Proof.
  intros R. destruct (recv_stream _ _ _ _ R) as (A & B & C). destruct (C _ eq_refl) as [L _]. cbn in B. rewrite app_nil_r in B. auto.
Qed.
Lemma closed_one q t t' : tcp_recv [q] t = (RClosed, t') -> t' = t.
Proof.
  intros R. destruct q as [[] [n|]]; cbn in R; try discriminate R; try (injection R as <-; reflexivity).
  destruct (t_avail t); [|discriminate R]. destruct (t_fin t); [discriminate R|]. injection R as <-. reflexivity.
Qed.
Lemma closed_snoc c tr p : peer_closed c (tr ++ [p]) <-> peer_closed c tr \/ fst p = TEnd c.
Proof.
  unfold peer_closed. split.
  - intros [x I]. apply in_app_iff in I. destruct I as [I|[->|[]]]; [left; eauto|right; reflexivity].
  - intros [[x I]|E]; [exists x; apply in_app_iff; left; exact I|]. destruct p as [e x]. cbn in E. subst. exists x. apply in_app_iff. right. left. reflexivity.
Qed.
Lemma reading tr s : thistory tr s -> forall c,
  bytes_in c tr = concat (reads c tr) ++ t_avail (k_in (lk s c)) /\ (t_fin (k_in (lk s c)) = true <-> peer_closed c tr) /\
  Forall (fun d => length d <= 1400) (reads c tr).
Proof.
  induction 1 as [|tr s e s' x H IH ST]; intros c.
  - split; [|split; [|constructor]]; unfold lk; destruct c; cbn; try reflexivity; split; try discriminate; intros [x []].
  - destruct (IH c) as (I1 & I2 & I3). rewrite bytes_in_snoc, reads_snoc, closed_snoc. unfold lk in *.
    destruct (tnode_stepped _ _ _ _ ST); cbn [t_links te_rt fst];
      rewrite ?nth_grow; repeat (erewrite nth_upd_link by eassumption); rewrite ?app_nil_r.
    + rename H0 into IN. destruct e; try discriminate IN; rewrite ?app_nil_r; (split; [exact I1|split; [rewrite I2; split; [auto|intros [J|J]; [exact J|discriminate J]]|exact I3]]).
    + rename c0 into d0. rewrite Nat.eqb_sym. destruct (Nat.eqb_spec c d0) as [->|N]; rewrite ?app_nil_r.
      * erewrite (nth_error_nth _ _ _ H0) in I1, I2. cbn. rewrite I1, app_assoc. split; [reflexivity|]. split; [|exact I3].
        rewrite <- I2, H1. split; [discriminate|intros [J|J]; discriminate J].
      * split; [exact I1|split; [rewrite I2; split; [auto|intros [J|J]; [exact J|discriminate J]]|exact I3]].
    + rename c0 into d0. destruct (Nat.eqb_spec c d0) as [->|N].
      * erewrite (nth_error_nth _ _ _ H0) in I1, I2. cbn. split; [exact I1|]. split; [|exact I3]. split; auto.
      * split; [exact I1|split; [rewrite I2; split; [auto|intros [J|J]; [exact J|injection J as J; congruence]]|exact I3]].
    + rename c0 into d0. destruct (recv_one _ _ _ _ H1) as (L & A & F). rewrite (Nat.eqb_sym d0). destruct (Nat.eqb_spec c d0) as [->|N]; rewrite ?app_nil_r.
      * erewrite (nth_error_nth _ _ _ H0) in I1, I2. cbn [k_in k_with_in]. rewrite concat_app. cbn [concat]. rewrite app_nil_r, <- app_assoc, <- A, F.
        split; [exact I1|]. split; [rewrite I2; split; [auto|intros [J|J]; [exact J|discriminate J]]|]. apply Forall_app. split; [exact I3|]. constructor; [exact L|constructor].
      * split; [exact I1|split; [rewrite I2; split; [auto|intros [J|J]; [exact J|discriminate J]]|exact I3]].
    + rename c0 into d0. apply closed_one in H1. subst t. destruct (Nat.eqb_spec c d0) as [->|N].
      * erewrite (nth_error_nth _ _ _ H0) in I1, I2. cbn [k_in k_with_in].
        split; [exact I1|split; [rewrite I2; split; [auto|intros [J|J]; [exact J|discriminate J]]|exact I3]].
      * split; [exact I1|split; [rewrite I2; split; [auto|intros [J|J]; [exact J|discriminate J]]|exact I3]].
    + rename c0 into d0. destruct (Nat.eqb_spec c d0) as [->|N]; [erewrite (nth_error_nth _ _ _ H1) in I1, I2; cbn [k_in k_with_sent]|];
      (split; [exact I1|split; [rewrite I2; split; [auto|intros [J|J]; [exact J|discriminate J]]|exact I3]]).
    + rename c0 into d0. destruct (Nat.eqb_spec c d0) as [->|N]; [erewrite (nth_error_nth _ _ _ H1) in I1, I2; cbn [k_in k_with_sent]|];
      (split; [exact I1|split; [rewrite I2; split; [auto|intros [J|J]; [exact J|discriminate J]]|exact I3]]).
    + rename c0 into d0. destruct (Nat.eqb_spec c d0) as [->|N]; [erewrite (nth_error_nth _ _ _ H1) in I1, I2; cbn [k_in k_with_sent]|];
      (split; [exact I1|split; [rewrite I2; split; [auto|intros [J|J]; [exact J|discriminate J]]|exact I3]]).
Qed.
Lemma tcp_reads tr s c : thistory tr s ->
  (exists rest, bytes_in c tr = concat (reads c tr) ++ rest) /\ Forall (fun d => length d <= 1400) (reads c tr).
Proof. intros H. destruct (reading _ _ H c) as (A & _ & B). split; [eauto|exact B]. Qed.

(** ** What the users are given *)
Lemma decoded_reads c tr : decoded c (tcp_trace tr) = flat_map packet_messages (reads c tr).
Proof.
  unfold decoded, reads. induction (tcp_trace tr) as [|[e o] t IH]; [reflexivity|]. cbn [flat_map]. rewrite flat_map_app, <- IH. f_equal.
  cbn. destruct e; try reflexivity. destruct (c0 =? c); [cbn; rewrite app_nil_r|]; reflexivity.
Qed.
Lemma tcp_msg_event tr s e it : history tr s -> In (e, OMsg it) tr -> (exists n, e = ERecvFrom n) \/ (exists n, e = EProxyRecv n).
Proof.
  induction 1 as [|tr s ev s' o H IH ST]; [contradiction|]. intros I. apply in_app_iff in I. destruct I as [I|[I|[]]]; [auto|].
  injection I as -> ->. destruct e; cbn in ST; unfold step_ep, step_take, step_route, step_stub, push_cmd in ST; cases_in ST; try discriminate; eauto.
Qed.
Lemma tcp_got_facts tr s it : history tr s -> In it (all_got tr) ->
  nth_error (decoded (it_conn it) tr) (it_no it) = Some (it_msg it) /\ opened (it_conn it) (it_addr it) tr.
Proof.
  intros H I. apply all_got_in in I. destruct I as [e I].
  destruct (tcp_msg_event _ _ _ _ H I) as [[n ->]|[n ->]].
  - destruct (receiver_created _ _ _ _ _ n it H) as [K _]. destruct (K I) as [id S].
    destruct (stub_routing _ _ _ _ _ _ _ _ H S I) as (_ & A & B). auto.
  - destruct (receiver_created _ _ _ _ _ n it H) as [_ K]. destruct (K I) as (id & a & S).
    destruct (proxy_routing _ _ _ _ _ _ _ _ _ H S I) as (_ & -> & A & B). auto.
Qed.
Lemma tcp_given tr s it : thistory tr s -> In it (all_got (tcp_trace tr)) ->
  In (it_msg it) (flat_map packet_messages (reads (it_conn it) tr)) /\ opened (it_conn it) (it_addr it) (tcp_trace tr).
Proof.
  intros H I. destruct (tcp_got_facts _ _ _ (tcp_history _ _ H) I) as [A B]. split; [|exact B].
  rewrite <- decoded_reads. eapply nth_error_In. exact A.
Qed.
Lemma tcp_given_order tr s n c : thistory tr s ->
  subseq (map it_msg (from_conn c (stub_got n (tcp_trace tr)))) (flat_map packet_messages (reads c tr)) /\
  subseq (map it_msg (from_conn c (proxy_got n (tcp_trace tr)))) (flat_map packet_messages (reads c tr)).
Proof.
  intros H. pose proof (tcp_history _ _ H) as R. destruct (in_order _ _ _ _ _ n c R) as [A B]. rewrite <- decoded_reads.
  split; apply items_subseq; try assumption; intros it I; apply (tcp_got_facts _ _ _ R).
  - eapply stub_got_all. exact I.
  - eapply proxy_got_all. exact I.
Qed.
Lemma packet_small bs ms : packet bs ms -> Forall (fun m => length (s_payload m) + 16 <= length bs) ms.
Proof.
  induction 1 as [|m bs ms O P IH|m L O HL].
  - constructor.
  - rewrite app_length. assert (F := claiming_len (8 + len (s_payload m)) m). rewrite <- form_claims in F. unfold len in F.
    constructor; [lia|]. eapply Forall_impl; [|exact IH]. intros m'. cbn. lia.
  - assert (F := claiming_len L m). unfold len in F. constructor; [lia|constructor].
Qed.
Lemma bytes_concat (l : list (list N)) d : bytes_ok (concat l) -> In d l -> bytes_ok d.
Proof.
  induction l as [|x l IH]; [contradiction|]. cbn. intros B [->|I]; apply bytes_ok_app in B; [apply B|apply IH; [apply B|exact I]].
Qed.
Lemma tcp_small tr s it : thistory tr s -> (forall c, bytes_ok (bytes_in c tr)) -> In it (all_got (tcp_trace tr)) ->
  length (s_payload (it_msg it)) <= 1384.
Proof.
  intros H B I. destruct (tcp_given _ _ _ H I) as [G _]. apply in_flat_map in G. destruct G as (d & D & G).
  destruct (reading _ _ H (it_conn it)) as (E & _ & F). rewrite Forall_forall in F. specialize (F d D).
  unfold packet_messages in G. destruct (decode d) as [ms|] eqn:Q; [|destruct G].
  specialize (B (it_conn it)). rewrite E in B. apply bytes_ok_app in B. destruct B as [B _]. apply (bytes_concat _ d) in B; [|exact D].
  apply packet_read in Q; [|exact B]. apply packet_small in Q. rewrite Forall_forall in Q. specialize (Q _ G). cbn in Q. lia.
Qed.
(** Nothing that was read is lost on the way to a stub. *)
Lemma thistory_split tr s : thistory tr s -> forall t1 t2, tr = t1 ++ t2 -> exists s1, thistory t1 s1 /\ steps bk cbk (t_rt s1) (tcp_trace t2) (t_rt s).
Proof.
  induction 1 as [|tr s e s' x H IH ST]; intros t1 t2 E.
  - symmetry in E. apply app_eq_nil in E. destruct E as [-> ->]. exists tnode_init. split; constructor.
  - destruct t2 as [|p t2 _] using rev_ind.
    + rewrite app_nil_r in E. subst t1. exists s'. split; [eapply t_more; eassumption|constructor].
    + rewrite app_assoc in E. apply app_inj_tail in E. destruct E as [E <-]. destruct (IH _ _ E) as (s1 & H1 & S). exists s1. split; [exact H1|].
      rewrite tcp_trace_snoc. apply tcp_step_rt in ST. destruct (te_rt x) as [[f o]|].
      * clear - S ST. revert S. generalize (tcp_trace t2) (t_rt s1). intros t q S. induction S as [q|q f' o' q1 t q2 ST' S IH].
        -- cbn. eapply s_more; [exact ST|constructor].
        -- cbn. eapply s_more; [exact ST'|]. apply IH. exact ST.
      * rewrite app_nil_r, ST. exact S.
Qed.
Lemma no_reads_no_decoded c tr : reads c tr = [] -> decoded c (tcp_trace tr) = [].
Proof. intros E. rewrite decoded_reads, E. reflexivity. Qed.
Lemma tcp_stub_gets tr1 tr2 s n id c : thistory (tr1 ++ tr2) s -> served n id (tcp_trace tr1) -> reads c tr1 = [] ->
  stub_exists (t_rt s) n -> stub_listening (t_rt s) n -> conn_runs (t_rt s) c ->
  map it_msg (from_conn c (stub_got n (tcp_trace (tr1 ++ tr2)) ++ stub_backlog (t_rt s) n)) ++ map it_msg (for_id id (waiting (t_rt s) c)) =
  filter (of_id id) (flat_map packet_messages (reads c (tr1 ++ tr2))).
Proof.
  intros H SV NO X L C. rewrite <- decoded_reads. pose proof (tcp_history _ _ H) as R. rewrite tcp_trace_app in *.
  eapply (stub_accounts bk cbk false); try eassumption. apply no_reads_no_decoded. exact NO.
Qed.
Lemma tcp_proxy_gets tr1 tr2 s n id a c : thistory (tr1 ++ tr2) s -> proxied n id a (tcp_trace tr1) -> reads c tr1 = [] ->
  opened c a (tcp_trace (tr1 ++ tr2)) -> proxy_exists (t_rt s) n -> proxy_connected (t_rt s) n -> conn_runs (t_rt s) c ->
  map it_msg (from_conn c (proxy_got n (tcp_trace (tr1 ++ tr2)) ++ proxy_backlog (t_rt s) n)) ++ map it_msg (for_id id (waiting (t_rt s) c)) =
  filter (of_id id) (flat_map packet_messages (reads c (tr1 ++ tr2))).
Proof.
  intros H SV NO O X L C. rewrite <- decoded_reads. pose proof (tcp_history _ _ H) as R. rewrite tcp_trace_app in *.
  eapply (proxy_accounts bk cbk false); try eassumption. apply no_reads_no_decoded. exact NO.
Qed.

(** ** Writing *)
Definition wrote (tr : list (tnevent * tentry)) (s : tnode) (c : nat) : Prop :=
  match nth_error (r_conns (t_rt s)) c with
  | None => bytes_out c tr = [] /\ k_sent (lk s c) = 0
  | Some x =>
      if c_alive x then
        match c_out x with
        | Some bs => k_sent (lk s c) <= length bs /\ bytes_out c tr = concat (sent c (tcp_trace tr)) ++ firstn (k_sent (lk s c)) bs
        | None => k_sent (lk s c) = 0 /\ bytes_out c tr = concat (sent c (tcp_trace tr))
        end
      else c_out x = None /\ exists part lost, bytes_out c tr = concat (sent c (tcp_trace tr)) ++ part /\
             map encode (accepted c (tcp_trace tr)) = sent c (tcp_trace tr) ++ lost /\ prefix part (concat (firstn 1 lost))
  end.
Lemma write_one q bs n r w z : n <= length bs -> tcp_send [q] bs n = (r, w, z) ->
  n + length w <= length bs /\ firstn (n + length w) bs = firstn n bs ++ w /\ (r = SOk -> firstn (n + length w) bs = bs) /\ (r = SErr -> w = []).
Proof.
  intros L H. destruct (send_from _ _ _ _ _ _ L H) as (c & E & C & _).
  assert (LW : length w <= length bs - n) by (apply (f_equal (@length N)) in E; rewrite skipn_length, app_length in E; lia).
  assert (F : firstn (n + length w) bs = firstn n bs ++ w).
  { rewrite <- (firstn_skipn n bs) at 1. rewrite E. rewrite firstn_app, firstn_firstn, firstn_length.
    replace (n + length w - Nat.min n (length bs)) with (length w) by lia. rewrite Nat.min_r by lia. f_equal.
    rewrite firstn_app, Nat.sub_diag, firstn_O, app_nil_r, firstn_all. reflexivity. }
  split; [lia|]. split; [exact F|]. split.
  - intros ->. rewrite F. rewrite (C eq_refl), app_nil_r in E. rewrite <- E. apply firstn_skipn.
  - intros ->. destruct q as [[] [k|]]; cbn in H; try discriminate H; try (injection H as <- _; reflexivity).
    match type of H with (if ?b then _ else _) = _ => destruct b end; discriminate H.
Qed.
Lemma prefix_firstn n (l : list N) : prefix (firstn n l) l.
Proof. exists (skipn n l). symmetry. apply firstn_skipn. Qed.
(** A step of the runtime other than an answer of the sending stream of [c]. *)
Lemma wrote_rt tr s e x f o r links n c : thistory tr s -> wrote tr s c -> step (t_rt s) f = Some (r, o) -> (forall ok, f <> ESocket c ok) ->
  te_rt x = Some (f, o) -> (forall d q, e <> TWrite d q) -> k_sent (nth c links new_link) = k_sent (lk s c) ->
  wrote (tr ++ [(e, x)]) (mkTN r (links ++ repeat new_link n)) c.
Proof.
  intros H W ST NS X NW K. pose proof (fates _ _ _ _ _ (tcp_history _ _ H) c) as F.
  unfold wrote in *. cbn [t_rt]. unfold lk in *. cbn [t_links]. rewrite nth_grow, K.
  rewrite bytes_out_snoc, tcp_trace_snoc, X.
  replace (match e with TWrite d _ => if d =? c then te_out x else [] | _ => [] end) with (@nil N) by (destruct e; try reflexivity; destruct (NW c0 r0 eq_refl)).
  rewrite app_nil_r, sent_snoc, accepted_snoc.
  replace (match f, o with ESocket d _, OSent bs => if d =? c then [bs] else [] | _, _ => [] end) with (@nil (list N))
    by (destruct f; try reflexivity; destruct o; try reflexivity; destruct (Nat.eqb_spec c0 c) as [->|]; [destruct (NS ok eq_refl)|reflexivity]).
  rewrite app_nil_r.
  destruct (step_cchange _ _ false _ _ _ _ c ST) as
      [Y X'|a L X' O|y x' Y X' A AL Q O O1 O2|y x' q Y X' A A1 A2 Q1 Q2 O EO EE|y x' q r' Y X' A A1 A2 E1 E2 O1 Q1 Q2 O2
      |y x' bs Y X' A A1 A2 E1 E2 O1 O2 Q|y Y X' A1 D].
  - rewrite Y in *. rewrite X'. exact W.
  - assert (Y : nth_error (r_conns (t_rt s)) c = None) by (subst c; apply nth_error_None; lia). rewrite Y in *. rewrite X'. cbn.
    cbn in F. destruct F as (_ & -> & _). destruct W as [-> W]. auto.
  - rewrite Y in *. rewrite X', AL, O. destruct (c_alive y); [exact W|]. destruct W as (W0 & part & lost & W1 & W2 & W3). split; [exact W0|]. exists part, lost.
    replace (match o with OOk d m => if d =? c then [m] else [] | _ => [] end) with (@nil msg)
      by (destruct o; try reflexivity; destruct (Nat.eqb_spec c0 c) as [->|]; [destruct (O1 m eq_refl)|reflexivity]).
    rewrite app_nil_r. auto.
  - rewrite Y in *. rewrite X', A2, O. rewrite A1 in W. exact W.
  - rewrite Y in *. rewrite X', A2, O2. rewrite A1, O1 in W. destruct W as [-> W]. destruct q; [|auto]. cbn. rewrite app_nil_r. split; [lia|exact W].
  - subst f. destruct (NS true eq_refl).
  - rewrite Y in *. rewrite X'. cbn. rewrite A1 in W. cbn in F. rewrite A1 in F. destruct F as (F & _).
    assert (NO : match o with OOk d m => if d =? c then [m] else [] | _ => [] end = @nil msg) by (destruct D as [[_ ->]|[(_ & -> & _)|(bs & _ & -> & _)]]; reflexivity).
    rewrite NO, app_nil_r, F. split; [reflexivity|]. destruct (c_out y) as [bs|].
    + destruct W as [_ W]. exists (firstn (k_sent (nth c (t_links s) new_link)) bs), ([bs] ++ map encode (msgs (c_cmds y))).
      split; [exact W|]. split; [reflexivity|]. cbn. rewrite app_nil_r. apply prefix_firstn.
    + destruct W as [_ W]. exists [], (map encode (msgs (c_cmds y))). rewrite app_nil_r. split; [exact W|]. split; [reflexivity|]. eexists. reflexivity.
Qed.
Lemma wrote_still tr s e x links c : wrote tr s c -> te_rt x = None -> (forall q, e <> TWrite c q) -> k_sent (nth c links new_link) = k_sent (lk s c) ->
  wrote (tr ++ [(e, x)]) (mkTN (t_rt s) links) c.
Proof.
  intros W X NW K. unfold wrote in *. cbn [t_rt]. unfold lk in *. cbn [t_links]. rewrite K, bytes_out_snoc, tcp_trace_snoc, X.
  replace (match e with TWrite d _ => if d =? c then te_out x else [] | _ => [] end) with (@nil N)
    by (destruct e; try reflexivity; destruct (Nat.eqb_spec c0 c) as [->|]; [destruct (NW r eq_refl)|reflexivity]).
  rewrite !app_nil_r. exact W.
Qed.
Lemma writing tr s : thistory tr s -> forall c, wrote tr s c.
Proof.
  induction 1 as [|tr s e s' x H IH ST]; intros c.
  - unfold wrote, lk. cbn. destruct c; cbn; auto.
  - specialize (IH c).
    assert (IN : forall e, tcp_internal e = true -> forall c ok, e <> ESocket c ok) by (intros [] ? ? ?; discriminate).
    destruct (tnode_stepped _ _ _ _ ST).
    + eapply wrote_rt; try eassumption; try reflexivity; [apply IN; assumption|discriminate].
    + apply wrote_still; [exact IH|reflexivity|discriminate|]. erewrite nth_upd_link by eassumption.
      destruct (Nat.eqb_spec c c0) as [->|]; [|reflexivity]. rewrite (lk_is _ _ _ H0). reflexivity.
    + apply wrote_still; [exact IH|reflexivity|discriminate|]. erewrite nth_upd_link by eassumption.
      destruct (Nat.eqb_spec c c0) as [->|]; [|reflexivity]. rewrite (lk_is _ _ _ H0). reflexivity.
    + eapply wrote_rt; try eassumption; try reflexivity; try discriminate. erewrite nth_upd_link by eassumption.
      destruct (Nat.eqb_spec c c0) as [->|]; [|reflexivity]. rewrite (lk_is _ _ _ H0). reflexivity.
    + eapply wrote_rt; try eassumption; try reflexivity; try discriminate. erewrite nth_upd_link by eassumption.
      destruct (Nat.eqb_spec c c0) as [->|]; [|reflexivity]. rewrite (lk_is _ _ _ H0). reflexivity.
    + destruct (Nat.eq_dec c c0) as [->|N].
      * unfold wrote in *. cbn [t_rt]. unfold lk in *. cbn [t_links]. rewrite nth_grow. erewrite nth_upd_link by eassumption. rewrite Nat.eqb_refl.
        rewrite bytes_out_snoc, tcp_trace_snoc. cbn [te_rt te_out]. rewrite Nat.eqb_refl, sent_snoc, accepted_snoc.
        rewrite H0, H2 in IH. cbn in H4. rewrite H0, H2 in H4. destruct (c_alive x) eqn:A; [|discriminate H4]. injection H4 as <- <-.
        cbn. rewrite nth_upd_same, H0. cbn. rewrite A, Nat.eqb_refl. split; [reflexivity|].
        rewrite (nth_error_nth _ _ _ H1) in IH. destruct IH as [L W]. destruct (write_one _ _ _ _ _ _ L H3) as (_ & W1 & W2 & _).
        rewrite W, concat_app, <- app_assoc, <- W1, (W2 eq_refl). cbn. rewrite app_nil_r. reflexivity.
      * assert (NW : forall q, TWrite c0 q <> TWrite c q) by (intros ? J; injection J; congruence).
        assert (K : k_sent (nth c (upd c0 (k_with_sent 0) (t_links s)) new_link) = k_sent (lk s c))
          by (erewrite nth_upd_link by eassumption; apply Nat.eqb_neq in N; rewrite N; reflexivity).
        assert (G := wrote_rt tr s (TRun (ESocket c0 true)) (mkTE (Some (ESocket c0 true, o)) w) _ _ _ (upd c0 (k_with_sent 0) (t_links s)) n c H IH H4
          ltac:(congruence) eq_refl ltac:(discriminate) K).
        unfold wrote in *. rewrite bytes_out_snoc, tcp_trace_snoc in *. cbn [te_rt te_out] in *. apply Nat.eqb_neq in N. rewrite Nat.eqb_sym, N. exact G.
    + destruct (Nat.eq_dec c c0) as [->|N].
      * assert (F := fates _ _ _ _ _ (tcp_history _ _ H) c0).
        unfold wrote in *. cbn [t_rt]. rewrite bytes_out_snoc, tcp_trace_snoc. cbn [te_rt te_out]. rewrite Nat.eqb_refl, sent_snoc, accepted_snoc.
        rewrite H0, H2 in IH. cbn in H4. rewrite H0, H2 in H4. destruct (c_alive x) eqn:A; [|discriminate H4]. injection H4 as <- <-.
        cbn [t_rt upd_conn set_conns r_conns]. rewrite nth_upd_same, H0. cbn.
        cbn in F. rewrite H0 in F. cbn in F. rewrite A, H2 in F. destruct F as (F & _).
        unfold lk in IH. rewrite (nth_error_nth _ _ _ H1) in IH. destruct IH as [L W]. destruct (write_one _ _ _ _ _ _ L H3) as (_ & W1 & _ & W2).
        rewrite (W2 eq_refl), !app_nil_r, W, F. split; [reflexivity|]. exists (firstn (k_sent k) bs), ([bs] ++ map encode (msgs (c_cmds x))).
        split; [reflexivity|]. split; [reflexivity|]. cbn. rewrite app_nil_r. apply prefix_firstn.
      * assert (K : k_sent (nth c (upd c0 (k_with_sent 0) (t_links s)) new_link) = k_sent (lk s c))
          by (erewrite nth_upd_link by eassumption; apply Nat.eqb_neq in N; rewrite N; reflexivity).
        assert (G := wrote_rt tr s (TRun (ESocket c0 false)) (mkTE (Some (ESocket c0 false, o)) w) _ _ _ (upd c0 (k_with_sent 0) (t_links s)) n c H IH H4
          ltac:(congruence) eq_refl ltac:(discriminate) K).
        unfold wrote in *. rewrite bytes_out_snoc, tcp_trace_snoc in *. cbn [te_rt te_out] in *. apply Nat.eqb_neq in N. rewrite Nat.eqb_sym, N. exact G.
    + destruct (Nat.eq_dec c c0) as [->|N].
      * assert (F := fates _ _ _ _ _ (tcp_history _ _ H) c0).
        unfold wrote in *. cbn [t_rt]. unfold lk in *. cbn [t_links]. erewrite nth_upd_link by eassumption. rewrite Nat.eqb_refl.
        rewrite bytes_out_snoc, tcp_trace_snoc. cbn [te_rt te_out]. rewrite Nat.eqb_refl, app_nil_r.
        rewrite H0, H2 in IH |- *. rewrite (nth_error_nth _ _ _ H1) in IH. destruct (c_alive x) eqn:A.
        -- destruct IH as [L W]. destruct (write_one _ _ _ _ _ _ L H3) as (L' & W1 & _ & _). cbn. split; [exact L'|]. rewrite W, W1, app_assoc. reflexivity.
        -- destruct IH as [IH _]. discriminate IH.
      * apply wrote_still; [exact IH|reflexivity|intros q' J; injection J; congruence|]. erewrite nth_upd_link by eassumption.
        apply Nat.eqb_neq in N. rewrite N. reflexivity.
Qed.

Lemma concat_one (l : list (list N)) p : prefix p (concat (firstn 1 l)) -> prefix p (concat l).
Proof. intros [q E]. destruct l as [|x l]; [exists q; exact E|]. cbn in *. rewrite app_nil_r in E. subst x. exists (q ++ concat l). rewrite app_assoc. reflexivity. Qed.
(** The stream holds what was sent, part of what is being sent or failed, and nothing else. *)
Lemma written_facts tr s c : thistory tr s -> exists part lost,
  bytes_out c tr = concat (sent c (tcp_trace tr)) ++ part /\ map encode (accepted c (tcp_trace tr)) = sent c (tcp_trace tr) ++ lost /\
  prefix part (concat (firstn 1 lost)) /\ length lost <= 2.
Proof.
  intros H. pose proof (writing _ _ H c) as W. pose proof (fates _ _ _ _ _ (tcp_history _ _ H) c) as F. unfold wrote in W.
  destruct (nth_error (r_conns (t_rt s)) c) as [x|]; cbn in F.
  - destruct (c_alive x).
    + destruct F as (F & L & _). exists (firstn (k_sent (lk s c)) match c_out x with Some bs => bs | None => [] end), (opt (c_out x) ++ map encode (msgs (c_cmds x))).
      assert (LM : length (msgs (c_cmds x)) <= 1).
      { destruct (c_cmds x) as [|q [|? ?]]; cbn in *; [lia|destruct q; cbn; lia|lia]. }
      destruct (c_out x) as [bs|]; destruct W as [W1 W2]; cbn [opt app] in *.
      * split; [exact W2|]. split; [exact F|]. split; [cbn; rewrite app_nil_r; apply prefix_firstn|]. cbn. rewrite map_length. lia.
      * rewrite firstn_nil, app_nil_r. split; [exact W2|]. split; [exact F|]. split; [eexists; reflexivity|]. rewrite map_length. lia.
    + destruct W as (_ & part & lost & W1 & W2 & W3). exists part, lost. repeat (split; [assumption|]).
      destruct F as (rest & F & L & _). rewrite W2 in F. apply app_inv_head in F. subst lost. exact L.
  - exists [], []. destruct F as (-> & -> & _). destruct W as [-> _]. repeat split; [eexists; reflexivity|cbn; lia].
Qed.
Lemma encode_all ms : Forall ordinary ms -> map encode ms = map s_form ms.
Proof. induction 1 as [|m ms O P IH]; [reflexivity|]. cbn. rewrite encode_form, IH by exact O. reflexivity. Qed.
Lemma firstn_left {A} (u v : list A) : firstn (length u) (u ++ v) = u.
Proof. rewrite firstn_app, Nat.sub_diag, firstn_O, app_nil_r. apply firstn_all. Qed.
Lemma skipn_left {A} (u v : list A) : skipn (length u) (u ++ v) = v.
Proof. rewrite skipn_app, Nat.sub_diag, skipn_O, skipn_all. reflexivity. Qed.
Theorem tcp_written tr s c : thistory tr s -> Forall ordinary (accepted c (tcp_trace tr)) ->
  exists k part, bytes_out c tr = concat (map s_form (firstn k (accepted c (tcp_trace tr)))) ++ part /\
    prefix part (concat (map s_form (firstn 1 (skipn k (accepted c (tcp_trace tr)))))) /\
    k <= length (accepted c (tcp_trace tr)) <= k + 2.
Proof.
  intros H O. destruct (written_facts tr s c H) as (part & lost & W1 & W2 & W3 & W4). rewrite encode_all in W2 by exact O.
  exists (length (sent c (tcp_trace tr))), part. rewrite <- !firstn_map, <- skipn_map. unfold msg in *. rewrite !W2.
  rewrite firstn_left, skipn_left.
  split; [exact W1|]. split; [exact W3|]. apply (f_equal (@length _)) in W2. rewrite map_length, app_length in W2. lia.
Qed.
Theorem tcp_written_all tr s c : thistory tr s -> Forall ordinary (accepted c (tcp_trace tr)) -> idle (t_rt s) -> conn_runs (t_rt s) c ->
  bytes_out c tr = concat (map s_form (accepted c (tcp_trace tr))).
Proof.
  intros H O I (x & X & A). pose proof (sent_all _ _ _ _ _ _ (tcp_history _ _ H) I (ex_intro _ x (conj X A))) as E.
  pose proof (writing _ _ H c) as W. unfold wrote in W. rewrite X, A in W. rewrite encode_all in E by exact O. rewrite <- E.
  destruct (all_sent _ I _ _ X) as [_ Q]. rewrite Q in W. apply W.
Qed.
Lemma written_prefix tr s c : thistory tr s -> Forall ordinary (accepted c (tcp_trace tr)) ->
  prefix (bytes_out c tr) (concat (map s_form (accepted c (tcp_trace tr)))).
Proof.
  intros H O. destruct (written_facts tr s c H) as (part & lost & W1 & W2 & W3 & _). rewrite encode_all in W2 by exact O. rewrite W2, W1, concat_app.
  destruct (concat_one _ _ W3) as [q ->]. exists q. rewrite app_assoc. reflexivity.
Qed.

(** ** Boundaries *)
Lemma form_length m : length (s_form m) = 16 + length (s_payload m).
Proof. assert (F := claiming_len (8 + len (s_payload m)) m). rewrite <- form_claims in F. unfold len in F. lia. Qed.
Lemma forms_grow ms : forall j k, j <= k -> k <= length ms -> length (concat (map s_form (firstn k ms))) >= length (concat (map s_form (firstn j ms))) + 16 * (k - j).
Proof.
  induction ms as [|m ms IH]; intros j k J K; cbn in K.
  - assert (k = 0) by lia. assert (j = 0) by lia. subst. cbn. lia.
  - destruct k as [|k]; [assert (j = 0) by lia; subst; cbn; lia|]. destruct j as [|j].
    + specialize (IH 0 k ltac:(lia) ltac:(lia)). cbn [firstn map concat length] in *. rewrite app_length, form_length. cbn [length] in *. lia.
    + specialize (IH j k ltac:(lia) ltac:(lia)). cbn [firstn map concat length]. rewrite !app_length. lia.
Qed.
Lemma prefix_eq (a b c : list N) : prefix a c -> prefix b c -> length a = length b -> a = b.
Proof.
  intros [x ->] [y E] L. apply (f_equal (firstn (length a))) in E. rewrite firstn_left in E. rewrite L, firstn_left in E. exact E.
Qed.
Lemma prefix_app (a b c : list N) : prefix (a ++ b) c -> prefix a c.
Proof. intros [x ->]. exists (b ++ x). rewrite app_assoc. reflexivity. Qed.
Lemma whole_reads ms rs : Forall ordinary ms -> prefix (concat rs) (concat (map s_form ms)) -> between_messages ms rs ->
  exists k, k <= length ms /\ flat_map packet_messages rs = firstn k ms /\ concat rs = concat (map s_form (firstn k ms)).
Proof.
  unfold between_messages, msg in *. intros O. induction rs as [|r rs IH] using rev_ind; intros P B.
  - exists 0. split; [lia|]. split; reflexivity.
  - rewrite concat_app in P. cbn in P. rewrite app_nil_r in P.
    destruct IH as (j & J & E1 & E2).
    + apply prefix_app in P. exact P.
    + intros i L. destruct (B i) as [k E]; [rewrite app_length; cbn; lia|]. rewrite firstn_app in E. replace (i - length rs) with 0 in E by lia. cbn in E. rewrite app_nil_r in E. eauto.
    + destruct (B (length (rs ++ [r])) (le_n _)) as [k0 E]. rewrite firstn_all, concat_app in E. cbn in E. rewrite app_nil_r in E.
      assert (exists k, k <= length ms /\ firstn k ms = firstn k0 ms) as (k & K & Ek).
      { destruct (Nat.le_gt_cases k0 (length ms)); [exists k0; auto|]. exists (length ms). rewrite firstn_all, firstn_all2 by lia. auto. }
      rewrite <- Ek in E. clear k0 Ek. rewrite flat_map_app, concat_app, E1. cbn [flat_map concat]. rewrite !app_nil_r.
      assert (PK : prefix (concat (map s_form (firstn k ms))) (concat (map s_form ms))).
      { exists (concat (map s_form (skipn k ms))). rewrite <- concat_app, <- map_app, firstn_skipn. reflexivity. }
      pose proof (prefix_eq _ _ _ P PK E) as Q.
      assert (JK : j <= k). { destruct (Nat.le_gt_cases j k) as [|G]; [assumption|]. pose proof (forms_grow ms k j ltac:(lia) J) as G'. rewrite app_length, E2 in E. unfold msg in *. lia. }
      exists k. split; [exact K|].
      assert (F : firstn k ms = firstn j ms ++ skipn j (firstn k ms)).
      { rewrite <- (firstn_skipn j (firstn k ms)) at 1. rewrite firstn_firstn, Nat.min_l by exact JK. reflexivity. }
      assert (R : r = concat (map s_form (skipn j (firstn k ms)))).
      { unfold msg in *. rewrite F, map_app, concat_app, <- E2 in Q. apply app_inv_head in Q. exact Q. }
      split; [|exact Q]. rewrite F. f_equal. rewrite R. unfold packet_messages. rewrite packet_all; [reflexivity|].
      rewrite Forall_forall in *. intros m I. apply O. rewrite <- (firstn_skipn k ms). apply in_app_iff. left.
      rewrite <- (firstn_skipn j (firstn k ms)). apply in_app_iff. right. exact I.
Qed.
Theorem tcp_whole tr s c ms : thistory tr s -> Forall ordinary ms -> prefix (bytes_in c tr) (concat (map s_form ms)) ->
  between_messages ms (reads c tr) -> exists k, flat_map packet_messages (reads c tr) = firstn k ms.
Proof.
  intros H O P B. destruct (reading _ _ H c) as (E & _ & _). rewrite E in P. apply prefix_app in P.
  destruct (whole_reads _ _ O P B) as (k & _ & K & _). eauto.
Qed.
Theorem tcp_whole_all tr s c ms : thistory tr s -> Forall ordinary ms -> bytes_in c tr = concat (map s_form ms) ->
  concat (reads c tr) = bytes_in c tr -> between_messages ms (reads c tr) -> flat_map packet_messages (reads c tr) = ms.
Proof.
  unfold msg in *. intros H O P A B. destruct (whole_reads ms (reads c tr) O) as (k & K & K1 & K2); [exists []; rewrite app_nil_r, A, P; reflexivity|exact B|].
  unfold msg in *. rewrite K1. rewrite A, P in K2. apply firstn_all2. destruct (Nat.le_gt_cases (length ms) k) as [|G]; [assumption|].
  pose proof (forms_grow ms k (length ms) ltac:(lia) (le_n _)) as G'. rewrite firstn_all in G'. rewrite K2 in G'. lia.
Qed.
Lemma subseq_firstn {A} k (l : list A) : subseq (firstn k l) l.
Proof.
  revert k. induction l as [|x l IH]; intros [|k]; cbn; [constructor|constructor|apply sub_skip; exact (IH 0)|apply sub_take; apply IH].
Qed.
(** ** Reads *)
Theorem tcp_any_cut tr s c rest n : thistory tr s -> conn_runs (t_rt s) c -> waiting (t_rt s) c = [] ->
  bytes_in c tr = concat (reads c tr) ++ rest -> 1 <= n <= 1400 -> n <= length rest ->
  exists s' x, tnode_step s (TRead c (Ready, Some n)) = Some (s', x) /\
    reads c (tr ++ [(TRead c (Ready, Some n), x)]) = reads c tr ++ [firstn n rest].
Proof.
  intros H (x & X & A) W B N1 N2. destruct (reading _ _ H c) as (E & _ & _). rewrite E in B. apply app_inv_head in B. subst rest.
  pose proof (has_link _ _ _ _ H X) as K. unfold waiting in W. rewrite X in W. unfold TcpNodeModel.tnode_step. rewrite K. cbn [tcp_recv].
  destruct (t_avail (k_in (lk s c))) as [|b l] eqn:AV; [cbn in N2; lia|]. replace (Nat.min (Nat.max 1 n) 1400) with n by lia.
  unfold tcp_answer. cbn [RuntimeModel.step]. rewrite X, A. destruct (c_recv x) as [todo|]; [|discriminate W]. subst todo.
  destruct (decode (firstn n (b :: l))); eexists; eexists; (split; [reflexivity|]); rewrite reads_snoc; cbn; rewrite Nat.eqb_refl; reflexivity.
Qed.
Lemma cut_form k m : k <= length (s_payload m) -> firstn (16 + k) (s_form m) = claiming (8 + len (s_payload m)) (cut k m).
Proof.
  intros K. rewrite form_claims. unfold claiming, cut. cbn [s_service s_method s_client s_session s_protocol s_interface s_mtype s_rcode s_payload].
  set (h := be 2 (s_service m)). set (h1 := be 2 (s_method m)). set (h2 := be 4 _). set (h3 := be 2 (s_client m)). set (h4 := be 2 (s_session m)).
  assert (L : length (h ++ h1 ++ h2 ++ h3 ++ h4 ++ [s_protocol m; s_interface m; st_as_u8 (s_mtype m); sc_as_u8 (s_rcode m)]) = 16)
    by (rewrite !app_length; unfold h, h1, h2, h3, h4; rewrite !be_length; reflexivity).
  rewrite !app_assoc in *. rewrite firstn_app, L. rewrite firstn_all2 by (rewrite L; lia). replace (16 + k - 16) with k by lia. reflexivity.
Qed.
Lemma cut_ordinary k m : ordinary m -> ordinary (cut k m).
Proof.
  intros (O & B & L & T & C). unfold ordinary, cut, smessage_ok in *. cbn [s_service s_method s_client s_session s_protocol s_interface s_mtype s_rcode s_payload].
  split; [exact O|]. split; [|split; [|split; assumption]].
  - rewrite <- (firstn_skipn k (s_payload m)) in B. apply bytes_ok_app in B. apply B.
  - unfold len in *. assert (length (firstn k (s_payload m)) <= length (s_payload m)) by (rewrite firstn_length; lia). lia.
Qed.
Theorem cut_message m k : ordinary m -> k <= length (s_payload m) -> packet_messages (firstn (16 + k) (s_form m)) = [cut k m].
Proof.
  intros O K. rewrite cut_form by exact K. unfold packet_messages. rewrite decode_cut; [reflexivity|apply cut_ordinary; exact O|].
  destruct O as (_ & _ & L & _). unfold cut, len in *. cbn [s_payload].
  assert (length (firstn k (s_payload m)) <= length (s_payload m)) by (rewrite firstn_length; lia). lia.
Qed.
Lemma form_bytes m : ordinary m -> bytes_ok (s_form m).
Proof.
  intros ((O1 & O2 & O3 & O4 & O5 & O6 & O7 & O8) & B & _). unfold s_form. unfold bytes_ok.
  repeat (apply Forall_app; split; [apply be_is_byte|]). apply Forall_app. split; [|exact B].
  constructor; [exact O5|]. constructor; [exact O6|]. constructor; [apply st_small; exact O7|]. constructor; [apply sc_small; exact O8|constructor].
Qed.
Theorem cut_header m k : ordinary m -> k < 16 -> packet_messages (firstn k (s_form m)) = [].
Proof.
  intros O K. destruct k as [|k]; [reflexivity|]. unfold packet_messages.
  assert (L : length (firstn (S k) (s_form m)) = S k) by (rewrite firstn_length, form_length; lia).
  change (firstn (S k) (s_form m)) with (concat (map s_form []) ++ firstn (S k) (s_form m)). rewrite packet_spoiled; [reflexivity|constructor| | |].
  - pose proof (form_bytes _ O) as B. rewrite <- (firstn_skipn (S k) (s_form m)) in B. apply bytes_ok_app in B. apply B.
  - intros E. rewrite E in L. discriminate L.
  - left. unfold len. rewrite L. lia.
Qed.
Theorem smuggled m m' k : ordinary m -> ordinary m' -> k <= length (s_payload m) -> skipn k (s_payload m) = s_form m' ->
  s_form m = firstn (16 + k) (s_form m) ++ s_form m' /\
  flat_map packet_messages [firstn (16 + k) (s_form m); s_form m'] = [cut k m; m'].
Proof.
  intros O O' K E. split.
  - rewrite cut_form, form_claims by exact K. unfold claiming, cut. cbn [s_service s_method s_client s_session s_protocol s_interface s_mtype s_rcode s_payload].
    rewrite <- (firstn_skipn k (s_payload m)) at 2. rewrite E. rewrite <- !app_assoc. reflexivity.
  - cbn [flat_map]. rewrite cut_message by assumption. unfold packet_messages. rewrite <- (app_nil_r (s_form m')), decode_form_more by exact O'. reflexivity.
Qed.

(** ** The end of the stream *)
Lemma upd_same {A} n (f : A -> A) l x : nth_error l n = Some x -> f x = x -> upd n f l = l.
Proof. revert n. induction l as [|y l IH]; intros [|n] E F; cbn in *; try discriminate E; [injection E as ->; rewrite F|rewrite IH by assumption]; reflexivity. Qed.
Theorem tcp_spins tr s c n : thistory tr s -> peer_closed c tr -> concat (reads c tr) = bytes_in c tr -> conn_runs (t_rt s) c -> waiting (t_rt s) c = [] ->
  exists x, tnode_step s (TRead c (Ready, Some n)) = Some (s, x) /\ te_rt x = Some (EPacket c [], OUnit).
Proof.
  intros H P B (x & X & A) W. destruct (reading _ _ H c) as (E & F & _). apply F in P.
  assert (AV : t_avail (k_in (lk s c)) = []). { rewrite <- B in E. rewrite <- (app_nil_r (concat _)) in E at 1. apply app_inv_head in E. auto. }
  pose proof (has_link _ _ _ _ H X) as K. unfold waiting in W. rewrite X in W. unfold TcpNodeModel.tnode_step. rewrite K. cbn [tcp_recv]. rewrite AV, P.
  unfold tcp_answer. cbn [RuntimeModel.step]. rewrite X, A. destruct (c_recv x) as [todo|] eqn:R; [|discriminate W]. subst todo. rewrite decode_nil.
  exists (mkTE (Some (EPacket c [], OUnit)) []). split; [|reflexivity]. f_equal. f_equal. rewrite (upd_same _ _ _ _ K) by (destruct (lk s c); reflexivity).
  unfold upd_conn, set_conns. cbn [r_conns]. rewrite (upd_same _ _ _ _ X).
  - rewrite <- (links_length _ _ H), Nat.sub_diag. cbn. rewrite app_nil_r. destruct s as [[] ?]; reflexivity.
  - unfold c_with_count, c_with_recv. cbn. rewrite Nat.add_0_r. destruct x; cbn in *. rewrite R. reflexivity.
Qed.
Lemma same_state tr s : thistory tr s -> forall s', thistory tr s' -> s = s'.
Proof.
  induction 1 as [|tr s e s1 x H IH ST]; intros s' H'.
  - inversion H' as [E|t ? ? ? ? ? ? E]; [reflexivity|destruct t; discriminate E].
  - inversion H' as [E|t s0 e' s2 x' H0 ST' E]; [destruct tr; discriminate E|]. apply app_inj_tail in E. destruct E as [-> E]. injection E as -> ->.
    rewrite (IH _ H0) in ST. congruence.
Qed.
Lemma runs_on tr s e s' x c : thistory tr s -> tnode_step s e = Some (s', x) -> peer_closed c tr -> conn_runs (t_rt s) c ->
  (forall r, ~ faultless r -> e <> TRead c r /\ e <> TWrite c r) -> (forall o, te_rt x <> Some (EUnowned c, o)) -> conn_runs (t_rt s') c.
Proof.
  intros H ST P (y & Y & A) NF NU. pose proof (tcp_step_rt _ _ _ _ ST) as R. destruct (te_rt x) as [[f o]|] eqn:X; [|rewrite R; exists y; auto].
  destruct (step_cchange _ _ false _ _ _ _ c R) as
      [Z Z'|a L Z' O|z z' Z Z' A0 AL Q O O1 O2|z z' q Z Z' A0 A1 A2 Q1 Q2 O EO EE|z z' q r' Z Z' A0 A1 A2 E1 E2 O1 Q1 Q2 O2
      |z z' bs Z Z' A0 A1 A2 E1 E2 O1 O2 Q|z Z Z' A1 D]; try congruence; try (exists z'; split; congruence).
  - exists (new_conn a). split; [exact Z'|reflexivity].
  - exfalso. destruct (reading _ _ H c) as (_ & F & _). apply F in P. destruct D as [[-> ->]|[(-> & -> & _)|(bs & -> & -> & _)]].
    + destruct (tnode_stepped _ _ _ _ ST); cbn in X; try discriminate X; injection X; intros; subst; try discriminate.
      assert (G := never_closed [q] (k_in k)). rewrite H1 in G. rewrite (lk_is _ _ _ H0) in P. destruct (NF q) as [G1 _]; [|exact (G1 eq_refl)].
      intros J. exact (G (Forall_cons _ J (Forall_nil _)) P eq_refl).
    + exact (NU OUnit eq_refl).
    + destruct (tnode_stepped _ _ _ _ ST); cbn in X; try discriminate X; injection X; intros; subst; try discriminate.
      destruct (NF q) as [_ G1]; [|exact (G1 eq_refl)]. intros J. destruct q as [rd w']. cbn in H3. destruct J as [J|[J J']]; cbn in *.
      * subst rd. discriminate H3.
      * subst rd. destruct w' as [n'|]; [|congruence]. match type of H3 with (if ?b then _ else _) = _ => destruct b end; discriminate H3.
Qed.
Theorem tcp_not_noticed tr1 s1 tr2 s c : thistory tr1 s1 -> thistory (tr1 ++ tr2) s -> peer_closed c tr1 -> conn_runs (t_rt s1) c ->
  ~ stream_failed c tr2 -> (forall o, ~ In (EUnowned c, o) (tcp_trace tr2)) -> conn_runs (t_rt s) c.
Proof.
  intros H1 H P C. revert s H. induction tr2 as [|[e x] tr2 IH] using rev_ind; intros s H NF NU.
  - rewrite app_nil_r in H. rewrite (same_state _ _ H _ H1). exact C.
  - rewrite app_assoc in H. inversion H as [E|t s0 e' s' x' H0 ST E]; [destruct (tr1 ++ tr2); discriminate E|].
    apply app_inj_tail in E. destruct E as [-> E]. injection E as -> ->. subst s'.
    eapply runs_on; [exact H0|exact ST| | | |].
    + destruct P as [y P]. exists y. apply in_app_iff. left. exact P.
    + apply IH; [exact H0| |].
      * intros (r & y & F & I). apply NF. exists r, y. split; [exact F|]. destruct I; [left|right]; apply in_app_iff; left; assumption.
      * intros o I. apply (NU o). rewrite tcp_trace_app. apply in_app_iff. left. exact I.
    + intros r F. split; intros ->; apply NF; exists r, x; (split; [exact F|]); [left|right]; apply in_app_iff; right; left; reflexivity.
    + intros o X. apply (NU o). rewrite tcp_trace_snoc, X. apply in_app_iff. right. left. reflexivity.
Qed.
(** ** Connections *)
Theorem tcp_opened tr s c a e : thistory tr s -> In (e, OSpawned c a) (tcp_trace tr) -> (exists ok, e = EEp ok) \/ (exists l, e = EAccept l a).
Proof.
  intros H. apply tcp_history in H. induction H as [|tr' r f r' o H IH ST]; [contradiction|]. intros I. apply in_app_iff in I. destruct I as [I|[I|[]]]; [auto|].
  injection I as -> ->. pose proof (datagram_is _ _ _ _ _ H) as D. destruct (spawn_event _ _ _ _ _ _ _ ST) as (_ & [[ok ->]|[(n & ok & ->)|[[l ->]|(k & ok & ->)]]]); eauto.
  - exfalso. cbn in ST. unfold step_stub in ST. rewrite D in ST. cases_in ST; discriminate ST.
  - exfalso. cbn in ST. unfold step_take in ST. rewrite D in ST. cases_in ST; discriminate ST.
Qed.
Theorem tcp_send_to tr s tr1 n ok c m tr2 : thistory tr s -> tcp_trace tr = tr1 ++ (EStub n ok, OOk c m) :: tr2 ->
  exists a e, last_send_to n tr1 = Some (a, m) /\ In (e, OSpawned c a) tr1 /\ ((exists ok, e = EEp ok) \/ (exists l, e = EAccept l a)).
Proof.
  intros H E. pose proof (tcp_history _ _ H) as R. rewrite E in R.
  destruct (history_split _ _ _ _ _ R (tr1 ++ [(EStub n ok, OOk c m)]) tr2) as (s1 & H1 & _); [rewrite <- app_assoc; reflexivity|].
  destruct (stub_sends _ _ _ _ _ _ _ _ _ H1) as (a & A & [e I]). exists a, e. split; [exact A|]. split; [exact I|].
  eapply tcp_opened; [exact H|]. rewrite E. apply in_app_iff. left. exact I.
Qed.
Lemma tnode_run_history es : forall tr s s' tr', thistory tr s -> tnode_run bk cbk s es = Some (s', tr') -> thistory (tr ++ tr') s'.
Proof.
  induction es as [|e es IH]; intros tr s s' tr' H R; cbn [tnode_run] in R.
  - injection R as <- <-. rewrite app_nil_r. exact H.
  - destruct (tnode_step s e) as [[s1 x]|] eqn:E; [|discriminate R].
    destruct (tnode_run bk cbk s1 es) as [[s2 tr2]|] eqn:R2; [|discriminate R]. injection R as <- <-.
    change ((e, x) :: tr2) with ([(e, x)] ++ tr2). rewrite app_assoc. eapply IH; [|exact R2]. eapply t_more; eassumption.
Qed.
End Locks.

(** Two endpoints. *)
Theorem tcp_end_to_end bk cbk bk' cbk' ta a ca tb b cb n : thistory bk cbk ta a -> thistory bk' cbk' tb b ->
  prefix (bytes_in cb tb) (bytes_out ca ta) -> Forall ordinary (accepted ca (tcp_trace ta)) ->
  between_messages (accepted ca (tcp_trace ta)) (reads cb tb) ->
  subseq (map it_msg (from_conn cb (stub_got n (tcp_trace tb)))) (accepted ca (tcp_trace ta)) /\
  subseq (map it_msg (from_conn cb (proxy_got n (tcp_trace tb)))) (accepted ca (tcp_trace ta)).
Proof.
  intros HA HB [q P] O B. destruct (written_prefix _ _ _ _ _ HA O) as [q' P'].
  destruct (tcp_whole _ _ _ _ cb _ HB O (ex_intro _ (q ++ q') (eq_trans P' (eq_trans (f_equal (fun z => z ++ q') P) (eq_sym (app_assoc _ _ _))))) B) as [k K].
  destruct (tcp_given_order _ _ _ _ n cb HB) as [G1 G2].
  assert (S : subseq (flat_map packet_messages (reads cb tb)) (accepted ca (tcp_trace ta))) by (rewrite K; apply subseq_firstn).
  split; (eapply subseq_trans; [exact S|assumption]).
Qed.
Theorem tcp_all_read bk cbk bk' cbk' ta a ca tb b cb : thistory bk cbk ta a -> thistory bk' cbk' tb b ->
  idle (t_rt a) -> conn_runs (t_rt a) ca -> bytes_in cb tb = bytes_out ca ta -> concat (reads cb tb) = bytes_in cb tb ->
  Forall ordinary (accepted ca (tcp_trace ta)) -> between_messages (accepted ca (tcp_trace ta)) (reads cb tb) ->
  flat_map packet_messages (reads cb tb) = accepted ca (tcp_trace ta).
Proof.
  intros HA HB I R E A O B. eapply tcp_whole_all; try eassumption. rewrite E. apply (tcp_written_all _ _ _ _ _ HA O I R).
Qed.
(** Everything is sent, brought, read and routed: the stub was given all there is for it. *)
Theorem tcp_all_got bk cbk bk' cbk' ta a ca tb1 tb2 b cb n id : thistory bk cbk ta a -> thistory bk' cbk' (tb1 ++ tb2) b ->
  idle (t_rt a) -> conn_runs (t_rt a) ca -> idle (t_rt b) -> conn_runs (t_rt b) cb ->
  bytes_in cb (tb1 ++ tb2) = bytes_out ca ta -> concat (reads cb (tb1 ++ tb2)) = bytes_in cb (tb1 ++ tb2) ->
  Forall ordinary (accepted ca (tcp_trace ta)) -> between_messages (accepted ca (tcp_trace ta)) (reads cb (tb1 ++ tb2)) ->
  served n id (tcp_trace tb1) -> reads cb tb1 = [] -> stub_exists (t_rt b) n -> stub_listening (t_rt b) n ->
  map it_msg (from_conn cb (stub_got n (tcp_trace (tb1 ++ tb2)))) = filter (of_id id) (accepted ca (tcp_trace ta)).
Proof.
  intros HA HB IA RA IB RB E A O B SV NO X L. pose proof (tcp_stub_gets _ _ _ _ _ _ _ _ HB SV NO X L RB) as G.
  rewrite (stubs_read _ IB _ X), (all_routed _ IB cb), app_nil_r in G. cbn in G. rewrite app_nil_r in G. rewrite G. f_equal.
  eapply tcp_all_read; eassumption.
Qed.
