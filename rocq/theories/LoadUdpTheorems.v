(** Theorems about endpoints over UDP under load. *)
From Coq Require Import List NArith Bool PeanoNat Lia Wf_nat.
From Verif Require Import BytesModel SomeipModel MapModel RuntimeModel RuntimeSpec RuntimeProofs NodeModel NodeSpec NodeProofs NodeTheorems NodeLossTheorems ExchangeRestTheorems
  QueueModel QueueSpec QueueUdpModel QueueUdpSpec QueueUdpTheorems LoadSpec LoadTheorems LoadUdpSpec.
From Verif Require UdpModel UdpSpec UdpProofs UdpInv.
Import ListNotations.
Open Scope nat_scope.

Lemma subseq_none {A} (l : list A) : subseq [] l.
Proof. induction l; constructor; assumption. Qed.
Lemma subseq_start {A} (l more m : list A) : subseq (l ++ more) m -> subseq l m.
Proof.
  intros S. remember (l ++ more) as k eqn:E. revert l E. induction S as [|x k m S IH|x k m S IH]; intros l E.
  - destruct l; [constructor|discriminate E].
  - constructor. apply IH. exact E.
  - destruct l as [|y l]; [apply subseq_none|]. injection E as <- E. apply sub_take. apply IH. exact E.
Qed.
Lemma subseq_of c (g : nat -> N) (l : list (nat * list N)) :
  subseq (map (pair (g c)) (map snd (filter (fun p => fst p =? c) l))) (map (fun p => (g (fst p), snd p)) l).
Proof.
  induction l as [|[d bs] l IH]; [constructor|]. cbn. destruct (Nat.eqb_spec d c) as [->|]; cbn; constructor; exact IH.
Qed.

(** ** Channels go forward *)
Definition onward (l l' : list UdpModel.chan) : Prop := forall k ch, nth_error l k = Some ch ->
  exists ch', nth_error l' k = Some ch' /\ length (UdpModel.c_sent ch) <= length (UdpModel.c_sent ch') /\ UdpModel.c_next ch <= UdpModel.c_next ch'.
Lemma onward_refl l : onward l l.
Proof. intros k ch C. exists ch. auto. Qed.
Lemma onward_trans l m n : onward l m -> onward m n -> onward l n.
Proof. intros A B k ch C. destruct (A k ch C) as (c1 & C1 & L1 & N1). destruct (B k c1 C1) as (c2 & C2 & L2 & N2). exists c2. split; [exact C2|]. lia. Qed.
Lemma onward_app l x : onward l (l ++ [x]).
Proof. intros k ch C. exists ch. rewrite nth_error_app1 by (apply nth_error_Some; congruence). auto. Qed.
Lemma onward_set l k x x' : nth_error l k = Some x -> length (UdpModel.c_sent x) <= length (UdpModel.c_sent x') -> UdpModel.c_next x <= UdpModel.c_next x' ->
  onward l (UdpModel.set_nth k x' l).
Proof.
  intros X L N m ch C. destruct (Nat.eq_dec m k) as [->|NE].
  - exists x'. rewrite UdpProofs.set_nth_same by (apply nth_error_Some; congruence). assert (ch = x) by congruence. subst. auto.
  - exists ch. rewrite UdpProofs.set_nth_other by exact NE. auto.
Qed.
Lemma onward_drop q : forall u, onward (UdpModel.u_chans u) (UdpModel.u_chans (UdpModel.drop_all q u)).
Proof. intros u k ch C. rewrite (UdpProofs.drop_all_chan q u k ch C). eexists. split; [reflexivity|]. destruct (existsb _ q); cbn; lia. Qed.
Lemma recv_onward b ch ch' o : UdpModel.chan_recv b ch = (ch', o) -> length (UdpModel.c_sent ch) <= length (UdpModel.c_sent ch') /\ UdpModel.c_next ch <= UdpModel.c_next ch' /\
  (UdpModel.c_next ch < length (UdpModel.c_sent ch) -> UdpModel.c_next ch < UdpModel.c_next ch').
Proof.
  unfold UdpModel.chan_recv. destruct (Nat.ltb_spec (UdpModel.c_next ch + UdpModel.c_cap ch) (length (UdpModel.c_sent ch))) as [L|L].
  - intros E. injection E as <- _. cbn. lia.
  - destruct (nth_error _ _) as [p|] eqn:P; intros E; injection E as <- _; cbn; [lia|]. apply nth_error_None in P. lia.
Qed.
Lemma udp_onward u f u' q : UdpModel.step u f = Some (u', q) -> onward (UdpModel.u_chans u) (UdpModel.u_chans u').
Proof.
  intros S. destruct f as [a d| | |a|n|l|c|c|l|]; cbn [UdpModel.step] in S.
  - destruct (UdpModel.u_task u); try discriminate S. injection S as <- _. apply onward_refl.
  - destruct (UdpModel.u_task u); try discriminate S. injection S as <- _. apply onward_refl.
  - destruct (UdpModel.task_step u) as [v|] eqn:T; [|discriminate S]. injection S as <- _. unfold UdpModel.task_step in T.
    destruct (UdpModel.u_task u) as [|p a|p a c|p a|p a|p a c|a c|]; try discriminate T.
    + injection T as <-. apply onward_refl.
    + destruct (nth_error (UdpModel.u_chans u) c) as [ch|] eqn:C; [|discriminate T]. injection T as <-. unfold UdpModel.chan_send. destruct (UdpModel.c_rx ch); [|apply onward_refl].
      cbn. eapply onward_set; [exact C| |]; cbn; rewrite ?app_length; lia.
    + injection T as <-. apply onward_refl.
    + destruct (UdpModel.u_listener u) as [l|]; [|injection T as <-; apply onward_refl]. destruct (nth_error (UdpModel.u_lsts u) l) as [y|]; [|discriminate T].
      destruct (UdpModel.l_rx y); [|injection T as <-; apply onward_refl]. destruct (_ <? _); injection T as <-; [apply onward_app|apply onward_refl].
    + destruct (nth_error (UdpModel.u_chans u) c) as [ch|] eqn:C; [|discriminate T]. injection T as <-. unfold UdpModel.chan_send. destruct (UdpModel.c_rx ch); [|apply onward_refl].
      cbn. eapply onward_set; [exact C| |]; cbn; rewrite ?app_length; lia.
    + injection T as <-. apply onward_refl.
  - destruct (UdpModel.u_open u); [|discriminate S]. injection S as <- _. apply onward_app.
  - destruct (UdpModel.u_open u); [|discriminate S]. destruct n; [injection S as <- _; apply onward_refl|]. destruct (UdpModel.listener_locked u); [discriminate S|]. injection S as <- _. apply onward_refl.
  - repeat match type of S with context [match ?z with _ => _ end] => destruct z end; try discriminate S; injection S as <- _; apply onward_refl.
  - destruct (nth_error (UdpModel.u_chans u) c) as [ch|] eqn:C; [|discriminate S]. destruct (_ && _); [|discriminate S]. destruct (UdpModel.chan_recv _ ch) as [ch' o] eqn:E. injection S as <- _.
    destruct (recv_onward _ _ _ _ E) as (A & B & _). cbn. eapply onward_set; eassumption.
  - destruct (nth_error (UdpModel.u_chans u) c) as [ch|] eqn:C; [|discriminate S]. destruct (_ && _); [|discriminate S]. injection S as <- _. cbn. eapply onward_set; [exact C| |]; cbn; lia.
  - destruct (nth_error (UdpModel.u_lsts u) l) as [y|]; [|discriminate S]. destruct (UdpModel.l_rx y); [|discriminate S]. injection S as <- _. exact (onward_drop _ (UdpModel.set_lst u l _)).
  - destruct (UdpModel.u_open u); [|discriminate S]. injection S as <- _. apply onward_refl.
Qed.

Section Locks.
Context (bk : iid -> N) (cbk : N -> N).
Notation qn_history := (qn_history bk cbk).
Definition forth (s s' : node) : Prop := (exists more, n_chan s' = n_chan s ++ more) /\ onward (UdpModel.u_chans (n_udp s)) (UdpModel.u_chans (n_udp s')).
Lemma forth_trans s s1 s2 : forth s s1 -> forth s1 s2 -> forth s s2.
Proof. intros [(m1 & E1) O1] [(m2 & E2) O2]. split; [exists (m1 ++ m2); rewrite E2, E1, app_assoc; reflexivity|exact (onward_trans _ _ _ O1 O2)]. Qed.
Lemma step_forth s e s' x : node_step bk cbk s e = Some (s', x) -> forth s s'.
Proof.
  intros S. apply node_step_inv in S. assert (Z : forall l : list nat, exists more, l = l ++ more) by (intros l; exists []; rewrite app_nil_r; reflexivity).
  destruct S; (split; cbn [n_chan n_udp]; [first [apply Z|eexists; reflexivity]|first [apply onward_refl|eapply udp_onward; eassumption]]).
Qed.
Lemma does_forth es : forall s s' xs, node_does bk cbk s es = Some (s', xs) -> forth s s'.
Proof.
  induction es as [|e es IH]; intros s s' xs D; cbn [QueueUdpModel.node_does] in D; [injection D as <- <-; split; [exists []; rewrite app_nil_r; reflexivity|apply onward_refl]|].
  destruct (node_step bk cbk s (NRun e)) as [[s1 x]|] eqn:S; [|discriminate D]. destruct (node_does bk cbk s1 es) as [[s2 ys]|] eqn:D'; [|discriminate D]. cbn in D. injection D as <- <-.
  exact (forth_trans _ _ _ (step_forth _ _ _ _ S) (IH _ _ _ D')).
Qed.
Lemma qn_forth j ev j' p : qnode_step bk cbk j ev = Some (j', p) -> forth (qn_node j) (qn_node j').
Proof.
  intros S. apply qnstepped in S. destruct S; cbn [qn_node]; [eapply does_forth; eassumption|eapply step_forth; eassumption|eapply step_forth; eassumption].
Qed.
Lemma consumed_forth s s' c k : forth s s' -> consumed s c k -> consumed s' c k.
Proof.
  intros [(more & E) O] (h & ch & K & C & L). destruct (O h ch C) as (ch' & C' & _ & N). exists h, ch'. split; [rewrite E, nth_error_app1 by (apply nth_error_Some; congruence); exact K|]. split; [exact C'|lia].
Qed.
Lemma put_forth s s' c k : forth s s' -> put s c k -> put s' c k.
Proof.
  intros [(more & E) O] (h & ch & K & C & L). destruct (O h ch C) as (ch' & C' & N & _). exists h, ch'. split; [rewrite E, nth_error_app1 by (apply nth_error_Some; congruence); exact K|]. split; [exact C'|lia].
Qed.
(** Taking something consumes one more. *)
Lemma takes_more j c j' p k : qnode_step bk cbk j (BySocket (NRecv c)) = Some (j', p) -> consumed (qn_node j) c k -> put (qn_node j) c (S k) -> consumed (qn_node j') c (S k).
Proof.
  intros S (h & ch & K & C & L) (h' & ch2 & K' & C' & L'). assert (h' = h) by congruence. subst h'. assert (ch2 = ch) by congruence. subst ch2.
  assert (NS : exists x, node_step bk cbk (qn_node j) (NRecv c) = Some (qn_node j', x)).
  { apply qnstepped in S. inversion S; subst; cbn [qn_node]; eauto. }
  destruct NS as [x NS]. clear S. cbn [NodeModel.node_step] in NS. rewrite K in NS. destruct (UdpModel.step (n_udp (qn_node j)) (UdpModel.ERecv h)) as [[u q]|] eqn:US; [|discriminate NS].
  assert (U : n_udp (qn_node j') = u /\ n_chan (qn_node j') = n_chan (qn_node j)).
  { unfold answer, pair_step in NS. destruct q; try discriminate NS; (destruct (step bk cbk _ _) as [[r o]|]; [|discriminate NS]); injection NS as <- _; cbn; rewrite app_nil_r; auto. }
  destruct U as [U CH]. cbn [UdpModel.step] in US. rewrite C in US. destruct (_ && _); [|discriminate US]. destruct (UdpModel.chan_recv _ ch) as [ch' o] eqn:E. injection US as <- _.
  destruct (recv_onward _ _ _ _ E) as (_ & B & D). exists h, ch'. rewrite CH, U. split; [exact K|]. cbn. rewrite UdpProofs.set_nth_same by (apply nth_error_Some; congruence). split; [reflexivity|].
  destruct (Nat.eq_dec (UdpModel.c_next ch) k) as [<-|]; [specialize (D ltac:(lia))|]; lia.
Qed.
(** A connection that waits can take what is there. *)
Lemma can_take tr j c x k : qn_history tr j -> nth_error (r_conns (n_rt (qn_node j))) c = Some x -> c_alive x = true -> c_recv x = RWait [] ->
  ~ consumed (qn_node j) c k -> put (qn_node j) c k -> exists r, qnode_step bk cbk j (BySocket (NRecv c)) = Some r.
Proof.
  intros H X A RW NC (h & ch & K & C & L). destruct (halves _ _ _ _ H) as (_ & HN & R & _). pose proof (socket_history _ _ _ _ HN) as HU. set (s := qn_node j) in *.
  assert (LT : UdpModel.c_next ch < length (UdpModel.c_sent ch)).
  { destruct (Nat.lt_ge_cases (UdpModel.c_next ch) k) as [G|G]; [lia|]. destruct NC. exists h, ch. auto. }
  pose proof (chan_opened _ _ _ _ _ _ _ HN K X) as O.
  assert (RX : UdpModel.c_rx ch = true) by (eapply opened_rx; [exact HU|exact O| |exact C]; eapply undropped; [exact HN|exact K|exists x; auto]).
  assert (W : UdpModel.waiting (n_udp s) h = false).
  { destruct (UdpModel.waiting (n_udp s) h) eqn:W; [|reflexivity]. exfalso. unfold UdpModel.waiting in W. apply existsb_exists in W.
    destruct W as (y & Y & W). apply UdpProofs.existsb_queue in W. destruct W as (b & W). apply (opened_apart _ _ _ _ HU O b). apply in_flat_map. eauto. }
  assert (NS : exists s' y, node_step bk cbk s (NRecv c) = Some (s', y)).
  { cbn [NodeModel.node_step]. rewrite K. cbn [UdpModel.step]. rewrite C, RX, W. cbn [negb andb]. unfold UdpModel.chan_recv. destruct (_ <? _).
    - unfold answer. cbn [RuntimeModel.step]. rewrite X, A, RW. eexists _, _. reflexivity.
    - destruct (nth_error (UdpModel.c_sent ch) (UdpModel.c_next ch)) as [d|] eqn:N; [|apply nth_error_None in N; lia].
      unfold answer. cbn [RuntimeModel.step]. rewrite X, A, RW. destruct (decode _); eexists _, _; reflexivity. }
  destruct NS as (s' & y & NS). pose proof (rt_of_entry _ _ _ _ _ _ NS) as KS. destruct (e_rt y) as [[e' o']|] eqn:E.
  - pose proof (entry_answers _ _ _ _ _ _ _ _ (Logic.I : not_run (NRecv c)) NS E) as AN. assert (QS : exists q o l, qstep bk cbk (qn_calls j) (QRun e') = Some (q, o, l)).
    { cbn. assert (EW : elsewhere e' (qn_calls j) = true) by (destruct e'; try discriminate AN; reflexivity). rewrite EW. unfold at_rt. rewrite R, KS. eauto. }
    destruct QS as (q & o & l & QS). eexists (_, _). apply qnstep_of. eapply qg_answer; [exact Logic.I|reflexivity|exact NS|exact E|exact QS].
  - eexists (_, _). apply qnstep_of. eapply qg_socket; [exact Logic.I|reflexivity|exact NS|exact E].
Qed.
Section Run.
Context (f : nat -> qnode) (t : nat -> list (qnevent * qnlog)) (R : udp_load bk cbk f t) (H : qn_history (t 0) (f 0)).
Lemma u_hist n : qn_history (t n) (f n).
Proof. induction n as [|n IH]; [exact H|]. destruct (ul_goes _ _ _ _ R n) as [[-> ->]|(ev & p & S & ->)]; [exact IH|]. econstructor; eassumption. Qed.
Lemma u_grows n m : n <= m -> exists more, t m = t n ++ more.
Proof.
  induction 1 as [|m L (more & E)]; [exists []; rewrite app_nil_r; reflexivity|]. destruct (ul_goes _ _ _ _ R m) as [[_ ->]|(ev & p & _ & ->)]; [eauto|]. exists (more ++ [(ev, p)]). rewrite E, app_assoc. reflexivity.
Qed.
Theorem udp_seen : load_run bk cbk (fun n => qn_calls (f n)) (fun n => calls_in (t n)).
Proof.
  constructor.
  - intros n. destruct (ul_goes _ _ _ _ R n) as [[-> ->]|(ev & p & S & E)]; [left; split; reflexivity|]. pose proof (qnstepped _ _ _ _ _ _ S) as G. remember (f (Datatypes.S n)) as j'.
    destruct G as [x q o l s xs Q D|e s x N M ST X|e s x e' o' q o l N M ST X Q].
    + right. exists x, o, l. split; [exact Q|]. rewrite E, calls_snoc. reflexivity.
    + left. split; [reflexivity|]. rewrite E, calls_snoc. apply app_nil_r.
    + right. exists (QRun e'), o, l. split; [exact Q|]. rewrite E, calls_snoc. reflexivity.
  - intros k n. destruct (ul_fair _ _ _ _ R k n) as (m & L & [(ev & p & x & o & l & A & P & E)|NV]); exists m; (split; [exact L|]); [left|right; exact NV].
    exists x, o, l. split; [exact A|]. rewrite E, calls_snoc. cbn. rewrite P. reflexivity.
Qed.
Theorem udp_handed c a N : opened c a (runtime_trace (node_in (t N))) ->
  exists m, N <= m /\ (~ conn_runs (n_rt (qn_node (f m))) c \/
    subseq (map (fun x => (a, encode x)) (accepted c (runtime_trace (node_in (t N))))) (sent_out (node_in (t m)))).
Proof.
  intros (e & O). destruct (halves _ _ _ _ H) as (HQ & _). destruct (written bk cbk true _ _ udp_seen HQ c N) as (m & L & C). exists m. split; [exact L|].
  destruct (halves _ _ _ _ (u_hist m)) as (_ & HN & RT & TR). destruct (halves _ _ _ _ (u_hist N)) as (_ & _ & _ & TR0). cbn in C. rewrite RT, TR, TR0 in C.
  destruct C as [C|(rest & C)]; [left; exact C|right].
  assert (OM : opened c a (runtime_trace (node_in (t m)))).
  { exists e. destruct (u_grows N m L) as [more ->]. unfold node_in. rewrite flat_map_app, run_app. apply in_or_app. left. exact O. }
  destruct (opened_is_peer _ _ _ _ _ _ HN OM) as [_ P]. destruct (outs_facts _ _ _ _ HN) as (-> & _). pose proof (subseq_of c (peer (qn_node (f m))) (outs (runtime_trace (node_in (t m))))) as S.
  rewrite outs_sent, C, P, map_app in S. apply subseq_start in S. rewrite map_map in S. exact S.
Qed.
(** What was put into the channel of a connection is taken or reported lost. *)
Lemma forth_on n m : n <= m -> forth (qn_node (f n)) (qn_node (f m)).
Proof.
  assert (Z : forall s, forth s s) by (intros s; split; [exists []; rewrite app_nil_r; reflexivity|apply onward_refl]).
  induction 1 as [|m L IH]; [apply Z|]. destruct (ul_goes _ _ _ _ R m) as [[-> _]|(ev & p & S & _)]; [exact IH|]. exact (forth_trans _ _ _ IH (qn_forth _ _ _ _ S)).
Qed.
Lemma consumed_dec s c k : consumed s c k \/ ~ consumed s c k.
Proof.
  unfold consumed. destruct (nth_error (n_chan s) c) as [h|] eqn:K; [|right; intros (h & ch & E & _); discriminate E].
  destruct (nth_error (UdpModel.u_chans (n_udp s)) h) as [ch|] eqn:C; [|right; intros (h' & ch & E & C' & _); injection E as <-; congruence].
  destruct (Nat.le_gt_cases k (UdpModel.c_next ch)) as [G|G]; [left; exists h, ch; auto|right]. intros (h' & ch' & E & C' & L). injection E as <-. assert (ch' = ch) by congruence. subst. lia.
Qed.
Theorem udp_read c k N : reads_go bk cbk f t -> put (qn_node (f N)) c k ->
  (exists m, N <= m /\ consumed (qn_node (f m)) c k) \/ (exists m, N <= m /\ ~ conn_runs (n_rt (qn_node (f m))) c) \/ udp_unread_while f t c.
Proof.
  intros RG. induction k as [|k IH]; intros P.
  - left. exists N. split; [lia|]. destruct P as (h & ch & K & C & _). exists h, ch. split; [exact K|]. split; [exact C|lia].
  - assert (P' : put (qn_node (f N)) c k) by (destruct P as (h & ch & K & C & L); exists h, ch; split; [exact K|]; split; [exact C|lia]).
    destruct (IH P') as [(M & LM & CM)|D]; [|right; exact D]. destruct (RG c M) as (m & L & [(p & E)|NV]).
    + left. exists (S m). split; [lia|]. assert (ST : qnode_step bk cbk (f m) (BySocket (NRecv c)) = Some (f (S m), p)).
      { destruct (ul_goes _ _ _ _ R m) as [[_ E']|(ev & q & S & E')]; rewrite E in E'; [apply (f_equal (@length _)) in E'; rewrite app_length in E'; cbn in E'; lia|].
        apply app_inj_tail in E'. destruct E' as [_ E']. injection E' as <- <-. exact S. }
      eapply takes_more; [exact ST| |]; [eapply consumed_forth; [apply forth_on; exact L|exact CM]|eapply put_forth; [apply (forth_on N); lia|exact P]].
    + destruct (halves _ _ _ _ H) as (HQ & _). destruct (emptied bk cbk true _ _ udp_seen HQ c N m ltac:(lia)) as [(m0 & x & L0 & X & A & W)|[(m0 & L0 & NR)|U]].
      * cbn in X. destruct (halves _ _ _ _ (u_hist m0)) as (_ & _ & RT & _). rewrite RT in X. destruct (consumed_dec (qn_node (f m0)) c (S k)) as [G|G]; [left; exists m0; split; [lia|exact G]|].
        exfalso. apply (NV m0 L0). eapply can_take; [apply u_hist|exact X|exact A|exact W|exact G|]. eapply put_forth; [apply (forth_on N); lia|exact P].
      * right. left. exists m0. split; [exact L0|]. destruct (halves _ _ _ _ (u_hist m0)) as (_ & _ & RT & _). cbn in NR. rewrite RT in NR. exact NR.
      * right. right. exact U.
Qed.
End Run.
End Locks.
