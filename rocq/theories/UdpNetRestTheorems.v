(** Any number of endpoints over UDP come to rest, or one of them is jammed. *)
From Coq Require Import List NArith Bool PeanoNat Lia Permutation.
From Verif Require Import BytesModel MapModel EndpointProofs RuntimeModel RuntimeSpec RuntimeProofs RuntimeWorkTheorems NodeModel NodeSpec NodeProofs NodeTheorems ExchangeSpec
  LexTheorems UdpNetModel FairSpec UdpNetSpec FairTheorems ExchangeTheorems UdpNetTheorems.
From Verif Require UdpModel UdpSpec UdpProofs ExchangeRestTheorems TcpNetRestTheorems.
Import ListNotations.
Open Scope nat_scope.

Section Locks.
Context (bk : iid -> N) (cbk : N -> N).
Notation unet_history := (unet_history bk cbk).
Notation unet_step := (unet_step bk cbk).
Notation node_step := (node_step bk cbk).
Notation step := (step bk cbk).
Notation to_send := TcpNetRestTheorems.to_send.

Ltac cases_in H :=
  repeat (match type of H with
  | context [match ?x with _ => _ end] =>
      lazymatch x with context [match _ with _ => _ end] => fail | _ => destruct x eqn:? end
  end; try discriminate H).

(** ** What an endpoint still has to send *)
Lemma sends_less s e o s' : step s e = Some (s', o) ->
  match e with EPacket _ _ | EEnd _ | ELagged _ | EAccept _ _ | EAcceptEnd _ => True | _ => cooperative e end -> to_send s' <= to_send s.
Proof.
  intros ST W.
  assert (L : TcpNetRestTheorems.inward e -> to_send s' <= to_send s) by (intros I; destruct (TcpNetRestTheorems.send_step _ _ _ _ _ _ ST I) as [L|[L _]]; lia).
  destruct e; try contradiction W; try (apply L; left; exact W).
  - apply L. right. left. eauto.
  - cbn in ST. cases_in ST. injection ST as <- <-. reflexivity.
  - apply L. right. right. eauto.
  - cbn in ST. cases_in ST. injection ST as <- <-. unfold TcpNetRestTheorems.to_send, upd_lsnr, spawn. cbn. rewrite total_snoc. cbn. lia.
  - cbn in ST. cases_in ST. injection ST as <- <-. unfold TcpNetRestTheorems.to_send, upd_lsnr. cbn. lia.
Qed.
Lemma settle_sends s e s' x : settles e -> node_step s e = Some (s', x) ->
  to_send (n_rt s') < to_send (n_rt s) \/ (to_send (n_rt s') <= to_send (n_rt s) /\ e_out x = None).
Proof.
  intros Q ST. destruct e as [e| | | |c|c os|l|c|l|]; try contradiction Q; cbn [settles] in Q; cbn [NodeModel.node_step] in ST; unfold socket_step, answer, pair_step in ST.
  - right. destruct (internal e) eqn:IN; [|discriminate]. destruct (step (n_rt s) e) as [[r o]|] eqn:S; [|discriminate].
    assert (L : to_send r <= to_send (n_rt s)) by (eapply sends_less; [exact S|]; destruct e; try exact Q; exact Logic.I).
    cases_in ST; injection ST as <- <-; split; try exact L; reflexivity.
  - right. cases_in ST. injection ST as <- <-. split; reflexivity.
  - right. cases_in ST; injection ST as <- <-; (split; [|reflexivity]); cbn [n_rt]; eapply sends_less; try eassumption; exact Logic.I.
  - left. cases_in ST; injection ST as <- <-; cbn [n_rt]; eapply TcpNetRestTheorems.socket_sends; eassumption.
  - right. cases_in ST; injection ST as <- <-; (split; [|reflexivity]); cbn [n_rt]; eapply sends_less; try eassumption; exact Logic.I.
  - right. cases_in ST. injection ST as <- <-. split; reflexivity.
  - right. cases_in ST. injection ST as <- <-. split; reflexivity.
  - right. cases_in ST. injection ST as <- <-. split; reflexivity.
Qed.

(** ** A measure of the network *)
Definition over (L : list N) (f : node -> nat) (w : N -> node) : nat := total (fun a => f (w a)) L.
Definition measure (L : list N) (w : unet) : list nat :=
  [over L (fun s => to_send (n_rt s)) (un_node w); length (un_flight w); over L (fun s => ExchangeRestTheorems.task_w (n_udp s)) (un_node w);
   over L (fun s => ExchangeRestTheorems.pending (n_udp s)) (un_node w); over L (fun s => ExchangeRestTheorems.unreads (n_udp s)) (un_node w);
   over L (fun s => left_to_do (n_rt s)) (un_node w); over L (fun s => ExchangeRestTheorems.held (n_udp s)) (un_node w)].
Lemma over_set L f w a s' : NoDup L -> In a L -> over L f (net_set a s' w) + f (w a) = over L f w + f s'.
Proof.
  intros D I. unfold over. induction D as [|b L NI D IH]; [destruct I|]. cbn. unfold net_set at 1. destruct (N.eqb_spec b a) as [->|N].
  - assert (K : total (fun b => f (net_set a s' w b)) L = total (fun b => f (w b)) L); [|lia].
    clear -NI. induction L as [|c L IH]; [reflexivity|]. cbn. unfold net_set at 1. destruct (N.eqb_spec c a) as [->|]; [destruct NI; left; reflexivity|].
    rewrite IH; [reflexivity|]. intros I. apply NI. right. exact I.
  - destruct I as [->|I]; [congruence|]. specialize (IH I). lia.
Qed.
(** The places where something happened. *)
Definition add (L : list N) (a : N) : list N := if in_dec N.eq_dec a L then L else a :: L.
Definition places (tr : list uentry) : list N := fold_left add (map fst (happened tr)) [].
Lemma places_snoc tr x : places (tr ++ [x]) = match x with Did a _ => add (places tr) a | _ => places tr end.
Proof. unfold places. rewrite happened_snoc, map_app, fold_left_app. destruct x; reflexivity. Qed.
Lemma add_in L a b : In b (add L a) <-> b = a \/ In b L.
Proof. unfold add. destruct (in_dec N.eq_dec a L); cbn; [|split; intros [K|K]; auto]. split; [auto|]. intros [->|K]; auto. Qed.
Lemma add_nodup L a : NoDup L -> NoDup (add L a).
Proof. intros D. unfold add. destruct (in_dec N.eq_dec a L); [exact D|]. constructor; assumption. Qed.
Lemma places_nodup tr : NoDup (places tr).
Proof. induction tr as [|x tr IH] using rev_ind; [constructor|]. rewrite places_snoc. destruct x; [apply add_nodup|..]; exact IH. Qed.
Lemma elsewhere tr w b : unet_history tr w -> ~ In b (places tr) -> un_node w b = node_init.
Proof.
  induction 1 as [|tr w ev w' x H IH ST]; intros NI; [reflexivity|]. rewrite places_snoc in NI.
  destruct (stepped _ _ _ _ _ _ ST) as [a e s y N S|i a c d s y I S|i p I|i p I]; cbn [un_node]; try (apply IH; exact NI);
  rewrite add_in in NI; unfold net_set; (match goal with |- context [N.eqb b ?c] => destruct (N.eqb_spec b c) end); [tauto|apply IH; tauto|tauto|apply IH; tauto].
Qed.
Lemma init_stuck e s' x : settles e -> node_step node_init e = Some (s', x) -> False.
Proof.
  intros Q ST. destruct e as [e| | | |c|c os|l|c|l|]; try contradiction Q; try discriminate ST;
  try (match goal with n : nat |- _ => destruct n; discriminate ST end).
  destruct e; try contradiction Q; cbn in ST; unfold step_ep, step_take in ST; cbn in ST;
  try (destruct ok; try contradiction Q);
  try match goal with n : nat |- _ => destruct n; discriminate ST end; try discriminate ST.
Qed.
Definition same (w w' : unet) : Prop := un_flight w' = un_flight w /\ forall b, un_node w' b = un_node w b.
Lemma same_not w w' : same w w' -> ~ moved w w'.
Proof. intros [W S] [C|[b C]]; [exact (C W)|exact (C (S b))]. Qed.
Lemma same_refl w : same w w.
Proof. split; reflexivity. Qed.
Lemma same_measure L w w' : same w w' -> measure L w' = measure L w.
Proof.
  intros [W S]. assert (O : forall f, over L f (un_node w') = over L f (un_node w)).
  { intros f. unfold over. induction L as [|a L IH]; [reflexivity|]. cbn in *. rewrite S, IH. reflexivity. }
  unfold measure. rewrite !O, W. reflexivity.
Qed.
Lemma over_add L a f w : NoDup L -> (~ In a L -> f (w a) = 0) -> over (add L a) f w = over L f w.
Proof. intros D Z. unfold add. destruct (in_dec N.eq_dec a L) as [I|I]; [reflexivity|]. unfold over. cbn. rewrite (Z I). reflexivity. Qed.

Lemma net_less tr w ev w' x : unet_history tr w -> unet_settles ev -> unet_step w ev = Some (w', x) ->
  (same w w' /\ measure (places (tr ++ [x])) w' = measure (places tr) w) \/ lexl (measure (places (tr ++ [x])) w') (measure (places tr) w).
Proof.
  intros H Q ST. pose proof (places_nodup tr) as D. rewrite places_snoc.
  destruct (stepped _ _ _ _ _ _ ST) as [a e s y NDG S|i a b d s y I S|i p I|i p I]; cbn in Q; [| | |contradiction Q].
  - assert (AI : In a (places tr)).
    { destruct (in_dec N.eq_dec a (places tr)) as [J|J]; [exact J|exfalso]. rewrite (elsewhere _ _ _ H J) in S. exact (init_stuck _ _ _ Q S). }
    unfold add. destruct (in_dec N.eq_dec a (places tr)) as [_|J]; [|contradiction].
    set (L := places tr) in *. clearbody L. pose proof (fun f => over_set L f (un_node w) a s D AI) as OV.
    destruct (settle_sends _ _ _ _ Q S) as [LT|[LE EO]].
    { right. split; [reflexivity|]. left. cbn [un_node]. specialize (OV (fun s => to_send (n_rt s))). cbn beta in OV. lia. }
    rewrite EO, app_nil_r. destruct (ExchangeRestTheorems.settle_less _ _ _ _ _ _ _ (at_unet _ _ _ _ a H) Q S) as [->|[_ LX]].
    + left. assert (SM : same w (mkUN (net_set a (un_node w a) (un_node w)) (un_flight w))).
      { split; [reflexivity|]. intros b. cbn. unfold net_set. destruct (N.eqb_spec b a) as [->|]; reflexivity. }
      split; [exact SM|apply same_measure; exact SM].
    + right. split; [reflexivity|].
      pose proof (OV (fun s => to_send (n_rt s))) as O1. pose proof (OV (fun s => ExchangeRestTheorems.task_w (n_udp s))) as O2.
      pose proof (OV (fun s => ExchangeRestTheorems.pending (n_udp s))) as O3. pose proof (OV (fun s => ExchangeRestTheorems.unreads (n_udp s))) as O4.
      pose proof (OV (fun s => left_to_do (n_rt s))) as O5. pose proof (OV (fun s => ExchangeRestTheorems.held (n_udp s))) as O6. cbn beta in *. clear OV.
      unfold measure. cbn [un_node un_flight lex].
      unfold ExchangeRestTheorems.measure in LX. cbn [lex] in LX.
      destruct (Nat.eq_dec (to_send (n_rt s)) (to_send (n_rt (un_node w a)))) as [E|N]; [|left; lia]. right. split; [lia|]. right. split; [reflexivity|].
      destruct LX as [LX|[E2 LX]]; [left; lia|right; split; [lia|]]. destruct LX as [LX|[E3 LX]]; [left; lia|right; split; [lia|]].
      destruct LX as [LX|[E4 LX]]; [left; lia|right; split; [lia|]]. destruct LX as [LX|[E5 LX]]; [left; lia|right; split; [lia|]].
      destruct LX as [LX|[E6 []]]. left. lia.
  - right. split; [reflexivity|].
    assert (E : to_send (n_rt s) = to_send (n_rt (un_node w b))) by (cbn in S; unfold socket_step in S; cases_in S; injection S as <- <-; reflexivity).
    assert (O : over (add (places tr) b) (fun s => to_send (n_rt s)) (net_set b s (un_node w)) = over (places tr) (fun s => to_send (n_rt s)) (un_node w)).
    { pose proof (over_set (add (places tr) b) (fun s => to_send (n_rt s)) (un_node w) b s (add_nodup _ _ D)) as O. cbn beta in O.
      rewrite E in O. rewrite (over_add (places tr) b (fun s => to_send (n_rt s)) (un_node w) D) in O.
      - specialize (O (proj2 (add_in _ _ _) (or_introl eq_refl))). lia.
      - intros NI. cbn beta. rewrite (elsewhere _ _ _ H NI). reflexivity. }
    cbn [un_node un_flight measure lex]. right. split; [exact O|]. left. pose proof (cut_length _ _ _ I). lia.
  - right. split; [reflexivity|]. cbn [un_node un_flight measure lex]. right. split; [reflexivity|]. left. pose proof (cut_length _ _ _ I). lia.
Qed.

(** ** The network stops *)
Theorem net_stops (f : nat -> unet) tr : unet_history tr (f 0) ->
  ~ (forall n, moved (f n) (f (S n)) /\ exists ev x, unet_settles ev /\ unet_step (f n) ev = Some (f (S n), x)).
Proof.
  intros H F.
  assert (G : forall m n t, unet_history t (f n) -> measure (places t) (f n) = m -> False).
  { induction m as [m IH] using (well_founded_induction lex_wf). intros n t HT <-. destruct (F n) as (C & e & x & Q & ST).
    destruct (net_less _ _ _ _ _ HT Q ST) as [[K _]|K]; [exact (same_not _ _ K C)|]. exact (IH _ K _ _ (u_more _ _ _ _ _ _ _ HT ST) eq_refl). }
  exact (G _ 0 tr H eq_refl).
Qed.

Lemma init_peace : at_peace bk cbk node_init /\ caught_up node_init.
Proof.
  split; [constructor; [constructor; cbn; try (intros [|n] ? E; discriminate E)| |]|constructor].
  - split; reflexivity.
  - intros n (t & T & _). destruct n; discriminate T.
  - intros [|c]; reflexivity.
  - intros [|n] (t & T & _); discriminate T.
  - intros [|n] (t & T & _); discriminate T.
  - intros s' x E. discriminate E.
  - intros [|c] s' x E; discriminate E.
  - left. reflexivity.
  - intros [|c] x k ch E; discriminate E.
  - intros [|c] x k ch E; discriminate E.
  - intros [|c] x k E; discriminate E.
  - intros [|c] x k E; discriminate E.
  - intros [|c] x k ch E; discriminate E.
  - intros [|c] x k ch E; discriminate E.
  - discriminate.
Qed.
Definition works_on (w : unet) : Prop := exists ev a x w', unet_settles ev /\ unet_step w ev = Some (w', Did a x) /\ moved w w'.
Lemma node_on tr w a : unet_history tr w ->
  works_on w \/ (at_peace bk cbk (un_node w a) /\ caught_up (un_node w a)) \/ exists c n, jammed bk (runtime_trace (at_node a (happened tr))) (n_rt (un_node w a)) c n.
Proof.
  intros H. destruct (ExchangeRestTheorems.step_on _ _ _ _ (at_unet _ _ _ _ a H)) as [(e & s' & x & Q & ST & N)|K]; [|auto]. left.
  exists (UAt a e), a, x, (mkUN (net_set a s' (un_node w)) (un_flight w ++ match e_out x with Some (b, d) => [(a, b, d)] | None => [] end)). split; [exact Q|]. split.
  - destruct e; try contradiction Q; cbn [UdpNetModel.unet_step]; rewrite ST; reflexivity.
  - right. exists a. cbn [un_node]. unfold net_set. rewrite N.eqb_refl. exact N.
Qed.
Lemma some_or_all {A} (P : A -> Prop) (dec : forall x, {P x} + {~ P x}) l : (exists i x, nth_error l i = Some x /\ P x) \/ forall x, In x l -> ~ P x.
Proof.
  induction l as [|y l IH]; [right; intros x []|]. destruct (dec y) as [E|E]; [left; exists 0, y; auto|].
  destruct IH as [(i & x & X & F)|IH]; [left; exists (S i), x; auto|]. right. intros x [<-|I]; auto.
Qed.
Lemma net_on tr w : unet_history tr w ->
  works_on w \/ unet_at_rest bk cbk w \/ exists a c n, jammed bk (runtime_trace (at_node a (happened tr))) (n_rt (un_node w a)) c n.
Proof.
  intros H.
  assert (G : forall l, works_on w \/ (forall a, In a l -> at_peace bk cbk (un_node w a) /\ caught_up (un_node w a)) \/
    exists a c n, jammed bk (runtime_trace (at_node a (happened tr))) (n_rt (un_node w a)) c n).
  { induction l as [|a l IH]; [right; left; intros a []|]. destruct IH as [K|[K|K]]; [auto| |auto].
    destruct (node_on _ _ a H) as [J|[J|(c & n & J)]]; [auto| |right; right; eauto]. right. left. intros b [<-|I]; auto. }
  destruct (G (places tr)) as [K|[K|K]]; [auto| |auto].
  assert (ALL : forall a, at_peace bk cbk (un_node w a) /\ caught_up (un_node w a)).
  { intros a. destruct (in_dec N.eq_dec a (places tr)) as [I|I]; [exact (K a I)|]. rewrite (elsewhere _ _ _ H I). exact init_peace. }
  assert (DEC : forall t, {t = UdpModel.Idle} + {t <> UdpModel.Idle}) by (intros []; ((left; reflexivity) || (right; discriminate))).
  destruct (some_or_all (fun p : flying => UdpModel.u_task (n_udp (un_node w (snd (fst p)))) = UdpModel.Idle) (fun p => DEC _) (un_flight w))
    as [(i & [[a b] d] & I & T)|A].
  - left. cbn in T. exists (UBring i), b. cbn [UdpNetModel.unet_step]. rewrite I. cbn [NodeModel.node_step]. unfold socket_step. cbn [UdpModel.step]. rewrite T.
    eexists. eexists. split; [exact Logic.I|]. split; [reflexivity|]. left. cbn. intros E. pose proof (cut_length _ _ _ I) as L. rewrite E in L. lia.
  - right. left. split; [|exact ALL]. intros a b d I. destruct (task_waits _ (proj2 (ALL b))) as [T|T]; [|exact T]. destruct (A _ I T).
Qed.
Theorem net_stopped tr w : unet_history tr w -> ~ unet_can bk cbk w ->
  unet_at_rest bk cbk w \/ exists a c n, jammed bk (runtime_trace (at_node a (happened tr))) (n_rt (un_node w a)) c n.
Proof.
  intros H F. destruct (net_on _ _ H) as [(ev & a & x & w' & Q & ST & C)|K]; [|exact K]. exfalso. apply F. exists a, x, w'. split; [exists ev; auto|exact C].
Qed.
(** Nothing need be lost on the way there. *)
Theorem net_comes_to_rest tr w : unet_history tr w -> exists tr' w', unet_settling bk cbk w tr' w' /\ lost tr' = [] /\ unet_history (tr ++ tr') w' /\
  (unet_at_rest bk cbk w' \/ exists a c n, jammed bk (runtime_trace (at_node a (happened (tr ++ tr')))) (n_rt (un_node w' a)) c n).
Proof.
  intros H. remember (measure (places tr) w) as m eqn:M. revert w tr H M.
  induction m as [m IH] using (well_founded_induction lex_wf). intros w tr H M.
  destruct (net_on _ _ H) as [(ev & a & x & w1 & Q & ST & C)|K].
  - destruct (net_less _ _ _ _ _ H Q ST) as [[K _]|K]; [destruct (same_not _ _ K C)|]. subst m.
    destruct (IH _ K w1 (tr ++ [Did a x])) as (tr' & w' & S & LO & H' & R); [eapply u_more; eassumption|reflexivity|].
    rewrite <- app_assoc in H', R. exists (Did a x :: tr'), w'. split; [eapply us_more; eassumption|]. auto.
  - exists [], w. rewrite app_nil_r. split; [constructor|]. auto.
Qed.

(** ** At rest nothing happens but that datagrams to sockets that receive no more are lost *)
Lemma done tr w ev w' x : unet_history tr w -> unet_at_rest bk cbk w -> unet_settles ev -> unet_step w ev = Some (w', x) ->
  unet_at_rest bk cbk w' /\ (forall a, un_node w' a = un_node w a) /\ (forall p, In p (un_flight w') -> In p (un_flight w)).
Proof.
  intros H [FL AL] Q ST.
  assert (G : (forall a, un_node w' a = un_node w a) /\ (forall p, In p (un_flight w') -> In p (un_flight w))).
  { destruct (stepped _ _ _ _ _ _ ST) as [a e s y NDG S|i a b d s y I S|i p I|i p I]; cbn in Q; [| | |contradiction Q]; cbn [un_node un_flight].
    - destruct (AL a) as [P C]. pose proof (udp_done _ _ _ _ _ _ _ (at_unet _ _ _ _ a H) P C Q S) as ->.
      split; [intros b; unfold net_set; destruct (N.eqb_spec b a) as [->|]; reflexivity|].
      destruct (settle_sends _ _ _ _ Q S) as [LT|[_ ->]]; [lia|]. rewrite app_nil_r. auto.
    - pose proof (FL _ _ _ (nth_error_In _ _ I)) as T. cbn in S. unfold socket_step in S. cbn [UdpModel.step] in S. rewrite T in S. discriminate.
    - split; [reflexivity|]. intros q. apply cut_in. }
  split; [|exact G]. destruct G as [G1 G2]. split; [intros a b d I; rewrite G1; eauto|]. intros a. rewrite G1. apply AL.
Qed.
Lemma at_rest_done tr w : unet_history tr w -> unet_at_rest bk cbk w -> ~ unet_can bk cbk w.
Proof.
  intros H R (a & x & w' & (ev & Q & ST) & C). pose proof (done _ _ _ _ _ H R Q ST) as (_ & G & _).
  destruct C as [C|[b C]]; [|exact (C (G b))]. remember (Did a x) as z eqn:Z.
  destruct (stepped _ _ _ _ _ _ ST) as [c e s y NDG S|i c b d s y I S|i p I|i p I]; cbn in Q; [| |discriminate Z|contradiction Q]; cbn [un_node un_flight] in *.
  - destruct (settle_sends _ _ _ _ Q S) as [LT|[_ E]]; [|rewrite E, app_nil_r in C; exact (C eq_refl)].
    specialize (G c). unfold net_set in G. rewrite N.eqb_refl in G. subst s. lia.
  - pose proof (proj1 R _ _ _ (nth_error_In _ _ I)) as T. cbn in S. unfold socket_step in S. cbn [UdpModel.step] in S. rewrite T in S. discriminate.
Qed.
Theorem net_fair_rest f t : unet_fair bk cbk f t -> unet_history (t 0) (f 0) -> forall k, exists n, k <= n /\ unet_history (t n) (f n) /\
  ((forall m, n <= m -> unet_at_rest bk cbk (f m) /\ (forall a, un_node (f m) a = un_node (f n) a)) \/
   exists a c i, jammed bk (runtime_trace (at_node a (happened (t n)))) (n_rt (un_node (f n) a)) c i).
Proof.
  intros R H k.
  assert (PG : forall tr w x w', unet_history tr w -> unet_goes bk cbk w x w' -> unet_history (tr ++ [x]) w') by (intros tr w x w' P (e & _ & G); eapply u_more; eassumption).
  destruct (fair_rest (unet_goes bk cbk) (unet_can bk cbk) (fun w _ w' => moved w w') unet_history
      (fun tr w => unet_at_rest bk cbk w \/ exists a c i, jammed bk (runtime_trace (at_node a (happened tr))) (n_rt (un_node w a)) c i)
      (fun tr => measure (places tr)) _ lex_wf PG) with (f := f) (t := t) (k := k) as (n & LE & Q); [| | |exact R|exact H|].
  - intros tr w x w' P (e & S & G). destruct (net_less _ _ _ _ _ P S G) as [[_ K]|K]; auto.
  - intros tr w x w' P (e & S & G) C. destruct (net_less _ _ _ _ _ P S G) as [[K _]|K]; [destruct (same_not _ _ K C)|exact K].
  - intros tr w P. destruct (net_on _ _ P) as [(e & a & x & w' & S & G & C)|Q]; [left|right; exact Q]. exists a, x, w'. split; [exists e; auto|exact C].
  - exists n. split; [exact LE|]. split; [exact (fair_past _ _ _ _ PG _ _ R H n)|]. destruct Q as [Q|Q]; [left|right; exact Q].
    apply (fair_keeps _ _ _ _ PG (fun _ w => unet_at_rest bk cbk w /\ forall a, un_node w a = un_node (f n) a) _ _ R H); [|split; [exact Q|reflexivity]].
    intros tr w x w' P [J1 J2] (e & S & G). destruct (done _ _ _ _ _ P J1 S G) as (D1 & D2 & _). split; [exact D1|]. intros a. rewrite D2. apply J2.
Qed.
Theorem net_run_exists w tr l w' : goes_to (unet_goes bk cbk) w l w' -> unet_history (tr ++ l) w' -> unet_at_rest bk cbk w' ->
  exists f t, unet_fair bk cbk f t /\ f 0 = w /\ t 0 = tr /\ forall m, length l <= m -> f m = w' /\ t m = tr ++ l.
Proof. intros G H R. apply fair_exists; [exact G|]. eapply at_rest_done; eassumption. Qed.

(** ** What has arrived then *)
Lemma none_under_way v a b : unet_at_rest bk cbk v -> UdpModel.u_task (n_udp (un_node v b)) <> UdpModel.Stopped -> between a b (un_flight v) = [].
Proof.
  intros R T. destruct (between a b (un_flight v)) as [|z zs] eqn:B; [reflexivity|exfalso]. assert (I : In z (between a b (un_flight v))) by (rewrite B; left; reflexivity).
  unfold between in I. apply in_flat_map in I. destruct I as ([[p' q'] z'] & I & J). cbn in J. destruct (N.eqb_spec p' a) as [->|]; [|destruct J]. destruct (N.eqb_spec q' b) as [->|]; [|destruct J].
  exact (T (proj1 R _ _ _ I)).
Qed.
Theorem rest_requests tr v a b d c t1 x t2 l n id :
  unet_history tr v -> unet_at_rest bk cbk v ->
  between a b (copied tr) = [] -> between a b (lost tr) = [] -> in_sequence a b (happened tr) -> UdpModel.u_task (n_udp (un_node v b)) <> UdpModel.Stopped ->
  sendable a (happened tr) -> one_connection a b d (happened tr) (un_node v) -> one_connection b a c (happened tr) (un_node v) ->
  at_node b (happened tr) = t1 ++ x :: t2 -> e_rt x = Some (EAccept l a, OSpawned c a) -> served n id (runtime_trace t1) ->
  welcome a (socket_trace (at_node b (happened tr))) -> (forall o, ~ In (ELagged c, o) (runtime_trace (at_node b (happened tr)))) ->
  stub_exists (n_rt (un_node v b)) n -> stub_listening (n_rt (un_node v b)) n ->
  from_addr a (stub_got n (runtime_trace (at_node b (happened tr)))) =
  filter (of_id id) (map read_back (from_peer b (accepted_for (at_node a (happened tr))))).
Proof.
  intros H R C1 L1 S1 A2 SA.
  exact (requests_arrive bk cbk (happened tr) (un_node v) a b d c t1 x t2 l n id (proj1 (is_net _ _ _ _ H)) (proj1 (proj2 R a)) (proj1 (proj2 R b)) SA
    (brought _ _ _ _ _ _ H C1 L1 (none_under_way _ _ _ R A2) S1)).
Qed.
Theorem rest_exchange tr v a b d c t1 x t2 u1 u2 l n k id reply :
  unet_history tr v -> unet_at_rest bk cbk v ->
  between a b (copied tr) = [] -> between b a (copied tr) = [] -> between a b (lost tr) = [] -> between b a (lost tr) = [] ->
  in_sequence a b (happened tr) -> in_sequence b a (happened tr) ->
  UdpModel.u_task (n_udp (un_node v a)) <> UdpModel.Stopped -> UdpModel.u_task (n_udp (un_node v b)) <> UdpModel.Stopped ->
  sendable a (happened tr) -> sendable b (happened tr) ->
  one_connection a b d (happened tr) (un_node v) -> one_connection b a c (happened tr) (un_node v) ->
  at_node b (happened tr) = t1 ++ x :: t2 -> e_rt x = Some (EAccept l a, OSpawned c a) -> served n id (runtime_trace t1) ->
  welcome a (socket_trace (at_node b (happened tr))) -> (forall o, ~ In (ELagged c, o) (runtime_trace (at_node b (happened tr)))) ->
  stub_exists (n_rt (un_node v b)) n -> stub_listening (n_rt (un_node v b)) n ->
  at_node a (happened tr) = u1 ++ u2 -> proxied k id b (runtime_trace u1) -> from_peer b (datagrams u1) = [] ->
  (forall o, ~ In (ELagged d, o) (runtime_trace (at_node a (happened tr)))) -> proxy_exists (n_rt (un_node v a)) k ->
  Forall (fun m => ordinary m /\ id_of m = id) (from_peer b (accepted_for (at_node a (happened tr)))) ->
  (forall m, id_of m = id -> id_of (reply m) = id /\ (ordinary m -> ordinary (reply m))) ->
  from_peer a (accepted_for (at_node b (happened tr))) = map reply (from_addr a (stub_got n (runtime_trace (at_node b (happened tr))))) ->
  from_addr b (proxy_got k (runtime_trace (at_node a (happened tr)))) = map reply (from_peer b (accepted_for (at_node a (happened tr)))).
Proof.
  intros H R C1 C2 L1 L2 S1 S2 A1 A2 SA SB.
  exact (exchange bk cbk (happened tr) (un_node v) a b d c t1 x t2 u1 u2 l n k id reply (proj1 (is_net _ _ _ _ H)) (proj1 (proj2 R a)) (proj1 (proj2 R b)) SA SB
    (brought _ _ _ _ _ _ H C1 L1 (none_under_way _ _ _ R A2) S1) (brought _ _ _ _ _ _ H C2 L2 (none_under_way _ _ _ R A1) S2)).
Qed.
End Locks.

(** ** Runs *)
Section Runs.
Context (bk : iid -> N) (cbk : N -> N).
Lemma unet_run_history evs : forall tr w w' tr', unet_history bk cbk tr w -> unet_run bk cbk w evs = Some (w', tr') -> unet_history bk cbk (tr ++ tr') w'.
Proof.
  induction evs as [|ev evs IH]; intros tr w w' tr' H R; cbn in R.
  - injection R as <- <-. rewrite app_nil_r. exact H.
  - destruct (unet_step bk cbk w ev) as [[w1 x]|] eqn:ST; [|discriminate]. destruct (unet_run bk cbk w1 evs) as [[w2 t]|] eqn:R'; [|discriminate]. injection R as <- <-.
    change (x :: t) with ([x] ++ t). rewrite app_assoc. eapply IH; [|exact R']. eapply u_more; eassumption.
Qed.
Lemma unet_run_settling evs : forall w w' tr', Forall unet_settles evs -> unet_run bk cbk w evs = Some (w', tr') -> unet_settling bk cbk w tr' w' /\ goes_to (unet_goes bk cbk) w tr' w'.
Proof.
  induction evs as [|ev evs IH]; intros w w' tr' F R; cbn in R.
  - injection R as <- <-. split; constructor.
  - destruct (unet_step bk cbk w ev) as [[w1 x]|] eqn:ST; [|discriminate]. destruct (unet_run bk cbk w1 evs) as [[w2 t]|] eqn:R'; [|discriminate]. injection R as <- <-.
    inversion F; subst. destruct (IH _ _ _ H2 R') as [A B]. split; econstructor; try eassumption. exists ev. auto.
Qed.
End Runs.
