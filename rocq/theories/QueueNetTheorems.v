(** Theorems about any number of endpoints over UDP, their calls and the datagrams between them. *)
From Coq Require Import List NArith Bool PeanoNat Lia.
From Verif Require Import BytesModel MapModel EndpointProofs RuntimeModel RuntimeSpec RuntimeWorkTheorems NodeModel NodeSpec NodeProofs ExchangeSpec
  LexTheorems UdpNetModel UdpNetSpec QueueModel QueueSpec QueueTheorems QueueProgressTheorems QueueUdpModel QueueUdpSpec QueueUdpTheorems
  QueueNetModel QueueNetSpec QueueNetSendTheorems.
From Verif Require UdpModel FairSpec FairTheorems UdpNetTheorems UdpNetRestTheorems ExchangeRestTheorems.
Import ListNotations.
Open Scope nat_scope.

Section Locks.
Context (bk : iid -> N) (cbk : N -> N).
Notation qw_history := (qw_history bk cbk).
Notation qnet_step := (qnet_step bk cbk).
Notation qnode_step := (qnode_step bk cbk).
Notation qn_history := (qn_history bk cbk).
Notation node_step := (NodeModel.node_step bk cbk).
Notation unet_step := (UdpNetModel.unet_step bk cbk).
Notation unet_history := (UdpNetSpec.unet_history bk cbk).
Notation add := UdpNetRestTheorems.add.

(** ** What a step is *)
Definition no_datagram (e : qnevent) : Prop := forall a d, e <> BySocket (NDatagram a d).
Inductive wstepped (w : qnet) : qwevent -> qnet -> qwentry -> Prop :=
| ws_at a e j p : no_datagram e -> qnode_step (qw_node w a) e = Some (j, p) ->
    wstepped w (WAt a e) (mkQW (set_qnode a j (qw_node w)) (qw_flight w ++ sent_in a p)) (WDid a (e, p))
| ws_bring i a b d j p : nth_error (qw_flight w) i = Some (a, b, d) -> qnode_step (qw_node w b) (BySocket (NDatagram a d)) = Some (j, p) ->
    wstepped w (WBring i) (mkQW (set_qnode b j (qw_node w)) (cut i (qw_flight w))) (WDid b (BySocket (NDatagram a d), p))
| ws_lose i d : nth_error (qw_flight w) i = Some d -> wstepped w (WLose i) (mkQW (qw_node w) (cut i (qw_flight w))) (WLost d)
| ws_copy i d : nth_error (qw_flight w) i = Some d -> wstepped w (WCopy i) (mkQW (qw_node w) (qw_flight w ++ [d])) (WCopied d).
Lemma is_datagram e : (exists a d, e = BySocket (NDatagram a d)) \/ no_datagram e.
Proof. destruct e as [x|[]]; try (right; intros ? ?; discriminate). left. eauto. Qed.
Lemma at_is w a e : no_datagram e -> qnet_step w (WAt a e) =
  match qnode_step (qw_node w a) e with Some (j, p) => Some (mkQW (set_qnode a j (qw_node w)) (qw_flight w ++ sent_in a p), WDid a (e, p)) | None => None end.
Proof. intros N. destruct e as [x|[]]; try reflexivity. destruct (N _ _ eq_refl). Qed.
Lemma wstep w ev w' x : qnet_step w ev = Some (w', x) -> wstepped w ev w' x.
Proof.
  intros S. destruct ev as [a e|i|i|i].
  - destruct (is_datagram e) as [(b & d & ->)|N]; [discriminate S|]. rewrite (at_is _ _ _ N) in S. destruct (qnode_step (qw_node w a) e) as [[j p]|] eqn:E; [|discriminate S].
    injection S as <- <-. constructor; assumption.
  - cbn [QueueNetModel.qnet_step] in S. destruct (nth_error (qw_flight w) i) as [[[a b] d]|] eqn:I; [|discriminate S].
    destruct (qnode_step (qw_node w b) (BySocket (NDatagram a d))) as [[j p]|] eqn:E; [|discriminate S]. injection S as <- <-. econstructor; eassumption.
  - cbn [QueueNetModel.qnet_step] in S. destruct (nth_error (qw_flight w) i) as [d|] eqn:I; [|discriminate S]. injection S as <- <-. econstructor; eassumption.
  - cbn [QueueNetModel.qnet_step] in S. destruct (nth_error (qw_flight w) i) as [d|] eqn:I; [|discriminate S]. injection S as <- <-. econstructor; eassumption.
Qed.

(** ** Each endpoint is one of C92 *)
Lemma seen_snoc a tr x : seen_at a (tr ++ [x]) = seen_at a tr ++ match x with WDid b p => if N.eqb b a then [p] else [] | _ => [] end.
Proof. unfold seen_at. rewrite flat_map_app. cbn [flat_map]. rewrite app_nil_r. reflexivity. Qed.
Theorem at_endpoint tr w a : qw_history tr w -> qn_history (seen_at a tr) (qw_node w a).
Proof.
  induction 1 as [|tr w ev w' x H IH S]; [constructor|]. rewrite seen_snoc.
  destruct (wstep _ _ _ _ S) as [b e j p N E|i c b d j p I E|i d I|i d I]; cbn [qw_node]; rewrite ?app_nil_r; try exact IH;
  unfold set_qnode; rewrite (N.eqb_sym a b); (destruct (N.eqb_spec b a) as [->|]; [econstructor; eassumption|rewrite app_nil_r; exact IH]).
Qed.

(** ** Without the calls it is a network of C89 *)
Lemma without_snoc tr x : without_calls (tr ++ [x]) =
  without_calls tr ++ match x with WDid a p => map (Did a) (ql_node (snd p)) | WLost d => [Lost d] | WCopied d => [Copied d] end.
Proof. unfold without_calls. rewrite flat_map_app. cbn [flat_map]. rewrite app_nil_r. reflexivity. Qed.
Lemma does_net a es : forall tr v s' xs, unet_history tr v -> node_does bk cbk (un_node v a) es = Some (s', xs) ->
  exists v', unet_history (tr ++ map (Did a) xs) v' /\ un_flight v' = un_flight v ++ flat_map (fun x => match e_out x with Some (b, d) => [(a, b, d)] | None => [] end) xs /\
    forall b, un_node v' b = if N.eqb b a then s' else un_node v b.
Proof.
  induction es as [|e es IH]; intros tr v s' xs H D; cbn [QueueUdpModel.node_does] in D.
  - injection D as <- <-. exists v. cbn. rewrite !app_nil_r. split; [exact H|]. split; [reflexivity|]. intros b. destruct (N.eqb_spec b a) as [->|]; reflexivity.
  - destruct (node_step (un_node v a) (NRun e)) as [[s1 x]|] eqn:S; [|discriminate D]. destruct (node_does bk cbk s1 es) as [[s2 ys]|] eqn:D'; [|discriminate D]. cbn in D. injection D as <- <-.
    assert (ST : unet_step v (UAt a (NRun e)) = Some (mkUN (net_set a s1 (un_node v)) (un_flight v ++ match e_out x with Some (b, d) => [(a, b, d)] | None => [] end), Did a x))
      by (cbn [UdpNetModel.unet_step]; rewrite S; reflexivity).
    assert (D2 : node_does bk cbk (un_node (mkUN (net_set a s1 (un_node v)) (un_flight v ++ match e_out x with Some (b, d) => [(a, b, d)] | None => [] end)) a) es = Some (s2, ys))
      by (cbn [un_node]; unfold net_set; rewrite N.eqb_refl; exact D').
    destruct (IH _ _ _ _ (u_more _ _ _ _ _ _ _ H ST) D2) as (v' & H' & F & G). exists v'. cbn [map flat_map]. rewrite <- app_assoc in H'. split; [exact H'|]. split.
    + rewrite F. cbn [un_flight]. rewrite <- app_assoc. reflexivity.
    + intros b. rewrite G. cbn [un_node]. unfold net_set. destruct (N.eqb_spec b a); reflexivity.
Qed.
Theorem is_unet tr w : qw_history tr w -> exists v, unet_history (without_calls tr) v /\ un_flight v = qw_flight w /\ forall a, un_node v a = qn_node (qw_node w a).
Proof.
  induction 1 as [|tr w ev w' x H (v & HV & F & G) S]; [exists unet_init; split; [constructor|split; reflexivity]|]. rewrite without_snoc.
  assert (SOCK : forall a e s y, (forall b d, e <> NDatagram b d) -> node_step (qn_node (qw_node w a)) e = Some (s, y) ->
    exists v', unet_history (without_calls tr ++ [Did a y]) v' /\ un_flight v' = qw_flight w ++ match e_out y with Some (b, d) => [(a, b, d)] | None => [] end /\
      forall b, un_node v' b = if N.eqb b a then s else qn_node (qw_node w b)).
  { intros a e s y N S'. rewrite <- G in S'. eexists. split; [eapply u_more with (ev := UAt a e); [exact HV|]|].
    - destruct e; try (destruct (N _ _ eq_refl)); cbn [UdpNetModel.unet_step]; rewrite S'; reflexivity.
    - cbn [un_flight un_node]. rewrite F. split; [reflexivity|]. intros b. unfold net_set. rewrite G. reflexivity. }
  assert (BR : forall i a b d s y, nth_error (qw_flight w) i = Some (a, b, d) -> node_step (qn_node (qw_node w b)) (NDatagram a d) = Some (s, y) ->
    exists v', unet_history (without_calls tr ++ [Did b y]) v' /\ un_flight v' = cut i (qw_flight w) /\ forall c, un_node v' c = if N.eqb c b then s else qn_node (qw_node w c)).
  { intros i a b d s y I S'. rewrite <- G in S'. rewrite <- F in I. eexists. split; [eapply u_more with (ev := UBring i); [exact HV|]|].
    - cbn [UdpNetModel.unet_step]. rewrite I, S'. reflexivity.
    - cbn [un_flight un_node]. rewrite F. split; [reflexivity|]. intros c. unfold net_set. rewrite G. reflexivity. }
  assert (ND : forall e, no_datagram (BySocket e) -> forall b d, e <> NDatagram b d) by (intros e N b d ->; exact (N _ _ eq_refl)).
  assert (SET : forall v' a (j : qnode), (forall b, un_node v' b = if N.eqb b a then qn_node j else qn_node (qw_node w b)) -> forall b, un_node v' b = qn_node (set_qnode a j (qw_node w) b)).
  { intros v' a j E b. rewrite E. unfold set_qnode. destruct (N.eqb b a); reflexivity. }
  destruct (wstep _ _ _ _ S) as [a e j p N E|i a b d j p I E|i d I|i d I]; cbn [qw_node qw_flight snd].
  - apply qnstepped in E. unfold sent_in. destruct E as [x q o l s xs QS D|e s x N' M S' E'|e s x e' o' q o l N' M S' E' QS]; cbn [ql_node].
    + rewrite <- G in D. destruct (does_net _ _ _ _ _ _ HV D) as (v' & H' & F' & G'). exists v'. split; [exact H'|]. split; [rewrite F', F; reflexivity|].
      apply SET. intros b. rewrite G', G. reflexivity.
    + destruct (SOCK a _ _ _ (ND _ N) S') as (v' & H' & F' & G'). exists v'. split; [exact H'|]. split; [rewrite F'; cbn; rewrite app_nil_r; reflexivity|apply SET; exact G'].
    + destruct (SOCK a _ _ _ (ND _ N) S') as (v' & H' & F' & G'). exists v'. split; [exact H'|]. split; [rewrite F'; cbn; rewrite app_nil_r; reflexivity|apply SET; exact G'].
  - apply qnstepped in E. remember (BySocket (NDatagram a d)) as ev' eqn:EV. destruct E as [x q o l s xs QS D|e s x N' M S' E'|e s x e' o' q o l N' M S' E' QS]; [discriminate EV| |];
    injection EV as ->; cbn [ql_node]; destruct (BR _ _ _ _ _ _ I S') as (v' & H' & F' & G'); exists v'; (split; [exact H'|]); (split; [exact F'|apply SET; exact G']).
  - exists (mkUN (un_node v) (cut i (un_flight v))). split; [|cbn; rewrite F; auto]. eapply u_more with (ev := ULose i); [exact HV|]. cbn [UdpNetModel.unet_step]. rewrite F, I. reflexivity.
  - exists (mkUN (un_node v) (un_flight v ++ [d])). split; [|cbn; rewrite F; auto]. eapply u_more with (ev := UCopy i); [exact HV|]. cbn [UdpNetModel.unet_step]. rewrite F, I. reflexivity.
Qed.

(** ** The places where something happened *)
Definition places (L : list N) (tr : list qwentry) : list N :=
  fold_left add (flat_map (fun x => match x with WDid a _ => [a] | _ => [] end) tr) (nodup N.eq_dec L).
Lemma places_snoc L tr x : places L (tr ++ [x]) = match x with WDid a _ => add (places L tr) a | _ => places L tr end.
Proof. unfold places. rewrite flat_map_app, fold_left_app. destruct x; reflexivity. Qed.
Lemma places_nodup L tr : NoDup (places L tr).
Proof. induction tr as [|x tr IH] using rev_ind; [apply NoDup_nodup|]. rewrite places_snoc. destruct x; [apply UdpNetRestTheorems.add_nodup|..]; exact IH. Qed.
Lemma places_given L tr a : In a L -> In a (places L tr).
Proof.
  intros I. induction tr as [|x tr IH] using rev_ind; [apply nodup_In; exact I|]. rewrite places_snoc. destruct x; try exact IH. apply UdpNetRestTheorems.add_in. right. exact IH.
Qed.
Lemma elsewhere L tr w b : qw_history tr w -> ~ In b (places L tr) -> qw_node w b = qnode_init.
Proof.
  induction 1 as [|tr w ev w' x H IH S]; intros NI; [reflexivity|]. rewrite places_snoc in NI.
  destruct (wstep _ _ _ _ S) as [a e j p N E|i a c d j p I E|i d I|i d I]; cbn [qw_node]; try (apply IH; exact NI);
  rewrite UdpNetRestTheorems.add_in in NI; unfold set_qnode; (match goal with |- context [N.eqb b ?c] => destruct (N.eqb_spec b c) end); [tauto|apply IH; tauto|tauto|apply IH; tauto].
Qed.
Lemma init_rest : qn_rest bk cbk qnode_init.
Proof.
  destruct (UdpNetRestTheorems.init_peace bk cbk) as [P C]. constructor; [|exact P|exact C]. constructor; [exact (nothing_to_do _ _ _ P)|split; reflexivity|intros k []].
Qed.
Lemma init_stuck ev j' p : qnode_step qnode_init ev = Some (j', p) -> qn_on (ev, p) -> False.
Proof. intros S O. apply (rest_done bk cbk [] qnode_init (qn_start _ _) init_rest). exists ev, j', p. auto. Qed.

(** ** A measure *)
Definition over (L : list N) (f : qnode -> nat) (w : N -> qnode) : nat := total (fun a => f (w a)) L.
Definition udp (f : UdpModel.udp -> nat) (j : qnode) : nat := f (n_udp (qn_node j)).
Definition measure (L : list N) (w : qnet) : list nat :=
  [over L (fun j => calls_send (qn_calls j)) (qw_node w); length (qw_flight w); over L (udp ExchangeRestTheorems.task_w) (qw_node w);
   over L (udp ExchangeRestTheorems.pending) (qw_node w); over L (udp ExchangeRestTheorems.unreads) (qw_node w);
   over L (fun j => calls_left (qn_calls j)) (qw_node w); over L (udp ExchangeRestTheorems.held) (qw_node w)].
Lemma over_set L f w a j : NoDup L -> In a L -> over L f (set_qnode a j w) + f (w a) = over L f w + f j.
Proof.
  intros D I. unfold over. induction D as [|b L NI D IH]; [destruct I|]. cbn. unfold set_qnode at 1. destruct (N.eqb_spec b a) as [->|N].
  - assert (K : total (fun b => f (set_qnode a j w b)) L = total (fun b => f (w b)) L); [|lia].
    clear -NI. induction L as [|c L IH]; [reflexivity|]. cbn. unfold set_qnode at 1. destruct (N.eqb_spec c a) as [->|]; [destruct NI; left; reflexivity|].
    rewrite IH; [reflexivity|]. intros I. apply NI. right. exact I.
  - destruct I as [->|I]; [congruence|]. specialize (IH I). lia.
Qed.
Lemma over_add L a f w : (~ In a L -> f (w a) = 0) -> over (add L a) f w = over L f w.
Proof. intros Z. unfold UdpNetRestTheorems.add. destruct (in_dec N.eq_dec a L) as [I|I]; [reflexivity|]. unfold over. cbn. rewrite (Z I). reflexivity. Qed.
Definition datagram_in (x : qwentry) : Prop := match x with WDid _ (BySocket (NDatagram _ _), _) => True | _ => False end.
Lemma on_at a e p : no_datagram e -> qw_on (WDid a (e, p)) -> qn_on (e, p).
Proof. intros N O. destruct e as [x|[]]; try exact O. destruct (N _ _ eq_refl). Qed.
Lemma at_on a e p : qn_on (e, p) -> qw_on (WDid a (e, p)).
Proof. intros O. destruct e as [x|[]]; try exact O. exact Logic.I. Qed.
Lemma net_less L tr w ev w' x : qw_history tr w -> qnet_step w ev = Some (w', x) -> qw_quiet L x ->
  (measure (places L (tr ++ [x])) w' = measure (places L tr) w /\ ~ qw_on x) \/ lexl (measure (places L (tr ++ [x])) w') (measure (places L tr) w).
Proof.
  intros H ST Q. pose proof (places_nodup L tr) as D. rewrite places_snoc.
  destruct (wstep _ _ _ _ ST) as [a e j p N S|i a b d j p I S|i d I|i d I].
  - pose proof (at_endpoint _ _ a H) as HA.
    assert (AI : In a (places L tr) /\ qn_quiet (e, p)).
    { destruct Q as [O|[I Q]]; [|split; [apply places_given; exact I|exact Q]]. pose proof (on_at _ _ _ N O) as O'. split; [|exact (proj1 (on_is _ _ _ _ _ _ S O'))].
      destruct (in_dec N.eq_dec a (places L tr)) as [J|J]; [exact J|exfalso]. rewrite (elsewhere _ _ _ _ H J) in S. exact (init_stuck _ _ _ S O'). }
    destruct AI as [AI QN]. unfold UdpNetRestTheorems.add. destruct (in_dec N.eq_dec a (places L tr)) as [_|J]; [|contradiction].
    pose proof (fun f => over_set (places L tr) f (qw_node w) a j D AI) as OV. set (P := places L tr) in *. clearbody P.
    destruct (node_sends _ _ _ _ _ _ _ HA S (or_introl QN)) as [LT|[LE OUT]].
    { right. split; [reflexivity|]. left. specialize (OV (fun j => calls_send (qn_calls j))). cbn beta in OV. cbn [qw_node]. lia. }
    unfold sent_in. rewrite (none_out _ OUT), app_nil_r.
    pose proof (OV (fun j => calls_send (qn_calls j))) as O1. pose proof (OV (udp ExchangeRestTheorems.task_w)) as O2. pose proof (OV (udp ExchangeRestTheorems.pending)) as O3.
    pose proof (OV (udp ExchangeRestTheorems.unreads)) as O4. pose proof (OV (fun j => calls_left (qn_calls j))) as O5. pose proof (OV (udp ExchangeRestTheorems.held)) as O6.
    cbn beta in *. unfold udp in O2, O3, O4, O6. clear OV. unfold measure. cbn [qw_node qw_flight]. fold (udp ExchangeRestTheorems.task_w).
    destruct (qn_less _ _ _ _ _ _ _ HA S QN) as [[AC E]|[_ LX]].
    + destruct (Nat.eq_dec (calls_send (qn_calls j)) (calls_send (qn_calls (qw_node w a)))) as [EQ|NE]; [left|right; split; [reflexivity|left; lia]].
      unfold qn_left in E. injection E as E2 E3 E4 E5 E6. split.
      * f_equal; [lia|]. f_equal. f_equal; [unfold udp; lia|]. f_equal; [unfold udp; lia|]. f_equal; [unfold udp; lia|]. f_equal; [lia|]. f_equal. unfold udp. lia.
      * intros O. destruct (on_is _ _ _ _ _ _ S (on_at _ _ _ N O)) as [_ K]. congruence.
    + right. split; [reflexivity|]. cbn [lex]. unfold qn_left in LX. cbn [lex] in LX. unfold udp.
      destruct (Nat.eq_dec (calls_send (qn_calls j)) (calls_send (qn_calls (qw_node w a)))) as [E|NE]; [|left; lia]. right. split; [lia|]. right. split; [reflexivity|].
      destruct LX as [LX|[E2 LX]]; [left; lia|right; split; [lia|]]. destruct LX as [LX|[E3 LX]]; [left; lia|right; split; [lia|]].
      destruct LX as [LX|[E4 LX]]; [left; lia|right; split; [lia|]]. destruct LX as [LX|[E5 LX]]; [left; lia|right; split; [lia|]].
      destruct LX as [LX|[E6 []]]. left. lia.
  - right. split; [reflexivity|]. pose proof (at_endpoint _ _ b H) as HB.
    assert (LE : calls_send (qn_calls j) <= calls_send (qn_calls (qw_node w b))).
    { destruct (node_sends _ _ _ _ _ _ _ HB S) as [K|[K _]]; [right; eauto|lia|exact K]. }
    pose proof (over_set (add (places L tr) b) (fun j => calls_send (qn_calls j)) (qw_node w) b j (UdpNetRestTheorems.add_nodup _ _ D) (proj2 (UdpNetRestTheorems.add_in _ _ _) (or_introl eq_refl))) as O.
    cbn beta in O. rewrite (over_add (places L tr) b (fun j => calls_send (qn_calls j)) (qw_node w)) in O.
    2: { intros NI. cbn beta. rewrite (elsewhere _ _ _ _ H NI). reflexivity. }
    cbn [qw_node qw_flight measure lex]. pose proof (UdpNetTheorems.cut_length _ _ _ I).
    destruct (Nat.eq_dec (calls_send (qn_calls j)) (calls_send (qn_calls (qw_node w b)))) as [E|NE]; [right; split; [lia|left; lia]|left; lia].
  - right. split; [reflexivity|]. cbn [qw_node qw_flight measure lex]. right. split; [reflexivity|]. left. pose proof (UdpNetTheorems.cut_length _ _ _ I). lia.
  - contradiction Q.
Qed.

(** ** It stops *)
Lemma on_quiet_net L x : qw_on x -> qw_quiet L x.
Proof. destruct x; cbn; auto. Qed.
Theorem qw_stops (f : nat -> qnet) tr : qw_history tr (f 0) -> ~ (forall n, exists ev x, qw_on x /\ qnet_step (f n) ev = Some (f (S n), x)).
Proof.
  intros H F.
  assert (G : forall m n t, qw_history t (f n) -> measure (places [] t) (f n) = m -> False).
  { induction m as [m IH] using (well_founded_induction lex_wf). intros n t HT <-. destruct (F n) as (ev & x & O & ST).
    destruct (net_less [] _ _ _ _ _ HT ST (on_quiet_net _ _ O)) as [[_ K]|K]; [exact (K O)|]. exact (IH _ K _ _ (qw_more _ _ _ _ _ _ _ HT ST) eq_refl). }
  exact (G _ 0 tr H eq_refl).
Qed.
Lemma node_on tr w a : qw_history tr w -> qw_can bk cbk w \/ qn_rest bk cbk (qw_node w a) \/ qn_jammed bk (seen_at a tr) (qw_node w a).
Proof.
  intros H. destruct (qn_progress _ _ _ _ (at_endpoint _ _ a H)) as [(e & j & p & S & O)|K]; [|auto]. left.
  assert (N : no_datagram e) by (intros b d ->; exact O). exists (WAt a e). rewrite (at_is _ _ _ N), S. eexists _, _. split; [reflexivity|]. apply at_on. exact O.
Qed.
Theorem qw_progress tr w : qw_history tr w -> qw_can bk cbk w \/ qw_rest bk cbk w \/ qw_jammed bk tr w.
Proof.
  intros H.
  assert (G : forall l, qw_can bk cbk w \/ (forall a, In a l -> qn_rest bk cbk (qw_node w a)) \/ qw_jammed bk tr w).
  { induction l as [|a l IH]; [right; left; intros a []|]. destruct IH as [K|[K|K]]; [auto| |auto].
    destruct (node_on _ _ a H) as [J|[J|J]]; [auto| |right; right; exists a; exact J]. right. left. intros b [<-|I]; auto. }
  destruct (G (places [] tr)) as [K|[K|K]]; [auto| |auto].
  assert (ALL : forall a, qn_rest bk cbk (qw_node w a)).
  { intros a. destruct (in_dec N.eq_dec a (places [] tr)) as [I|I]; [exact (K a I)|]. rewrite (elsewhere _ _ _ _ H I). exact init_rest. }
  assert (DEC : forall t, {t = UdpModel.Idle} + {t <> UdpModel.Idle}) by (intros []; ((left; reflexivity) || (right; discriminate))).
  destruct (UdpNetRestTheorems.some_or_all (fun p : flying => UdpModel.u_task (n_udp (qn_node (qw_node w (snd (fst p))))) = UdpModel.Idle) (fun p => DEC _) (qw_flight w))
    as [(i & [[a b] d] & I & T)|A].
  - left. cbn in T. exists (WBring i). cbn [QueueNetModel.qnet_step]. rewrite I.
    cbn [QueueUdpModel.qnode_step may_drop NodeModel.node_step]. unfold socket_step. cbn [UdpModel.step]. rewrite T. cbn [e_rt]. eexists _, _. split; [reflexivity|exact Logic.I].
  - right. left. split; [|exact ALL]. intros a b d I. destruct (task_waits _ (rest_socket _ _ _ (ALL b))) as [T|T]; [|exact T]. destruct (A _ I T).
Qed.
Theorem qw_stopped tr w : qw_history tr w -> ~ qw_can bk cbk w -> qw_rest bk cbk w \/ qw_jammed bk tr w.
Proof. intros H N. destruct (qw_progress _ _ H) as [K|K]; [contradiction|exact K]. Qed.
Theorem qw_still tr w : qw_history tr w -> qw_rest bk cbk w -> ~ qw_can bk cbk w.
Proof.
  intros H [FL AL] (ev & w' & x & ST & O). destruct (wstep _ _ _ _ ST) as [a e j p N S|i a b d j p I S|i d I|i d I]; try contradiction O.
  - apply (rest_done _ _ _ _ (at_endpoint _ _ a H) (AL a)). exists e, j, p. split; [exact S|exact (on_at _ _ _ N O)].
  - pose proof (FL _ _ _ (nth_error_In _ _ I)) as T. cbn [QueueUdpModel.qnode_step may_drop NodeModel.node_step] in S. unfold socket_step in S. cbn [UdpModel.step] in S. rewrite T in S. discriminate S.
Qed.
Theorem qw_answered tr w : qw_history tr w -> qw_rest bk cbk w -> everywhere_answered tr.
Proof. intros H [_ AL] a. eapply rest_answered; [apply at_endpoint; exact H|]. apply (rest_calls _ _ _ (AL a)). Qed.
(** Nothing need be lost on the way there. *)
Theorem qw_comes_to_rest tr w : qw_history tr w -> exists tr' w', qw_steps bk cbk w tr' w' /\ Forall qw_on tr' /\ qw_history (tr ++ tr') w' /\ (qw_rest bk cbk w' \/ qw_jammed bk (tr ++ tr') w').
Proof.
  intros H. remember (measure (places [] tr) w) as m eqn:M. revert w tr H M.
  induction m as [m IH] using (well_founded_induction lex_wf). intros w tr H M.
  destruct (qw_progress _ _ H) as [(ev & w1 & x & ST & O)|K].
  - destruct (net_less [] _ _ _ _ _ H ST (on_quiet_net _ _ O)) as [[_ K]|K]; [contradiction|]. subst m.
    destruct (IH _ K w1 (tr ++ [x])) as (tr' & w' & S & F & H' & R); [eapply qw_more; eassumption|reflexivity|].
    rewrite <- app_assoc in H', R. exists (x :: tr'), w'. split; [econstructor; eassumption|]. split; [constructor; assumption|]. auto.
  - exists [], w. rewrite app_nil_r. split; [constructor|]. split; [constructor|]. auto.
Qed.
Lemma goes_history_net L tr w x w' : qw_history tr w -> qw_goes bk cbk L w x w' -> qw_history (tr ++ [x]) w'.
Proof. intros H (_ & ev & S). econstructor; eassumption. Qed.
Lemma answered_stays_net L tr w x w' : qw_history tr w -> everywhere_answered tr -> qw_goes bk cbk L w x w' -> everywhere_answered (tr ++ [x]).
Proof.
  intros H A (Q & ev & S) a. rewrite seen_snoc.
  assert (KEEP : everywhere_answered tr -> all_answered (seen_at a tr ++ [])) by (rewrite app_nil_r; intros K; apply K).
  destruct (wstep _ _ _ _ S) as [b e j p N E|i c b d j p I E|i d I|i d I]; try (apply KEEP; exact A); (destruct (N.eqb_spec b a) as [->|]; [|apply KEEP; exact A]).
  - apply (answered_stays bk cbk _ (qw_node w a) _ j (at_endpoint _ _ a H) (A a)). split; [|exact E]. destruct Q as [O|[_ Q]]; [exact (proj1 (on_is _ _ _ _ _ _ E (on_at _ _ _ N O)))|exact Q].
  - intros t id to. rewrite calls_snoc. cbn [snd]. cbn [QueueUdpModel.qnode_step may_drop NodeModel.node_step] in E. unfold socket_step in E.
    destruct (UdpModel.step (n_udp (qn_node (qw_node w a))) (UdpModel.EPacket c d)) as [[u r]|]; [|discriminate E]. cbn [e_rt] in E. injection E as <- <-. cbn [ql_call]. rewrite app_nil_r. apply A.
Qed.
Theorem qw_fair_rest L f t : qw_fair bk cbk L f t -> qw_history (t 0) (f 0) -> forall k, exists n, k <= n /\ qw_history (t n) (f n) /\
  ((qw_rest bk cbk (f n) /\ forall m, n <= m -> everywhere_answered (t m)) \/ qw_jammed bk (t n) (f n)).
Proof.
  intros R P k.
  destruct (FairTheorems.fair_rest (qw_goes bk cbk L) (qw_can bk cbk) (fun _ x _ => qw_on x) qw_history (fun tr w => qw_rest bk cbk w \/ qw_jammed bk tr w)
    (fun tr w => measure (places L tr) w) lexl lex_wf (goes_history_net L)) with (f := f) (t := t) (k := k) as (n & LN & Q); try assumption.
  - intros tr w x w' H (QU & ev & S). destruct (net_less L _ _ _ _ _ H S QU) as [[K _]|K]; auto.
  - intros tr w x w' H (QU & ev & S) O. destruct (net_less L _ _ _ _ _ H S QU) as [[_ K]|K]; [contradiction|exact K].
  - exact qw_progress.
  - pose proof (FairTheorems.fair_past _ _ _ _ (goes_history_net L) _ _ R P) as PN. exists n. split; [exact LN|]. split; [apply PN|]. destruct Q as [Q|Q]; [left|right; exact Q]. split; [exact Q|].
    intros m LM. apply (FairTheorems.fair_keeps _ _ _ _ (goes_history_net L) (fun tr _ => everywhere_answered tr) _ _ R P) with (n := n) (m := m); [|eapply qw_answered; [apply PN|exact Q]|exact LM].
    intros tr w x w' H A G. eapply answered_stays_net; eassumption.
Qed.
Theorem qw_fair_exists L tr w l w' : FairSpec.goes_to (qw_goes bk cbk L) w l w' -> qw_history (tr ++ l) w' -> qw_rest bk cbk w' ->
  exists f t, qw_fair bk cbk L f t /\ f 0 = w /\ t 0 = tr /\ forall m, length l <= m -> f m = w' /\ t m = tr ++ l.
Proof. intros G H E. apply FairTheorems.fair_exists; [exact G|]. eapply qw_still; eassumption. Qed.

(** ** What has arrived then *)
Lemma at_node_app a t t' : at_node a (t ++ t') = at_node a t ++ at_node a t'.
Proof. apply flat_map_app. Qed.
Theorem same_events tr a : at_node a (events_of tr) = node_in (seen_at a tr).
Proof.
  unfold events_of. induction tr as [|x tr IH] using rev_ind; [reflexivity|]. rewrite without_snoc, seen_snoc. unfold happened in *. rewrite flat_map_app, at_node_app, IH.
  unfold node_in. rewrite flat_map_app. f_equal. destruct x as [b p|d|d]; try reflexivity. destruct (N.eqb_spec b a) as [->|N].
  - cbn [flat_map]. rewrite app_nil_r. induction (ql_node (snd p)) as [|y l IHl]; [reflexivity|]. cbn. unfold at_node in *. cbn. rewrite N.eqb_refl. cbn. f_equal. exact IHl.
  - cbn [flat_map]. induction (ql_node (snd p)) as [|y l IHl]; [reflexivity|]. cbn. unfold at_node in *. cbn. destruct (N.eqb_spec b a); [contradiction|]. exact IHl.
Qed.
Theorem rest_unet tr w : qw_history tr w -> qw_rest bk cbk w ->
  exists v, unet_history (without_calls tr) v /\ unet_at_rest bk cbk v /\ un_flight v = qw_flight w /\ forall a, un_node v a = qn_node (qw_node w a).
Proof.
  intros H [FL AL]. destruct (is_unet _ _ H) as (v & HV & F & G). exists v. split; [exact HV|]. split; [|auto]. split.
  - intros a b d I. rewrite G. rewrite F in I. eauto.
  - intros a. rewrite G. destruct (AL a). auto.
Qed.
Theorem qw_requests tr w a b d c t1 x t2 l n id :
  qw_history tr w -> qw_rest bk cbk w ->
  between a b (copied (without_calls tr)) = [] -> between a b (lost (without_calls tr)) = [] -> in_sequence a b (events_of tr) ->
  UdpModel.u_task (n_udp (nodes_of w b)) <> UdpModel.Stopped ->
  sendable a (events_of tr) -> one_connection a b d (events_of tr) (nodes_of w) -> one_connection b a c (events_of tr) (nodes_of w) ->
  node_in (seen_at b tr) = t1 ++ x :: t2 -> e_rt x = Some (EAccept l a, OSpawned c a) -> served n id (runtime_trace t1) ->
  welcome a (socket_trace (node_in (seen_at b tr))) -> (forall o, ~ In (ELagged c, o) (runtime_trace (node_in (seen_at b tr)))) ->
  stub_exists (n_rt (nodes_of w b)) n -> stub_listening (n_rt (nodes_of w b)) n ->
  from_addr a (stub_got n (runtime_trace (node_in (seen_at b tr)))) =
  filter (of_id id) (map read_back (from_peer b (accepted_for (node_in (seen_at a tr))))).
Proof.
  intros H R. destruct (rest_unet _ _ H R) as (v & HV & RV & _ & G). rewrite <- !same_events. unfold nodes_of, one_connection. rewrite <- !G.
  exact (UdpNetRestTheorems.rest_requests bk cbk (without_calls tr) v a b d c t1 x t2 l n id HV RV).
Qed.
Theorem qw_exchange tr w a b d c t1 x t2 u1 u2 l n k id reply :
  qw_history tr w -> qw_rest bk cbk w ->
  between a b (copied (without_calls tr)) = [] -> between b a (copied (without_calls tr)) = [] -> between a b (lost (without_calls tr)) = [] -> between b a (lost (without_calls tr)) = [] ->
  in_sequence a b (events_of tr) -> in_sequence b a (events_of tr) ->
  UdpModel.u_task (n_udp (nodes_of w a)) <> UdpModel.Stopped -> UdpModel.u_task (n_udp (nodes_of w b)) <> UdpModel.Stopped ->
  sendable a (events_of tr) -> sendable b (events_of tr) ->
  one_connection a b d (events_of tr) (nodes_of w) -> one_connection b a c (events_of tr) (nodes_of w) ->
  node_in (seen_at b tr) = t1 ++ x :: t2 -> e_rt x = Some (EAccept l a, OSpawned c a) -> served n id (runtime_trace t1) ->
  welcome a (socket_trace (node_in (seen_at b tr))) -> (forall o, ~ In (ELagged c, o) (runtime_trace (node_in (seen_at b tr)))) ->
  stub_exists (n_rt (nodes_of w b)) n -> stub_listening (n_rt (nodes_of w b)) n ->
  node_in (seen_at a tr) = u1 ++ u2 -> proxied k id b (runtime_trace u1) -> from_peer b (datagrams u1) = [] ->
  (forall o, ~ In (ELagged d, o) (runtime_trace (node_in (seen_at a tr)))) -> proxy_exists (n_rt (nodes_of w a)) k ->
  Forall (fun m => ordinary m /\ id_of m = id) (from_peer b (accepted_for (node_in (seen_at a tr)))) ->
  (forall m, id_of m = id -> id_of (reply m) = id /\ (ordinary m -> ordinary (reply m))) ->
  from_peer a (accepted_for (node_in (seen_at b tr))) = map reply (from_addr a (stub_got n (runtime_trace (node_in (seen_at b tr))))) ->
  from_addr b (proxy_got k (runtime_trace (node_in (seen_at a tr)))) = map reply (from_peer b (accepted_for (node_in (seen_at a tr)))).
Proof.
  intros H R. destruct (rest_unet _ _ H R) as (v & HV & RV & _ & G). rewrite <- !same_events. unfold nodes_of, one_connection. rewrite <- !G.
  exact (UdpNetRestTheorems.rest_exchange bk cbk (without_calls tr) v a b d c t1 x t2 u1 u2 l n k id reply HV RV).
Qed.
End Locks.

(** ** Runs *)
Section Runs.
Context (bk : iid -> N) (cbk : N -> N).
Lemma qnet_run_history evs : forall tr w w' tr', qw_history bk cbk tr w -> qnet_run bk cbk w evs = Some (w', tr') -> qw_history bk cbk (tr ++ tr') w'.
Proof.
  induction evs as [|ev evs IH]; intros tr w w' tr' H R; cbn [qnet_run] in R.
  - injection R as <- <-. rewrite app_nil_r. exact H.
  - destruct (qnet_step bk cbk w ev) as [[w1 x]|] eqn:ST; [|discriminate]. destruct (qnet_run bk cbk w1 evs) as [[w2 t]|] eqn:R'; [|discriminate]. injection R as <- <-.
    change (x :: t) with ([x] ++ t). rewrite app_assoc. eapply IH; [|exact R']. eapply qw_more; eassumption.
Qed.
Lemma qnet_run_steps evs : forall w w' tr', qnet_run bk cbk w evs = Some (w', tr') -> qw_steps bk cbk w tr' w'.
Proof.
  induction evs as [|ev evs IH]; intros w w' tr' R; cbn [qnet_run] in R; [injection R as <- <-; constructor|].
  destruct (qnet_step bk cbk w ev) as [[w1 x]|] eqn:ST; [|discriminate]. destruct (qnet_run bk cbk w1 evs) as [[w2 t]|] eqn:R'; [|discriminate]. injection R as <- <-.
  econstructor; [exact ST|]. apply IH. exact R'.
Qed.
Lemma steps_go L w l w' : qw_steps bk cbk w l w' -> Forall (qw_quiet L) l -> FairSpec.goes_to (qw_goes bk cbk L) w l w'.
Proof. induction 1 as [|w ev w1 x tr w2 S _ IH]; intros F; [constructor|]. inversion F; subst. econstructor; [|apply IH; assumption]. split; eauto. Qed.
End Runs.
