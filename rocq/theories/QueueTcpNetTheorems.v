(** Theorems about any number of endpoints over TCP, their calls and the streams between them. *)
From Coq Require Import List NArith Bool PeanoNat Lia.
From Verif Require Import BytesModel MapModel EndpointProofs RuntimeModel RuntimeSpec RuntimeWorkTheorems
  TcpModel TcpSpec TcpNodeModel TcpNodeSpec TcpNodeTheorems TcpRestSpec TcpRestTheorems LexTheorems TcpNetModel TcpNetSpec
  QueueModel QueueSpec QueueTheorems QueueProgressTheorems QueueTcpModel QueueTcpSpec QueueTcpTheorems
  QueueNetSendTheorems QueueTcpNetModel QueueTcpNetSpec QueueTcpNetSendTheorems.
From Verif Require TcpNetTheorems TcpNetRestTheorems UdpNetRestTheorems FairSpec FairTheorems.
Import ListNotations.
Open Scope nat_scope.

Section Locks.
Context (bk : iid -> N) (cbk : N -> N).
Notation step := (step bk cbk).
Notation qstep := (qstep bk cbk).
Notation tnode_step := (tnode_step bk cbk).
Notation tnode_does := (tnode_does bk cbk).
Notation tnet_step := (tnet_step bk cbk).
Notation tnet_history := (tnet_history bk cbk).
Notation tnet_does := (tnet_does bk cbk).
Notation qtnode_step := (qtnode_step bk cbk).
Notation qt_history := (qt_history bk cbk).
Notation qtnet_step := (qtnet_step bk cbk).
Notation qx_history := (qx_history bk cbk).
Notation add := UdpNetRestTheorems.add.
Notation nconns := TcpNetTheorems.nconns.

(** ** What a step is *)
Definition no_run (ev : tnet_event) : Prop := match ev with WRun _ (TRun _) => False | _ => True end.
Definition as_event (e : tnevent) : qtevent := match e with TRun f => AtCalls (QRun f) | _ => AtStream e end.
Inductive xgoes (w : qtnet) : qxevent -> qtnet -> qxentry -> Prop :=
| xg_calls a x q o l v xs : qstep (qx_calls w a) x = Some (q, o, l) -> tnet_does a (qx_net w) (map fst l) = Some (v, xs) ->
    xgoes w (XCalls a x) (mkQX (set_calls a q (qx_calls w)) v) (a, (AtCalls x, mkQTL (Some (x, o, l)) xs))
| xg_stream ev v a e x : no_run ev -> tnet_step (qx_net w) ev = Some (v, (a, (e, x))) -> te_rt x = None ->
    xgoes w (XStreams ev) (mkQX (qx_calls w) v) (a, (as_event e, mkQTL None [(e, x)]))
| xg_answer ev v a e x f o' q o l : no_run ev -> tnet_step (qx_net w) ev = Some (v, (a, (e, x))) -> te_rt x = Some (f, o') ->
    qstep (qx_calls w a) (QRun f) = Some (q, o, l) ->
    xgoes w (XStreams ev) (mkQX (set_calls a q (qx_calls w)) v) (a, (as_event e, mkQTL (Some (QRun f, o, l)) [(e, x)])).
Lemma streams_is w ev : no_run ev -> qtnet_step w (XStreams ev) =
  match tnet_step (qx_net w) ev with
  | Some (v, (a, (e, x))) =>
      match te_rt x with
      | None => Some (mkQX (qx_calls w) v, (a, (as_event e, mkQTL None [(e, x)])))
      | Some (f, _) =>
          match qstep (qx_calls w a) (QRun f) with
          | Some (q, o, l) => Some (mkQX (set_calls a q (qx_calls w)) v, (a, (as_event e, mkQTL (Some (QRun f, o, l)) [(e, x)])))
          | None => None
          end
      end
  | None => None
  end.
Proof. intros N. destruct ev as [a []| | | | |]; try contradiction N; reflexivity. Qed.
Lemma xstep w ev w' x : qtnet_step w ev = Some (w', x) -> xgoes w ev w' x.
Proof.
  intros S. destruct ev as [a x0|ev].
  - cbn [QueueTcpNetModel.qtnet_step] in S. destruct (qstep (qx_calls w a) x0) as [[[q o] l]|] eqn:Q; [|discriminate S].
    destruct (tnet_does a (qx_net w) (map fst l)) as [[v xs]|] eqn:D; [|discriminate S]. injection S as <- <-. econstructor; eassumption.
  - assert (N : no_run ev) by (destruct ev as [a []| | | | |]; try exact Logic.I; discriminate S). rewrite (streams_is _ _ N) in S.
    destruct (tnet_step (qx_net w) ev) as [[v [a [e y]]]|] eqn:T; [|discriminate S]. destruct (te_rt y) as [[f o']|] eqn:R.
    + destruct (qstep (qx_calls w a) (QRun f)) as [[[q o] l]|] eqn:Q; [|discriminate S]. injection S as <- <-. econstructor; eassumption.
    + injection S as <- <-. econstructor; eassumption.
Qed.

(** ** What the runtime of one endpoint does *)
Lemma does_net a es : forall v v' xs, tnet_does a v es = Some (v', xs) ->
  tnode_does (tn_node v a) es = Some (tn_node v' a, xs) /\ (forall b, b <> a -> tn_node v' b = tn_node v b) /\
  (forall tr, tnet_history tr v -> tnet_history (tr ++ map (pair a) xs) v') /\
  nconns (tn_node v a) <= nconns (tn_node v' a) /\ (nconns (tn_node v' a) = nconns (tn_node v a) -> tn_wires v' = tn_wires v).
Proof.
  induction es as [|e es IH]; intros v v' xs D; cbn [QueueTcpNetModel.tnet_does] in D.
  - injection D as <- <-. split; [reflexivity|]. split; [reflexivity|]. split; [intros tr H; cbn; rewrite app_nil_r; exact H|]. auto.
  - destruct (tnet_step v (WRun a (TRun e))) as [[v1 [a1 x]]|] eqn:S; [|discriminate D]. destruct (tnet_does a v1 es) as [[v2 ys]|] eqn:D'; [|discriminate D]. cbn in D. injection D as <- <-.
    destruct (IH _ _ _ D') as (N' & O' & H' & C' & W'). cbn [TcpNetModel.tnet_step] in S. destruct (from_network (TRun e)) eqn:F; [discriminate S|].
    destruct (tnode_step (tn_node v a) (TRun e)) as [[s y]|] eqn:ST; [|discriminate S]. injection S as <- <- <-. cbn [tn_node tn_wires] in *. unfold set_tnode in N', O', C', W'.
    rewrite N.eqb_refl in N', C', W'. split; [cbn [QueueTcpModel.tnode_does]; rewrite ST, N'; reflexivity|]. split.
    { intros b NE. rewrite (O' b NE). destruct (N.eqb_spec b a); [contradiction|reflexivity]. }
    split.
    { intros tr H. cbn [map]. change ((a, (TRun e, y)) :: map (pair a) ys) with ([(a, (TRun e, y))] ++ map (pair a) ys). rewrite app_assoc. apply H'.
      eapply tw_more with (e := WRun a (TRun e)); [exact H|]. cbn [TcpNetModel.tnet_step]. rewrite F, ST. reflexivity. }
    destruct (TcpNetTheorems.step_conns _ _ _ _ _ _ ST) as [(f & b & X & K & _)|[X K]].
    + split; [lia|]. intros E. lia.
    + split; [lia|]. intros E. rewrite W' by lia. destruct (te_rt y) as [[f []]|]; try apply app_nil_r. destruct (X f c a0 eq_refl).
Qed.

(** ** Each endpoint is one of C93, and without the calls it is a network of C85 *)
Lemma qrun_is q f q' o l : qstep q (QRun f) = Some (q', o, l) -> exists s' ob, l = [(f, ob)] /\ q' = with_rt s' q /\ step (q_rt q) f = Some (s', ob).
Proof. intros S. apply qstepped in S. inversion S; subst. eauto 6. Qed.
Lemma answer_is q f q' o l r ob : qstep q (QRun f) = Some (q', o, l) -> step (q_rt q) f = Some (r, ob) -> q' = with_rt r q /\ o = QUnit /\ l = [(f, ob)].
Proof. intros S R. apply qstepped in S. inversion S; subst. match goal with Y : step _ f = Some (?a, ?b) |- _ => assert (E : Some (a, b) = Some (r, ob)) by congruence; injection E as -> -> end. auto. Qed.
Lemma endpoint_same w v a q b : b <> a -> tn_node v b = tn_node (qx_net w) b -> endpoint (mkQX (set_calls a q (qx_calls w)) v) b = endpoint w b.
Proof. intros N E. unfold endpoint, set_calls. cbn. destruct (N.eqb_spec b a); [contradiction|]. rewrite E. reflexivity. Qed.
Lemma placed w ev w' a p : xgoes w ev w' (a, p) -> qtnode_step (endpoint w a) (fst p) = Some (endpoint w' a, snd p) /\ forall b, b <> a -> endpoint w' b = endpoint w b.
Proof.
  intros G. remember (a, p) as x eqn:E. destruct G as [a0 x0 q o l v xs Q D|ev v a0 e x0 N S R|ev v a0 e x0 f o' q o l N S R Q]; injection E as <- <-; cbn [fst snd].
  - destruct (does_net _ _ _ _ _ D) as (N & O & _). split; [|intros b NE; apply endpoint_same; auto].
    cbn [QueueTcpModel.qtnode_step endpoint qt_calls qt_node]. rewrite Q, N. unfold endpoint, set_calls. cbn. rewrite N.eqb_refl. reflexivity.
  - destruct (TcpNetTheorems.net_stepped _ _ _ _ _ _ S) as (a1 & e1 & x1 & s' & E & T & NW & _). injection E as <- <- <-. split.
    + assert (NR : not_run e). { destruct e; try exact Logic.I. destruct (run_is _ _ _ _ _ _ T) as (_ & o & X & _). congruence. }
      replace (endpoint (mkQX (qx_calls w) v) a0) with (mkQT (qt_calls (endpoint w a0)) s') by (unfold endpoint; cbn; rewrite NW; unfold set_tnode; rewrite N.eqb_refl; reflexivity).
      replace (as_event e) with (AtStream e) by (destruct e; try reflexivity; contradiction NR). apply qtstep_of. econstructor; assumption.
    + intros b NE. unfold endpoint. cbn. rewrite NW. unfold set_tnode. destruct (N.eqb_spec b a0); [contradiction|reflexivity].
  - destruct (TcpNetTheorems.net_stepped _ _ _ _ _ _ S) as (a1 & e1 & x1 & s' & E & T & NW & _). injection E as <- <- <-. split.
    + replace (endpoint (mkQX (set_calls a0 q (qx_calls w)) v) a0) with (mkQT q s') by (unfold endpoint, set_calls; cbn; rewrite NW; unfold set_tnode; rewrite N.eqb_refl; reflexivity).
      destruct e as [f0| | | |]; try (apply qtstep_of; eapply qg_answer; [exact Logic.I|exact T|exact R|exact Q]).
      destruct (run_is _ _ _ _ _ _ T) as (_ & ob & X & _). rewrite R in X. injection X as -> ->. destruct (qrun_is _ _ _ _ _ Q) as (r & ob' & -> & _).
      apply qtstep_of. econstructor; [exact Q|]. cbn [map fst QueueTcpModel.tnode_does endpoint qt_node]. rewrite T. reflexivity.
    + intros b NE. apply endpoint_same; [exact NE|]. rewrite NW. unfold set_tnode. destruct (N.eqb_spec b a0); [contradiction|reflexivity].
Qed.
Lemma place_snoc a tr x : at_place a (tr ++ [x]) = at_place a tr ++ if N.eqb (fst x) a then [snd x] else [].
Proof. unfold at_place. rewrite flat_map_app. cbn [flat_map]. rewrite app_nil_r. reflexivity. Qed.
Lemma streams_snoc tr x : streams_of (tr ++ [x]) = streams_of tr ++ map (pair (fst x)) (qtl_node (snd (snd x))).
Proof. unfold streams_of. rewrite flat_map_app. cbn [flat_map]. rewrite app_nil_r. reflexivity. Qed.
Theorem at_endpoint tr w a : qx_history tr w -> qt_history (at_place a tr) (endpoint w a).
Proof.
  induction 1 as [|tr w ev w' [b p] H IH S]; [constructor|]. rewrite place_snoc. cbn [fst snd]. destruct (placed _ _ _ _ _ (xstep _ _ _ _ S)) as [K O].
  destruct (N.eqb_spec b a) as [->|N]; [destruct p; econstructor; eassumption|]. rewrite app_nil_r, O by congruence. exact IH.
Qed.
Theorem is_tnet tr w : qx_history tr w -> tnet_history (streams_of tr) (qx_net w).
Proof.
  induction 1 as [|tr w ev w' x H IH S]; [constructor|]. rewrite streams_snoc.
  destruct (xstep _ _ _ _ S) as [a0 x0 q o l v xs Q D|ev v a0 e x0 N T R|ev v a0 e x0 f o' q o l N T R Q]; cbn [fst snd qtl_node map qx_net].
  - apply (does_net _ _ _ _ _ D). exact IH.
  - eapply tw_more; eassumption.
  - eapply tw_more; eassumption.
Qed.
Theorem same_streams tr a : at_tcp a (streams_of tr) = node_at (at_place a tr).
Proof.
  induction tr as [|[b p] tr IH] using rev_ind; [reflexivity|]. rewrite streams_snoc, place_snoc. cbn [fst snd]. rewrite TcpNetTheorems.at_tcp_app, IH.
  unfold node_at. rewrite flat_map_app. f_equal. unfold at_tcp. destruct (N.eqb_spec b a) as [->|N].
  - cbn [flat_map]. rewrite app_nil_r. induction (qtl_node (snd p)) as [|y l IHl]; [reflexivity|]. cbn. rewrite N.eqb_refl. cbn. f_equal. exact IHl.
  - cbn [flat_map]. induction (qtl_node (snd p)) as [|y l IHl]; [reflexivity|]. cbn. destruct (N.eqb_spec b a); [contradiction|]. exact IHl.
Qed.

(** ** The places where something happened *)
Definition places (L : list N) (tr : list qxentry) : list N := fold_left add (map fst tr) (nodup N.eq_dec L).
Lemma places_snoc L tr x : places L (tr ++ [x]) = add (places L tr) (fst x).
Proof. unfold places. rewrite map_app, fold_left_app. reflexivity. Qed.
Lemma places_nodup L tr : NoDup (places L tr).
Proof. induction tr as [|x tr IH] using rev_ind; [apply NoDup_nodup|]. rewrite places_snoc. apply UdpNetRestTheorems.add_nodup. exact IH. Qed.
Lemma places_given L tr a : In a L -> In a (places L tr).
Proof. intros I. induction tr as [|x tr IH] using rev_ind; [apply nodup_In; exact I|]. rewrite places_snoc. apply UdpNetRestTheorems.add_in. right. exact IH. Qed.
Lemma elsewhere L tr w b : qx_history tr w -> ~ In b (places L tr) -> endpoint w b = qtnode_init.
Proof.
  induction 1 as [|tr w ev w' [a p] H IH S]; intros NI; [reflexivity|]. rewrite places_snoc, UdpNetRestTheorems.add_in in NI. cbn in NI.
  rewrite (proj2 (placed _ _ _ _ _ (xstep _ _ _ _ S))); [apply IH|]; tauto.
Qed.
Lemma node_elsewhere L tr w : qx_history tr w -> TcpNetRestTheorems.elsewhere (places L tr) (qx_net w).
Proof. intros H b NI. pose proof (elsewhere _ _ _ _ H NI) as E. unfold endpoint in E. injection E as _ E. exact E. Qed.
Lemma init_rest : qt_rest [] qtnode_init.
Proof. constructor; [|apply TcpNetRestTheorems.init_read]. constructor; [exact TcpNetRestTheorems.init_idle|split; reflexivity|intros k []]. Qed.
Lemma init_stuck ev j' p : qtnode_step qtnode_init ev = Some (j', p) -> qt_on qtnode_init (ev, p) j' -> False.
Proof. intros S O. apply (rest_done bk cbk [] qtnode_init (qt_start _ _) init_rest). exists ev, j', p. auto. Qed.

(** ** What a step of a stream is *)
Lemma ev_kinds w ev w' a e x : tnet_step w ev = Some (w', (a, (e, x))) -> (ev = WRun a e /\ from_network e = false) \/ ((forall b f, ev <> WRun b f) /\ from_network e = true).
Proof.
  intros ST. destruct ev as [a' e'|a' l i|i n|i n|i|i]; unfold TcpNetModel.tnet_step in ST;
  repeat match type of ST with context [match ?y with _ => _ end] => lazymatch y with context [match _ with _ => _ end] => fail | _ => destruct y eqn:? end; try discriminate ST end;
  injection ST as E1 E2 E3 E4; subst; try (right; split; [intros; discriminate|reflexivity]); left; auto.
Qed.
Lemma run_ev w ev w' a f x : tnet_step w ev = Some (w', (a, (TRun f, x))) -> no_run ev -> from_network (TRun f) = true.
Proof. intros ST NR. destruct (ev_kinds _ _ _ _ _ _ ST) as [[-> _]|[_ F]]; [contradiction NR|exact F]. Qed.
Lemma net_ev w ev w' a e x : tnet_step w ev = Some (w', (a, (e, x))) -> from_network e = true -> net_settles w ev.
Proof. intros ST F. destruct (ev_kinds _ _ _ _ _ _ ST) as [[-> K]|[K _]]; [congruence|]. destruct ev; try exact Logic.I. destruct (K _ _ eq_refl). Qed.
Lemma accept_changes w ev w' a f x : tnet_step w ev = Some (w', (a, (TRun f, x))) -> from_network (TRun f) = true -> changed w w'.
Proof.
  intros ST F. destruct (TcpNetTheorems.net_stepped _ _ _ _ _ _ ST) as (a1 & e1 & x1 & s' & E & T & NW & W). injection E as <- <- <-. left. intros EQ.
  assert (G : forall ws i y c, nth_error ws i = Some y -> w_tc y = None -> ws = upd i (w_with_tc c) ws -> False).
  { intros ws i y c Y TC K. apply (f_equal (fun l => nth_error l i)) in K. rewrite (nth_upd_cases _ _ _ _ _ Y), Nat.eqb_refl, Y in K. injection K as K. apply (f_equal w_tc) in K. cbn in K. congruence. }
  rewrite EQ in W. remember (tn_wires w) as ws eqn:EW in W at 1. remember (TRun f) as e0 eqn:Ee0.
  destruct W as [F'|i l z Z TC A Ee|i n z c Z TC A Ee|i n z Z A Ee|i z c Z TC A TH Dr Ee|i z c Z TC A TH Dr Ee]; try congruence.
  subst e0. injection Ee as ->. destruct (run_is _ _ _ _ _ _ T) as (_ & o & X & S & _). rewrite X in EW. cbn in S.
  destruct (nth_error (r_lsnrs (t_rt (tn_node w a))) l) as [q|]; [|discriminate]. destruct (l_alive q); [|discriminate]. destruct (l_pc q); [|discriminate]. injection S as _ <-.
  eapply G; [exact Z|exact TC|]. symmetry. exact EW.
Qed.

(** ** A measure *)
Definition over (L : list N) (f : qtnode -> nat) (w : qtnet) : nat := total (fun a => f (endpoint w a)) L.
Definition measure (L : list N) (w : qtnet) : list nat :=
  [over L (fun j => calls_send (qt_calls j)) w; total TcpNetRestTheorems.open_w (tn_wires (qx_net w)); over L (fun j => unsent (qt_node j)) w;
   total TcpNetRestTheorems.flight_w (tn_wires (qx_net w)); over L (fun j => TcpNetRestTheorems.unfinished (qt_node j)) w; over L (fun j => unreads (qt_node j)) w;
   over L (fun j => calls_left (qt_calls j)) w].
Lemma over_same L f w w' : (forall b, In b L -> f (endpoint w' b) = f (endpoint w b)) -> over L f w' = over L f w.
Proof. intros E. unfold over. induction L as [|b L IH]; [reflexivity|]. cbn in *. rewrite IH by auto. rewrite E by auto. reflexivity. Qed.
Lemma over_place L f w w' a : NoDup L -> In a L -> (forall b, b <> a -> endpoint w' b = endpoint w b) -> over L f w' + f (endpoint w a) = over L f w + f (endpoint w' a).
Proof.
  intros D I E. induction D as [|b L NI D IH]; [destruct I|]. unfold over in *. cbn. destruct I as [->|I].
  - pose proof (over_same L f w w') as K. unfold over in K. rewrite K; [lia|]. intros c J. rewrite E; [reflexivity|]. intros ->. contradiction.
  - specialize (IH I). rewrite E by (intros ->; contradiction). lia.
Qed.
Lemma over_plus L f g h k w : (forall b, f (endpoint w b) = k * g (endpoint w b) + h (endpoint w b)) -> over L f w = k * over L g w + over L h w.
Proof. intros E. unfold over. induction L as [|b L IH]; [cbn; lia|]. cbn. rewrite IH, E. lia. Qed.
Definition send_rest (j : qtnode) : nat := total call_s (q_calls (qt_calls j)) + total entry_s (q_chan (qt_calls j)).
Definition left_rest (j : qtnode) : nat := calls_left (qt_calls j) - 3 * left_to_do (q_rt (qt_calls j)).
Lemma in_hand a q e q' o l : qstep q (QRun e) = Some (q', o, l) -> send_rest (mkQT q' a) = total call_s (q_calls q) + total entry_s (q_chan q) /\
  calls_left q' - 3 * left_to_do (q_rt q') = calls_left q - 3 * left_to_do (q_rt q).
Proof. intros S. destruct (qrun_is _ _ _ _ _ S) as (s' & ob & _ & -> & _). split; [reflexivity|]. unfold calls_left. cbn [q_rt q_chan q_now q_calls q_over with_rt]. lia. Qed.
Lemma by_net tr w ev w' y L : qx_history tr w -> xgoes w (XStreams ev) w' y -> qx_history (tr ++ [y]) w' ->
  lexl (TcpNetRestTheorems.measure L (qx_net w')) (TcpNetRestTheorems.measure L (qx_net w)) -> lexl (measure L w') (measure L w).
Proof.
  intros H G H' [_ LX]. split; [reflexivity|].
  assert (R : forall tr w, qx_history tr w -> over L (fun j => calls_send (qt_calls j)) w = 1 * over L (fun j => TcpNetRestTheorems.to_send (t_rt (qt_node j))) w + over L send_rest w /\
    over L (fun j => calls_left (qt_calls j)) w = 3 * over L (fun j => left_to_do (t_rt (qt_node j))) w + over L left_rest w).
  { clear. intros tr w H. split; apply over_plus; intros b; destruct (halves _ _ _ _ (at_endpoint _ _ b H)) as (_ & _ & E & _); rewrite <- E.
    - unfold calls_send, send_rest. lia.
    - unfold left_rest, calls_left. lia. }
  destruct (R _ _ H) as [R1 R2]. destruct (R _ _ H') as [R3 R4].
  assert (K : over L send_rest w' = over L send_rest w /\ over L left_rest w' = over L left_rest w).
  { clear -G. remember (XStreams ev) as z eqn:Z. destruct G as [a0 x0 q o l v xs Q D|ev0 v a0 e x0 N S R|ev0 v a0 e x0 f o' q o l N S R Q]; [discriminate Z| |].
    - split; apply over_same; reflexivity.
    - destruct (in_hand (tn_node v a0) _ _ _ _ _ Q) as [K1 K2]. split; apply over_same; intros b _; unfold endpoint, set_calls; cbn [qx_calls qx_net]; (destruct (N.eqb_spec b a0) as [->|]; [|reflexivity]).
      + exact K1.
      + exact K2. }
  destruct K as [K1 K2]. unfold measure. unfold TcpNetRestTheorems.measure in LX. unfold TcpNetRestTheorems.over in LX. unfold over in *. cbn [endpoint qt_node qt_calls] in *.
  cbn [lex] in *. rewrite R1, R2, R3, R4, K1, K2. clear -LX.
  repeat match type of LX with context [total ?f ?l] => let z := fresh "z" in set (z := total f l) in *; clearbody z end.
  repeat match goal with |- context [total ?f ?l] => let z := fresh "z" in set (z := total f l) in *; clearbody z end. lia.
Qed.

(** ** Each step leaves less *)
Lemma node_init w a : endpoint w a = qtnode_init -> tn_node (qx_net w) a = tnode_init.
Proof. unfold endpoint. intros E. injection E as _ E. exact E. Qed.
Lemma no_accept a v l b es v' xs : tnet_does a v (EAccept l b :: es) = Some (v', xs) -> False.
Proof. cbn. discriminate. Qed.
Lemma calls_accept w a x q o l v xs : qstep (qx_calls w a) x = Some (q, o, l) -> tnet_does a (qx_net w) (map fst l) = Some (v, xs) ->
  match x with QRun (EAccept _ _) => False | _ => True end.
Proof. intros Q D. destruct x; try exact Logic.I. destruct e; try exact Logic.I. destruct (qrun_is _ _ _ _ _ Q) as (s' & ob & -> & _). exact (no_accept _ _ _ _ _ _ _ D). Qed.
Lemma on_calls w a x p w' : match x with QRun (EAccept _ _) => False | _ => True end -> qx_on w (a, (AtCalls x, p)) w' -> match qtl_call p with Some l => goes_on l | None => False end.
Proof. intros N O. unfold qx_on in O. cbn [fst snd] in O. destruct x as [| | | | | | | |e]; try exact O. destruct e; try exact O. contradiction N. Qed.
Lemma place_in L tr w ev w' x : qx_history tr w -> xgoes w ev w' x -> qx_quiet L w x w' -> In (fst x) (places L tr).
Proof.
  intros H G [O|[I _]]; [|apply places_given; exact I]. destruct (in_dec N.eq_dec (fst x) (places L tr)) as [J|J]; [exact J|exfalso].
  pose proof (elsewhere _ _ _ _ H J) as E. destruct x as [a [e p]]. cbn [fst snd] in *. destruct (placed _ _ _ _ _ G) as [PL _]. cbn [fst snd] in PL.
  remember (a, (e, p)) as y eqn:Y. destruct G as [a0 x0 q o l v xs Q D|ev v a0 e0 x0 N S R|ev v a0 e0 x0 f o' q o l N S R Q]; injection Y as -> <- <-.
  - pose proof (on_calls _ _ _ _ _ (calls_accept _ _ _ _ _ _ _ _ Q D) O) as K. rewrite E in PL. exact (init_stuck _ _ _ PL K).
  - destruct (TcpNetTheorems.net_stepped _ _ _ _ _ _ S) as (a1 & e1 & x1 & s' & X & T & _). injection X as <- <- <-. rewrite (node_init _ _ E) in T. destruct (from_network e0) eqn:F.
    + exact (TcpNetRestTheorems.init_deaf _ _ _ _ _ F T).
    + destruct e0 as [f| | | |]; [pose proof (run_ev _ _ _ _ _ _ S N); congruence|..]; destruct O as [[K|K] _]; cbn [fst snd as_event] in K; try congruence;
      rewrite (node_init _ _ E) in K; exact (TcpNetRestTheorems.init_stuck _ _ _ _ _ K T).
  - destruct (TcpNetTheorems.net_stepped _ _ _ _ _ _ S) as (a1 & e1 & x1 & s' & X & T & _). injection X as <- <- <-. rewrite (node_init _ _ E) in T. destruct (from_network e0) eqn:F.
    + exact (TcpNetRestTheorems.init_deaf _ _ _ _ _ F T).
    + destruct e0 as [f0| | | |]; [pose proof (run_ev _ _ _ _ _ _ S N); congruence|..]; destruct O as [[K|K] _]; cbn [fst snd as_event] in K; try congruence;
      rewrite (node_init _ _ E) in K; exact (TcpNetRestTheorems.init_stuck _ _ _ _ _ K T).
Qed.
Lemma add_known L a : In a L -> add L a = L.
Proof. intros I. unfold UdpNetRestTheorems.add. destruct (in_dec N.eq_dec a L); [reflexivity|contradiction]. Qed.
Lemma same_left L w w' : (forall b, endpoint w' b = endpoint w b) -> tn_wires (qx_net w') = tn_wires (qx_net w) -> measure L w' = measure L w.
Proof. intros E W. unfold measure. assert (O : forall f, over L f w' = over L f w) by (intros f; apply over_same; intros b _; rewrite E; reflexivity). rewrite W, !O. reflexivity. Qed.
Lemma run_wires s e s' x a : tnode_step s e = Some (s', x) -> nconns s' = nconns s -> match te_rt x with Some (_, OSpawned c b) => [mkWire a c b None [] []] | _ => [] end = [].
Proof.
  intros E NC. destruct (TcpNetTheorems.step_conns _ _ _ _ _ _ E) as [(f & b & X & K & _)|[X _]]; [lia|]. destruct (te_rt x) as [[f o]|]; [|reflexivity].
  destruct o; try reflexivity. destruct (X _ _ _ eq_refl).
Qed.
Lemma does_links es : forall s s' xs tr, thistory bk cbk tr s -> tnode_does s es = Some (s', xs) -> nconns s' = nconns s -> t_links s' = t_links s.
Proof.
  intros s s' xs tr H D NC.
  assert (G : exists k, t_links s' = t_links s ++ repeat new_link k).
  { clear NC H. revert s s' xs D. induction es as [|e es IH]; intros s s' xs D; cbn [QueueTcpModel.tnode_does] in D; [injection D as <- <-; exists 0; rewrite app_nil_r; reflexivity|].
    destruct (tnode_step s (TRun e)) as [[s1 x]|] eqn:S; [|discriminate D]. destruct (tnode_does s1 es) as [[s2 ys]|] eqn:D'; [|discriminate D]. cbn in D. injection D as <- <-.
    destruct (IH _ _ _ D') as (k & K). destruct (run_is _ _ _ _ _ _ S) as (_ & o & _ & _ & L). rewrite K, L, <- app_assoc, <- repeat_app. eauto. }
  destruct G as (k & G). pose proof (links_length _ _ _ _ H) as L1. pose proof (links_length _ _ _ _ (does_history _ _ _ _ _ _ _ H D)) as L2.
  unfold nconns in NC. rewrite G, app_length, repeat_length in L2. assert (k = 0) as -> by lia. rewrite G, app_nil_r. reflexivity.
Qed.
Theorem net_less L tr w ev w' x : qx_history tr w -> qtnet_step w ev = Some (w', x) -> qx_quiet L w x w' ->
  (measure (places L (tr ++ [x])) w' = measure (places L tr) w /\ ~ qx_on w x w') \/ lexl (measure (places L (tr ++ [x])) w') (measure (places L tr) w).
Proof.
  intros H ST Q. pose proof (places_nodup L tr) as D. pose proof (xstep _ _ _ _ ST) as G. pose proof (place_in _ _ _ _ _ _ H G Q) as AI.
  rewrite places_snoc, (add_known _ _ AI). pose proof (qx_more _ _ _ _ _ _ _ H ST) as H'. pose proof (node_elsewhere L _ _ H) as EL.
  set (P := places L tr) in *. clearbody P. destruct x as [a [e p]]. cbn [fst] in AI.
  pose proof (placed _ _ _ _ _ G) as [PL OT]. cbn [fst snd] in PL. pose proof (at_endpoint _ _ a H) as HA. destruct (halves _ _ _ _ HA) as (HQ & HN & R & _).
  destruct (halves _ _ _ _ (at_endpoint _ _ a H')) as (_ & _ & R' & _). unfold endpoint in R, R', HN, HQ. cbn [qt_calls qt_node] in R, R', HN, HQ.
  pose proof (fun f => over_place P f w w' a D AI OT) as OV.
  pose proof (OV (fun j => calls_send (qt_calls j))) as O1. pose proof (OV (fun j => unsent (qt_node j))) as O2. pose proof (OV (fun j => TcpNetRestTheorems.unfinished (qt_node j))) as O3.
  pose proof (OV (fun j => unreads (qt_node j))) as O4. pose proof (OV (fun j => calls_left (qt_calls j))) as O5. cbn beta in *. clear OV. unfold endpoint in O1, O2, O3, O4, O5. cbn [qt_calls qt_node] in *.
  assert (NC : forall tr0 s, thistory bk cbk tr0 s -> nconns s = length (t_links s)) by (intros tr0 s K; symmetry; exact (links_length _ _ _ _ K)).
  destruct ev as [b0 x0|ev].
  - remember (a, (e, p)) as y eqn:Y. remember (XCalls b0 x0) as z eqn:Z. destruct G as [a0 x1 q o l v xs QS DS|ev v a0 e0 x1 N S RT|ev v a0 e0 x1 f o' q o l N S RT QS]; try discriminate Z.
    injection Y as -> <- <-. injection Z as <- <-. pose proof (calls_accept _ _ _ _ _ _ _ _ QS DS) as NA.
    assert (QT : quiet (x1, o, l)). { destruct Q as [O|[_ Q]]; [apply (on_quiet bk cbk); exact (on_calls _ _ _ _ _ NA O)|exact Q]. }
    destruct (does_net _ _ _ _ _ DS) as (ND & _ & _ & _ & WS). cbn [qx_calls qx_net] in *. assert (SC : set_calls a q (qx_calls w) a = q) by (unfold set_calls; rewrite N.eqb_refl; reflexivity). rewrite SC in R', O1, O5.
    destruct (calls_fewer _ _ _ _ _ _ _ _ _ HQ QS QT) as [LT|[LE FW]]; [right; split; [reflexivity|]; left; lia|].
    rewrite R, R' in FW. pose proof (fewer_length _ _ FW) as FL. specialize (WS FL). pose proof (does_links _ _ _ _ _ HN ND FL) as LK.
    assert (U2 : unsent (tn_node v a) <= unsent (tn_node (qx_net w) a)) by (unfold unsent; rewrite LK; apply fewer_unsent; exact FW).
    assert (U3 : TcpNetRestTheorems.unfinished (tn_node v a) = TcpNetRestTheorems.unfinished (tn_node (qx_net w) a)) by (unfold TcpNetRestTheorems.unfinished; rewrite LK; reflexivity).
    pose proof (does_unreads _ _ _ _ _ _ ND) as U4. pose proof (calls_less _ _ _ _ _ _ _ _ _ HQ QS QT) as CL. destruct (acts (x1, o, l)) eqn:AC.
    + right. split; [reflexivity|]. unfold measure. cbn [qx_net lex]. rewrite WS. lia.
    + left. split; [|intros O; rewrite (on_acts _ (on_calls _ _ _ _ _ NA O)) in AC; discriminate AC].
      destruct x1; try (destruct l as [|[? []] [|? ?]]; discriminate AC). destruct (qrun_is _ _ _ _ _ QS) as (r & ob & -> & -> & RS).
      assert (r = q_rt (qx_calls w a)) as -> by (eapply pending_same; [exact QT|exact RS|cbn in AC; destruct ob; try discriminate AC; auto]).
      cbn [q_rt with_rt] in R'. rewrite R in R'.
      apply same_left; [|exact WS]. intros b. destruct (N.eq_dec b a) as [->|NE]; [|exact (OT b NE)]. unfold endpoint, set_calls. cbn [qx_calls qx_net]. rewrite N.eqb_refl, with_rt_id. f_equal.
      destruct (tn_node v a), (tn_node (qx_net w) a). cbn in *. congruence.
  - assert (EV : exists v e0 x1, no_run ev /\ tnet_step (qx_net w) ev = Some (v, (a, (e0, x1))) /\ qx_net w' = v /\ e = as_event e0 /\
      match te_rt x1 with None => qx_calls w' a = qx_calls w a | Some (f, o') => qx_calls w' a = with_rt (t_rt (tn_node v a)) (qx_calls w a) /\ qstep (qx_calls w a) (QRun f) = Some (qx_calls w' a, QUnit, [(f, o')]) end).
    { clear -G R HN R'. remember (a, (e, p)) as y eqn:Y. remember (XStreams ev) as z eqn:Z. destruct G as [a0 x1 q o l v xs QS DS|ev0 v a0 e0 x1 N S RT|ev0 v a0 e0 x1 f o' q o l N S RT QS]; try discriminate Z;
        injection Y as -> <- <-; injection Z as ->; exists v, e0, x1; (split; [exact N|]); (split; [exact S|]); (split; [reflexivity|]); (split; [reflexivity|]); rewrite RT; [reflexivity|].
      cbn [qx_calls qx_net] in *. unfold set_calls in *. rewrite N.eqb_refl in *.
      destruct (TcpNetTheorems.net_stepped _ _ _ _ _ _ S) as (a1 & e1 & x2 & s' & X & T & NW & _). injection X as <- <- <-. pose proof (rt_of_entry _ _ _ _ _ _ T) as RE. rewrite RT, <- R in RE.
      destruct (answer_is _ _ _ _ _ _ _ QS RE) as (-> & -> & ->). cbn [q_rt with_rt] in R'. rewrite <- R'. auto. }
    destruct EV as (v & e0 & x1 & N & S & <- & -> & C).
    destruct (from_network e0) eqn:F.
    + pose proof (net_ev _ _ _ _ _ _ S F) as NS. destruct (TcpNetRestTheorems.net_less _ _ _ _ _ _ _ _ (is_tnet _ _ H) D EL NS S) as [_ [SM|LX]]; [left|right; eapply by_net; eassumption].
      assert (EA : endpoint w' a = endpoint w a).
      { unfold endpoint. rewrite (proj2 SM a). f_equal. destruct (te_rt x1) as [[f o']|]; [|exact C]. destruct C as [-> _]. rewrite (proj2 SM a), <- R. apply with_rt_id. }
      split.
      * apply same_left; [|exact (proj1 SM)]. intros b. destruct (N.eq_dec b a) as [->|NE]; [exact EA|exact (OT b NE)].
      * intros O. apply (TcpNetRestTheorems.same_not _ _ SM). destruct e0; try (destruct O; assumption). exact (accept_changes _ _ _ _ _ _ S F).
    + assert (RW : match e0 with TRead _ _ | TWrite _ _ => True | _ => False end).
      { destruct e0 as [f| | | |]; try exact Logic.I; try discriminate F. pose proof (run_ev _ _ _ _ _ _ S N). congruence. }
      destruct (TcpNetTheorems.net_stepped _ _ _ _ _ _ S) as (a1 & e1 & x2 & s' & X & T & NW & W). injection X as <- <- <-.
      assert (NA : tn_node (qx_net w') a = s') by (rewrite NW; unfold set_tnode; rewrite N.eqb_refl; reflexivity).
      assert (WS : tn_wires (qx_net w') = (match e0 with TWrite c _ => map (carry a c (te_out x1)) (tn_wires (qx_net w)) | _ => tn_wires (qx_net w) end) ++
        (match te_rt x1 with Some (_, OSpawned c b) => [mkWire a c b None [] []] | _ => [] end)).
      { clear -W F. destruct W; try (subst e0; discriminate F). reflexivity. }
      pose proof (rt_of_entry _ _ _ _ _ _ T) as RE.
      assert (CS : calls_send (qx_calls w' a) + TcpNetRestTheorems.to_send (t_rt (tn_node (qx_net w) a)) = calls_send (qx_calls w a) + TcpNetRestTheorems.to_send (t_rt s')).
      { unfold calls_send. rewrite R, R', NA. destruct (te_rt x1) as [[f o']|]; [destruct C as [-> _]; cbn [q_calls q_chan with_rt]; lia|]. rewrite C. rewrite RE. lia. }
      rewrite NA in O2, O3, O4.
      destruct (stream_more _ _ _ _ _ _ _ HN RW T) as [[-> TO]|[LT|(EQ & NCE & LT)]].
      * left. rewrite TO, (run_wires _ _ _ _ a T eq_refl), app_nil_r in WS.
        assert (WS' : tn_wires (qx_net w') = tn_wires (qx_net w)) by (rewrite WS; destruct e0; try reflexivity; apply TcpNetRestTheorems.carry_none).
        assert (SM : TcpNetRestTheorems.same (qx_net w) (qx_net w')).
        { split; [exact WS'|]. intros b. destruct (N.eq_dec b a) as [->|NE]; [exact NA|]. pose proof (OT b NE) as E. unfold endpoint in E. injection E as _ E. exact E. }
        assert (EA : endpoint w' a = endpoint w a).
        { unfold endpoint. rewrite NA. f_equal. destruct (te_rt x1) as [[f o']|]; [|exact C]. destruct C as [-> _]. rewrite NA, <- R. apply with_rt_id. }
        split; [apply same_left; [|exact WS']; intros b; destruct (N.eq_dec b a) as [->|NE]; [exact EA|exact (OT b NE)]|].
        intros O. apply (TcpNetRestTheorems.same_not _ _ SM). destruct e0; try contradiction RW; destruct O; assumption.
      * right. split; [reflexivity|]. left. lia.
      * right. split; [reflexivity|]. unfold measure. cbn [lex]. rewrite (run_wires _ _ _ _ a T NCE), app_nil_r in WS.
        assert (OW : total TcpNetRestTheorems.open_w (tn_wires (qx_net w')) = total TcpNetRestTheorems.open_w (tn_wires (qx_net w))) by (rewrite WS; destruct e0; try reflexivity; apply TcpNetRestTheorems.carry_open).
        rewrite OW. destruct LT as [LT|(EU & TO & EF & LT)]; [lia|].
        assert (FW : tn_wires (qx_net w') = tn_wires (qx_net w)) by (rewrite WS, TO; destruct e0; try reflexivity; apply TcpNetRestTheorems.carry_none).
        rewrite FW. destruct LT as [LT|(ER & f & o' & RT & BR & N1 & N2)]; [lia|].
        rewrite RT in C. destruct C as [_ QS]. pose proof (calls_less _ _ _ _ _ _ _ _ _ HQ QS BR) as L'.
        assert (AC : acts (QRun f, QUnit, [(f, o')]) = true) by (destruct o'; try reflexivity; congruence). rewrite AC in L'. lia.
Qed.

(** ** It stops *)
Theorem qx_stops (f : nat -> qtnet) tr : qx_history tr (f 0) -> ~ (forall n, exists ev x, qx_on (f n) x (f (S n)) /\ qtnet_step (f n) ev = Some (f (S n), x)).
Proof.
  intros H F.
  assert (G : forall m n t, qx_history t (f n) -> measure (places [] t) (f n) = m -> False).
  { induction m as [m IH] using (well_founded_induction lex_wf). intros n t HT <-. destruct (F n) as (ev & x & O & ST).
    destruct (net_less [] _ _ _ _ _ HT ST (or_introl O)) as [[_ K]|K]; [exact (K O)|]. exact (IH _ K _ _ (qx_more _ _ _ _ _ _ _ HT ST) eq_refl). }
  exact (G _ 0 tr H eq_refl).
Qed.

(** ** What can go on *)
Lemma lift tr w ev v a e x : qx_history tr w -> no_run ev -> tnet_step (qx_net w) ev = Some (v, (a, (e, x))) ->
  exists w' p, qtnet_step w (XStreams ev) = Some (w', (a, (as_event e, p))) /\ qx_net w' = v.
Proof.
  intros H N S. rewrite (streams_is _ _ N), S. destruct (te_rt x) as [[f o]|] eqn:RT; [|eexists _, _; split; reflexivity].
  destruct (TcpNetTheorems.net_stepped _ _ _ _ _ _ S) as (a1 & e1 & x1 & s' & X & T & _). injection X as <- <- <-. pose proof (rt_of_entry _ _ _ _ _ _ T) as RE. rewrite RT in RE.
  destruct (halves _ _ _ _ (at_endpoint _ _ a H)) as (_ & _ & R & _). unfold endpoint in R. cbn [qt_calls qt_node] in R. rewrite <- R in RE.
  assert (EW : QueueModel.elsewhere f (qx_calls w a) = true).
  { destruct e as [g| | | |]; try (assert (A : answers_of f = true) by (eapply entry_answers; [|exact T|exact RT]; exact Logic.I); destruct f; try discriminate A; reflexivity).
    destruct (run_is _ _ _ _ _ _ T) as (_ & o' & X & _). rewrite RT in X. injection X as <- _. pose proof (run_ev _ _ _ _ _ _ S N) as F. destruct f; try discriminate F. reflexivity. }
  cbn [QueueModel.qstep]. rewrite EW. unfold at_rt. rewrite RE. eexists _, _. split; reflexivity.
Qed.
Lemma follow_net a es : forall v s xs, Forall (fun e => from_network (TRun e) = false) es -> tnode_does (tn_node v a) es = Some (s, xs) -> exists v', tnet_does a v es = Some (v', xs).
Proof.
  induction es as [|e es IH]; intros v s xs F D; cbn [QueueTcpModel.tnode_does] in D; [injection D as <- <-; eexists; reflexivity|].
  destruct (tnode_step (tn_node v a) (TRun e)) as [[s1 x]|] eqn:S; [|discriminate D]. destruct (tnode_does s1 es) as [[s2 ys]|] eqn:D'; [|discriminate D]. cbn in D. injection D as <- <-.
  inversion F as [|? ? F1 F2]; subst. cbn [QueueTcpNetModel.tnet_does TcpNetModel.tnet_step]. rewrite F1, S. edestruct IH as [v' K]; [exact F2| |rewrite K; eexists; reflexivity].
  cbn [tn_node]. unfold set_tnode. rewrite N.eqb_refl. exact D'.
Qed.
Lemma not_accepting dg tr q x q' o l : qhistory bk cbk dg tr q -> qstep q x = Some (q', o, l) -> goes_on (x, o, l) -> Forall (fun e => from_network (TRun e) = false) (map fst l).
Proof.
  intros H S G. pose proof (invariant _ _ _ _ _ H) as V. apply qstepped in S. pose proof (not_refused _ _ _ _ _ _ _ _ V S) as NR.
  destruct S; try congruence; try contradiction G; cbn [map fst]; try (constructor; fail); try (repeat constructor; fail).
  - constructor; [|constructor]. unfold begins. destruct (e_gone e); [reflexivity|]. destruct to; reflexivity.
  - constructor; [|constructor]. unfold connects in *. destruct (e_gone e); [subst b; reflexivity|].
    match goal with K : exists n, _ |- _ => destruct K as (n & _ & ->) end. reflexivity.
  - constructor; [reflexivity|]. match goal with K : dropped_answer _ _ _ _ _ _ |- _ => unfold dropped_answer in K; destruct o; cbn in K;
      first [destruct K as (? & _ & ->); repeat constructor|destruct K as [_ ->]; constructor] end.
  - destruct G as [C _]. constructor; [|constructor]. destruct e; try contradiction C; reflexivity.
Qed.
Lemma at_on w a x p w' : match qtl_call p with Some l => goes_on l | None => False end -> qx_on w (a, (AtCalls x, p)) w'.
Proof. intros O. unfold qx_on. cbn [fst snd]. destruct x as [| | | | | | | |e]; try exact O. destruct e; try exact O. exact Logic.I. Qed.
Lemma node_on tr w a : qx_history tr w -> qx_can bk cbk w \/ qt_rest (at_place a tr) (endpoint w a) \/ qt_jammed bk (at_place a tr) (endpoint w a).
Proof.
  intros H. pose proof (at_endpoint _ _ a H) as HA. destruct (qt_progress _ _ _ _ HA) as [(e & j & p & S & O)|K]; [|auto]. left.
  destruct (halves _ _ _ _ HA) as (HQ & _). apply qtstepped in S. unfold qt_on in O.
  assert (ST : forall e0 s x, tcp_settles (tn_node (qx_net w) a) e0 -> not_run e0 -> tnode_step (tn_node (qx_net w) a) e0 = Some (s, x) -> s <> tn_node (qx_net w) a -> qx_can bk cbk w).
  { intros e0 s x T NR S' NE. assert (F : from_network e0 = false) by (destruct e0 as [[]| | | |]; try contradiction T; reflexivity).
    assert (TS : exists v, tnet_step (qx_net w) (WRun a e0) = Some (v, (a, (e0, x))) /\ tn_node v a = s).
    { cbn [TcpNetModel.tnet_step]. rewrite F, S'. eexists. split; [reflexivity|]. cbn. unfold set_tnode. rewrite N.eqb_refl. reflexivity. }
    destruct TS as (v & TS & NV). assert (NO : no_run (WRun a e0)) by (destruct e0; try exact Logic.I; contradiction NR). destruct (lift _ _ _ _ _ _ _ H NO TS) as (w' & p' & Q & <-).
    exists (XStreams (WRun a e0)), w', (a, (as_event e0, p')). split; [exact Q|]. destruct e0; try contradiction NR; (split; [right; exact T|right; exists a; cbn [fst]; rewrite NV; exact NE]). }
  destruct S as [x q o l s xs QS D|e0 s x N S E|e0 s x e' o' q o l N S E QS]; cbn [fst snd qtl_call] in O.
  - destruct (follow_net _ _ _ _ _ (not_accepting _ _ _ _ _ _ _ HQ QS O) D) as (v & DV). exists (XCalls a x). cbn [QueueTcpNetModel.qtnet_step]. cbn [endpoint qt_calls] in QS. rewrite QS, DV.
    eexists _, _. split; [reflexivity|]. apply at_on. exact O.
  - destruct O. eapply ST; eassumption.
  - destruct O. eapply ST; eassumption.
Qed.
Lemma net_on tr w ev v x : qx_history tr w -> (forall a, qt_rest (at_place a tr) (endpoint w a)) ->
  net_settles (qx_net w) ev -> tnet_step (qx_net w) ev = Some (v, x) -> changed (qx_net w) v -> qx_can bk cbk w.
Proof.
  intros H AL NS S C. destruct x as [a [e x]]. destruct (ev_kinds _ _ _ _ _ _ S) as [[-> F]|[NR F]].
  - exfalso. cbn in NS. destruct (halves _ _ _ _ (at_endpoint _ _ a H)) as (_ & HN & R & _). destruct (AL a) as [AE RD]. unfold endpoint in HN, R, AE, RD. cbn [qt_calls qt_node] in *.
    destruct (TcpNetTheorems.net_stepped _ _ _ _ _ _ S) as (a1 & e1 & x1 & s' & X & T & NW & W). injection X as <- <- <-.
    assert (ES : s' = tn_node (qx_net w) a) by (eapply FairTheorems.tcp_done; [exact HN|rewrite <- R; exact (ease_rt _ AE)|exact RD|exact NS|exact T]).
    destruct (TcpNetRestTheorems.settle_more _ _ _ _ _ _ _ HN NS T) as [[_ TO]|[LT|(_ & _ & [LT|(_ & TO & _ & [LT|[_ LT]])])]]; try (rewrite ES in LT; exact (Nat.lt_irrefl _ LT)); [].
    apply (TcpNetRestTheorems.same_not (qx_net w) v); [|exact C]. split.
    + rewrite ES in T. pose proof (run_wires _ _ _ _ a T eq_refl) as RW. remember (tn_wires v) as ws eqn:EW. clear EW. destruct W; try (subst e; discriminate F). rewrite RW, app_nil_r, TO.
      destruct e; try reflexivity. apply TcpNetRestTheorems.carry_none.
    + intros b. rewrite NW. unfold set_tnode. destruct (N.eqb_spec b a) as [->|]; [exact ES|reflexivity].
  - assert (N : no_run ev) by (destruct ev; try exact Logic.I; destruct (NR _ _ eq_refl)). destruct (lift _ _ _ _ _ _ _ H N S) as (w' & p & Q & <-).
    exists (XStreams ev), w', (a, (as_event e, p)). split; [exact Q|]. unfold qx_on. cbn [fst snd]. destruct e as [f| | | |]; cbn [as_event]; try (split; [left; exact F|exact C]).
    destruct f; try discriminate F. exact Logic.I.
Qed.
Lemma rest_idle tr w : qx_history tr w -> (forall a, qt_rest (at_place a tr) (endpoint w a)) -> forall a, idle (t_rt (tn_node (qx_net w) a)) /\ all_read (at_tcp a (streams_of tr)) (tn_node (qx_net w) a).
Proof.
  intros H AL a. destruct (halves _ _ _ _ (at_endpoint _ _ a H)) as (_ & _ & R & _). destruct (AL a) as [AE RD]. rewrite same_streams.
  split; [|exact RD]. unfold endpoint in R. cbn [qt_calls qt_node] in R. rewrite <- R. exact (ease_rt _ AE).
Qed.
Theorem rest_net tr w : qx_history tr w -> qx_rest tr w -> net_at_rest (streams_of tr) (qx_net w).
Proof. intros H (U & A & T & AL). split; [exact U|]. split; [exact A|]. split; [exact T|]. apply rest_idle; assumption. Qed.
Theorem qx_progress tr w : qx_history tr w -> qx_can bk cbk w \/ qx_rest tr w \/ qx_jammed bk tr w.
Proof.
  intros H.
  assert (G : forall l, qx_can bk cbk w \/ (forall a, In a l -> qt_rest (at_place a tr) (endpoint w a)) \/ qx_jammed bk tr w).
  { induction l as [|a l IH]; [right; left; intros a []|]. destruct IH as [K|[K|K]]; [auto| |auto].
    destruct (node_on _ _ a H) as [J|[J|J]]; [auto| |right; right; exists a; exact J]. right. left. intros b [<-|I]; auto. }
  destruct (G (places [] tr)) as [K|[K|K]]; [auto| |auto].
  assert (NT : forall a t, ~ In a (places [] t) -> at_place a t = []).
  { intros a t. induction t as [|x t IH] using rev_ind; intros NI; [reflexivity|]. rewrite places_snoc, UdpNetRestTheorems.add_in in NI. rewrite place_snoc.
    destruct (N.eqb_spec (fst x) a) as [E|E]; [destruct NI; left; congruence|]. rewrite app_nil_r. apply IH. tauto. }
  assert (ALL : forall a, qt_rest (at_place a tr) (endpoint w a)).
  { intros a. destruct (in_dec N.eq_dec a (places [] tr)) as [I|I]; [exact (K a I)|]. rewrite (elsewhere _ _ _ _ H I), (NT _ _ I). exact init_rest. }
  pose proof (is_tnet _ _ H) as HT.
  destruct (TcpNetRestTheorems.changed_dec_wires _ _ _ _ HT) as [(ev & v & x & S1 & S2 & C)|U]; [left; eapply net_on; eassumption|].
  destruct (TcpNetRestTheorems.changed_dec_accept _ _ _ _ HT (fun a => proj1 (rest_idle _ _ H ALL a))) as [(ev & v & x & S1 & S2 & C)|A]; [left; eapply net_on; eassumption|].
  destruct (TcpNetRestTheorems.changed_dec_told _ _ _ _ HT U) as [(ev & v & x & S1 & S2 & C)|T]; [left; eapply net_on; eassumption|].
  right. left. split; [exact U|]. split; [exact A|]. split; [exact T|exact ALL].
Qed.
Theorem qx_stopped tr w : qx_history tr w -> ~ qx_can bk cbk w -> qx_rest tr w \/ qx_jammed bk tr w.
Proof. intros H N. destruct (qx_progress _ _ H) as [K|K]; [contradiction|exact K]. Qed.
Theorem qx_still tr w : qx_history tr w -> qx_rest tr w -> ~ qx_can bk cbk w.
Proof.
  intros H R (ev & w' & [a [e p]] & ST & O). pose proof (rest_net _ _ H R) as NR. destruct R as (_ & _ & _ & AL).
  pose proof (xstep _ _ _ _ ST) as G. destruct (placed _ _ _ _ _ G) as [PL _]. cbn [fst snd] in PL.
  assert (SK : forall ev v e0 x, no_run ev -> tnet_step (qx_net w) ev = Some (v, (a, (e0, x))) -> v = qx_net w' -> e = as_event e0 -> False).
  { intros ev0 v e0 x N S -> ->. destruct (ev_kinds _ _ _ _ _ _ S) as [[-> F]|[_ F]].
    - assert (K : tcp_settles (tn_node (qx_net w) a) e0 /\ changed (qx_net w) (qx_net w')) by (destruct e0; try contradiction N; destruct O as [[K|K] C]; cbn [fst] in K; try congruence; auto).
      destruct K as [K C]. exact (FairTheorems.net_still _ _ _ _ (WRun a e0) _ _ (is_tnet _ _ H) NR K S C).
    - assert (C : changed (qx_net w) (qx_net w')) by (destruct e0; try (destruct O; assumption); exact (accept_changes _ _ _ _ _ _ S F)).
      exact (FairTheorems.net_still _ _ _ _ _ _ _ (is_tnet _ _ H) NR (net_ev _ _ _ _ _ _ S F) S C). }
  remember (a, (e, p)) as y eqn:Y. destruct G as [a0 x0 q o l v xs Q D|ev v a0 e0 x0 N S RT|ev v a0 e0 x0 f o' q o l N S RT Q]; injection Y as -> <- <-.
  - apply (rest_done _ _ _ _ (at_endpoint _ _ a H) (AL a)). eexists _, _, _. split; [exact PL|]. exact (on_calls _ _ _ _ _ (calls_accept _ _ _ _ _ _ _ _ Q D) O).
  - eapply SK; [exact N|exact S|reflexivity|reflexivity].
  - eapply SK; [exact N|exact S|reflexivity|reflexivity].
Qed.
Theorem qx_answered tr w : qx_history tr w -> qx_rest tr w -> all_places_answered tr.
Proof. intros H (_ & _ & _ & AL) a. eapply rest_answered; [apply at_endpoint; exact H|]. apply (rest_calls _ _ (AL a)). Qed.
Theorem qx_comes_to_rest tr w : qx_history tr w -> exists tr' w', qx_steps bk cbk w tr' w' /\ qx_history (tr ++ tr') w' /\ (qx_rest (tr ++ tr') w' \/ qx_jammed bk (tr ++ tr') w').
Proof.
  intros H. remember (measure (places [] tr) w) as m eqn:M. revert w tr H M.
  induction m as [m IH] using (well_founded_induction lex_wf). intros w tr H M.
  destruct (qx_progress _ _ H) as [(ev & w1 & x & ST & O)|K].
  - destruct (net_less [] _ _ _ _ _ H ST (or_introl O)) as [[_ K]|K]; [contradiction|]. subst m.
    destruct (IH _ K w1 (tr ++ [x])) as (tr' & w' & S & H' & R); [eapply qx_more; eassumption|reflexivity|].
    rewrite <- app_assoc in H', R. exists (x :: tr'), w'. split; [econstructor; eassumption|]. auto.
  - exists [], w. rewrite app_nil_r. split; [constructor|]. auto.
Qed.

(** ** Runs without end *)
Lemma goes_history_net L tr w x w' : qx_history tr w -> qx_goes bk cbk L w x w' -> qx_history (tr ++ [x]) w'.
Proof. intros H (_ & ev & S). econstructor; eassumption. Qed.
Lemma answered_more tr ev p : answered_all tr -> match qtl_call p with Some (QCall _ _, _, _) => False | _ => True end -> answered_all (tr ++ [(ev, p)]).
Proof.
  intros A NM t id to. rewrite QueueTcpTheorems.calls_snoc. cbn [snd].
  destruct (qtl_call p) as [l|]; [|rewrite app_nil_r; apply A]. unfold life. rewrite flat_map_app. cbn [flat_map]. rewrite app_nil_r. intros M D. apply in_app_iff in M. destruct M as [M|M].
  - destruct (A t id to M) as (o & B & F); [intros K; apply D; apply in_app_iff; auto|]. exists o. split; [apply in_app_iff; auto|exact F].
  - exfalso. destruct l as [[x o] l]. unfold mark_of in M. destruct x as [| | | | |[?|?]| | |], o as [|?|[?|?] ?| |[?|?] ?|[?|?] ? ?|? ?]; cbn in M; try contradiction;
    repeat match type of M with context [?a =? ?b] => destruct (Nat.eqb_spec a b) end; cbn in M; intuition discriminate.
Qed.
Lemma answered_stays_net L tr w x w' : qx_history tr w -> all_places_answered tr -> qx_goes bk cbk L w x w' -> all_places_answered (tr ++ [x]).
Proof.
  intros H A (Q & ev & S) a. rewrite place_snoc. destruct (N.eqb_spec (fst x) a) as [E|E]; [|rewrite app_nil_r; apply A]. destruct x as [b [e p]]. cbn [snd]. apply answered_more; [apply A|].
  pose proof (xstep _ _ _ _ S) as G. remember (b, (e, p)) as y eqn:Y. destruct G as [a0 x0 q o l v xs QS D|ev v a0 e0 x0 N ST RT|ev v a0 e0 x0 f o' q o l N ST RT QS]; injection Y as -> <- <-;
    cbn [qtl_call]; try exact Logic.I.
  assert (QT : quiet (x0, o, l)). { destruct Q as [O|[_ Q]]; [apply (on_quiet bk cbk); exact (on_calls _ _ _ _ _ (calls_accept _ _ _ _ _ _ _ _ QS D) O)|exact Q]. }
  destruct x0; try exact Logic.I. contradiction QT.
Qed.
Theorem qx_fair_rest L f t : qx_fair bk cbk L f t -> qx_history (t 0) (f 0) -> forall k, exists n, k <= n /\ qx_history (t n) (f n) /\
  ((qx_rest (t n) (f n) /\ forall m, n <= m -> all_places_answered (t m)) \/ qx_jammed bk (t n) (f n)).
Proof.
  intros R P k.
  destruct (FairTheorems.fair_rest (qx_goes bk cbk L) (qx_can bk cbk) qx_on qx_history (fun tr w => qx_rest tr w \/ qx_jammed bk tr w)
    (fun tr w => measure (places L tr) w) lexl lex_wf (goes_history_net L)) with (f := f) (t := t) (k := k) as (n & LN & Q); try assumption.
  - intros tr w x w' H (QU & ev & S). destruct (net_less L _ _ _ _ _ H S QU) as [[K _]|K]; auto.
  - intros tr w x w' H (QU & ev & S) O. destruct (net_less L _ _ _ _ _ H S QU) as [[_ K]|K]; [contradiction|exact K].
  - exact qx_progress.
  - pose proof (FairTheorems.fair_past _ _ _ _ (goes_history_net L) _ _ R P) as PN. exists n. split; [exact LN|]. split; [apply PN|]. destruct Q as [Q|Q]; [left|right; exact Q]. split; [exact Q|].
    intros m LM. apply (FairTheorems.fair_keeps _ _ _ _ (goes_history_net L) (fun tr _ => all_places_answered tr) _ _ R P) with (n := n) (m := m); [|eapply qx_answered; [apply PN|exact Q]|exact LM].
    intros tr w x w' H A G. eapply answered_stays_net; eassumption.
Qed.
Theorem qx_fair_exists L tr w l w' : FairSpec.goes_to (qx_goes bk cbk L) w l w' -> qx_history (tr ++ l) w' -> qx_rest (tr ++ l) w' ->
  exists f t, qx_fair bk cbk L f t /\ f 0 = w /\ t 0 = tr /\ forall m, length l <= m -> f m = w' /\ t m = tr ++ l.
Proof. intros G H E. apply FairTheorems.fair_exists; [exact G|]. eapply qx_still; eassumption. Qed.

(** ** What has arrived then *)
Lemma streams_app tr tr' : streams_of (tr ++ tr') = streams_of tr ++ streams_of tr'.
Proof. apply flat_map_app. Qed.
Theorem qx_requests tr1 tr2 w a c b d n id : qx_history (tr1 ++ tr2) w -> ordinary_at a (streams_of (tr1 ++ tr2)) -> never_cut (qx_net w) (streams_of (tr1 ++ tr2)) -> qx_rest (tr1 ++ tr2) w ->
  joined (qx_net w) a c b d -> conn_runs (t_rt (tn_node (qx_net w) a)) c -> conn_runs (t_rt (tn_node (qx_net w) b)) d ->
  served n id (rt_tcp b (streams_of tr1)) -> reads d (at_tcp b (streams_of tr1)) = [] -> stub_exists (t_rt (tn_node (qx_net w) b)) n -> stub_listening (t_rt (tn_node (qx_net w) b)) n ->
  map it_msg (from_conn d (stub_got n (rt_tcp b (streams_of (tr1 ++ tr2))))) = filter (of_id id) (accepted c (rt_tcp a (streams_of (tr1 ++ tr2)))).
Proof.
  intros H O NC R. pose proof (is_tnet _ _ H) as HT. pose proof (rest_net _ _ H R) as RN. rewrite streams_app in *.
  exact (TcpNetTheorems.rest_all_got bk cbk (streams_of tr1) (streams_of tr2) (qx_net w) a c b d n id HT O NC RN).
Qed.
Theorem qx_exchange tr1 tr2 w a c b d n k id reply : qx_history (tr1 ++ tr2) w ->
  (forall e, ordinary_at e (streams_of (tr1 ++ tr2))) -> never_cut (qx_net w) (streams_of (tr1 ++ tr2)) -> qx_rest (tr1 ++ tr2) w ->
  joined (qx_net w) a c b d -> conn_runs (t_rt (tn_node (qx_net w) a)) c -> conn_runs (t_rt (tn_node (qx_net w) b)) d ->
  served n id (rt_tcp b (streams_of tr1)) -> reads d (at_tcp b (streams_of tr1)) = [] -> stub_exists (t_rt (tn_node (qx_net w) b)) n -> stub_listening (t_rt (tn_node (qx_net w) b)) n ->
  proxied k id b (rt_tcp a (streams_of tr1)) -> reads c (at_tcp a (streams_of tr1)) = [] -> proxy_exists (t_rt (tn_node (qx_net w) a)) k -> proxy_connected (t_rt (tn_node (qx_net w) a)) k ->
  Forall (fun m => of_id id m = true) (accepted c (rt_tcp a (streams_of (tr1 ++ tr2)))) -> (forall m, of_id id m = true -> of_id id (reply m) = true) ->
  accepted d (rt_tcp b (streams_of (tr1 ++ tr2))) = map reply (map it_msg (from_conn d (stub_got n (rt_tcp b (streams_of (tr1 ++ tr2)))))) ->
  map it_msg (from_conn c (proxy_got k (rt_tcp a (streams_of (tr1 ++ tr2))))) = map reply (accepted c (rt_tcp a (streams_of (tr1 ++ tr2)))).
Proof.
  intros H O NC R. pose proof (is_tnet _ _ H) as HT. pose proof (rest_net _ _ H R) as RN. rewrite streams_app in *.
  exact (TcpNetTheorems.rest_exchange bk cbk (streams_of tr1) (streams_of tr2) (qx_net w) a c b d n k id reply HT O NC RN).
Qed.
End Locks.

(** ** Runs *)
Section Runs.
Context (bk : iid -> N) (cbk : N -> N).
Lemma qtnet_run_history evs : forall tr w w' tr', qx_history bk cbk tr w -> qtnet_run bk cbk w evs = Some (w', tr') -> qx_history bk cbk (tr ++ tr') w'.
Proof.
  induction evs as [|ev evs IH]; intros tr w w' tr' H R; cbn [qtnet_run] in R.
  - injection R as <- <-. rewrite app_nil_r. exact H.
  - destruct (qtnet_step bk cbk w ev) as [[w1 x]|] eqn:ST; [|discriminate]. destruct (qtnet_run bk cbk w1 evs) as [[w2 t]|] eqn:R'; [|discriminate]. injection R as <- <-.
    change (x :: t) with ([x] ++ t). rewrite app_assoc. eapply IH; [|exact R']. eapply qx_more; eassumption.
Qed.
Lemma steps_go_net L w l w' : qx_steps bk cbk w l w' -> FairSpec.goes_to (qx_goes bk cbk L) w l w'.
Proof. induction 1 as [|w ev w1 x tr w2 S O _ IH]; [constructor|]. econstructor; [|exact IH]. split; [left; exact O|eauto]. Qed.
End Runs.
