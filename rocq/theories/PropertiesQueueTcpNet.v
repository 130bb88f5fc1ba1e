(** Any number of endpoints over TCP, their calls and the streams between them: C96.
    [bk] and [cbk] say which entries of the shared maps share a lock: all theorems hold whatever
    they are. *)
From Coq Require Import List NArith Bool PeanoNat Lia.
From Verif Require Import BytesModel SomeipModel SomeipSpec MapModel RuntimeModel RuntimeSpec NodeSpec TcpModel TcpSpec TcpNodeModel TcpNodeSpec TcpRestSpec TcpRestTheorems TcpNetModel TcpNetSpec
  QueueModel QueueSpec QueueTcpModel QueueTcpSpec QueueTcpTheorems QueueTcpNetModel QueueTcpNetSpec QueueTcpNetTheorems PropertiesTcpNode PropertiesTcpRest PropertiesTcpNet.
From Verif Require FairSpec RuntimeWorkTheorems TcpNetRestTheorems PropertiesQueueTcp.
Import ListNotations.
Open Scope nat_scope.

(** ** C96: in a network of endpoints over TCP every call is answered, wherever it was made *)
(** What happens at each endpoint is what C93 is about, and without the calls the whole is a network of
    C85 and C86: so what was proved of these holds here. *)
Theorem C96_endpoints : forall bk cbk tr w a, qx_history bk cbk tr w -> qt_history bk cbk (at_place a tr) (endpoint w a).
Proof. exact @at_endpoint. Qed.
Print Assumptions C96_endpoints.
Theorem C96_network : forall bk cbk tr w, qx_history bk cbk tr w -> tnet_history bk cbk (streams_of tr) (qx_net w).
Proof. exact @is_tnet. Qed.
Print Assumptions C96_network.
Theorem C96_same_events : forall tr a, at_tcp a (streams_of tr) = node_at (at_place a tr).
Proof. exact same_streams. Qed.
Print Assumptions C96_same_events.
(** Without new calls it does not go on for ever. *)
Theorem C96_stops : forall bk cbk (f : nat -> qtnet) tr, qx_history bk cbk tr (f 0) ->
  ~ (forall n, exists ev x, qx_on (f n) x (f (S n)) /\ qtnet_step bk cbk (f n) ev = Some (f (S n), x)).
Proof. exact @qx_stops. Qed.
Print Assumptions C96_stops.
(** Where it stops all is at rest, or an endpoint is in the deadlock of C60, and at rest it does stop. *)
Theorem C96_stopped : forall bk cbk tr w, qx_history bk cbk tr w -> ~ qx_can bk cbk w -> qx_rest tr w \/ qx_jammed bk tr w.
Proof. exact @qx_stopped. Qed.
Print Assumptions C96_stopped.
Theorem C96_still : forall bk cbk tr w, qx_history bk cbk tr w -> qx_rest tr w -> ~ qx_can bk cbk w.
Proof. exact @qx_still. Qed.
Print Assumptions C96_still.
Theorem C96_comes_to_rest : forall bk cbk tr w, qx_history bk cbk tr w ->
  exists tr' w', qx_steps bk cbk w tr' w' /\ qx_history bk cbk (tr ++ tr') w' /\ (qx_rest (tr ++ tr') w' \/ qx_jammed bk (tr ++ tr') w').
Proof. exact @qx_comes_to_rest. Qed.
Print Assumptions C96_comes_to_rest.
(** At rest every call was answered, at every endpoint, and the streams are at rest too. *)
Theorem C96_answered : forall bk cbk tr w, qx_history bk cbk tr w -> qx_rest tr w -> all_places_answered tr.
Proof. exact @qx_answered. Qed.
Print Assumptions C96_answered.
Theorem C96_rest : forall bk cbk tr w, qx_history bk cbk tr w -> qx_rest tr w -> net_at_rest (streams_of tr) (qx_net w).
Proof. exact @rest_net. Qed.
Print Assumptions C96_rest.
(** In every run without end that leaves nothing undone that stays possible, whatever is dropped and
    fails at finitely many endpoints. *)
Theorem C96_fair : forall bk cbk L f t, qx_fair bk cbk L f t -> qx_history bk cbk (t 0) (f 0) -> forall k, exists n, k <= n /\ qx_history bk cbk (t n) (f n) /\
  ((qx_rest (t n) (f n) /\ forall m, n <= m -> all_places_answered (t m)) \/ qx_jammed bk (t n) (f n)).
Proof. exact @qx_fair_rest. Qed.
Print Assumptions C96_fair.
Theorem C96_fair_exists : forall bk cbk L tr w l w', FairSpec.goes_to (qx_goes bk cbk L) w l w' -> qx_history bk cbk (tr ++ l) w' -> qx_rest (tr ++ l) w' ->
  exists f t, qx_fair bk cbk L f t /\ f 0 = w /\ t 0 = tr /\ forall m, length l <= m -> f m = w' /\ t m = tr ++ l.
Proof. exact @qx_fair_exists. Qed.
Print Assumptions C96_fair_exists.
(** And if both ends of a stream run and every read stopped where a message stops, a stub at one end has
    been given all that the other end has accepted for it, in order, ... *)
Theorem C96_requests : forall bk cbk tr1 tr2 w a c b d n id, qx_history bk cbk (tr1 ++ tr2) w ->
  ordinary_at a (streams_of (tr1 ++ tr2)) -> never_cut (qx_net w) (streams_of (tr1 ++ tr2)) -> qx_rest (tr1 ++ tr2) w ->
  joined (qx_net w) a c b d -> conn_runs (t_rt (tn_node (qx_net w) a)) c -> conn_runs (t_rt (tn_node (qx_net w) b)) d ->
  served n id (rt_tcp b (streams_of tr1)) -> reads d (at_tcp b (streams_of tr1)) = [] ->
  stub_exists (t_rt (tn_node (qx_net w) b)) n -> stub_listening (t_rt (tn_node (qx_net w) b)) n ->
  map it_msg (from_conn d (stub_got n (rt_tcp b (streams_of (tr1 ++ tr2))))) = filter (of_id id) (accepted c (rt_tcp a (streams_of (tr1 ++ tr2)))).
Proof. exact @qx_requests. Qed.
Print Assumptions C96_requests.
(** ... and a proxy the replies to all it has sent. *)
Theorem C96_exchange : forall bk cbk tr1 tr2 w a c b d n k id reply, qx_history bk cbk (tr1 ++ tr2) w ->
  (forall e, ordinary_at e (streams_of (tr1 ++ tr2))) -> never_cut (qx_net w) (streams_of (tr1 ++ tr2)) -> qx_rest (tr1 ++ tr2) w ->
  joined (qx_net w) a c b d -> conn_runs (t_rt (tn_node (qx_net w) a)) c -> conn_runs (t_rt (tn_node (qx_net w) b)) d ->
  served n id (rt_tcp b (streams_of tr1)) -> reads d (at_tcp b (streams_of tr1)) = [] ->
  stub_exists (t_rt (tn_node (qx_net w) b)) n -> stub_listening (t_rt (tn_node (qx_net w) b)) n ->
  proxied k id b (rt_tcp a (streams_of tr1)) -> reads c (at_tcp a (streams_of tr1)) = [] ->
  proxy_exists (t_rt (tn_node (qx_net w) a)) k -> proxy_connected (t_rt (tn_node (qx_net w) a)) k ->
  Forall (fun m => of_id id m = true) (accepted c (rt_tcp a (streams_of (tr1 ++ tr2)))) -> (forall m, of_id id m = true -> of_id id (reply m) = true) ->
  accepted d (rt_tcp b (streams_of (tr1 ++ tr2))) = map reply (map it_msg (from_conn d (stub_got n (rt_tcp b (streams_of (tr1 ++ tr2)))))) ->
  map it_msg (from_conn c (proxy_got k (rt_tcp a (streams_of (tr1 ++ tr2))))) = map reply (accepted c (rt_tcp a (streams_of (tr1 ++ tr2)))).
Proof. exact @qx_exchange. Qed.
Print Assumptions C96_exchange.

(** ** Examples *)
(** What a schedule gives, and enough for its steps to be steps that the network takes by itself. *)
Definition ranx (es : list qxevent) (w : qtnet) : qtnet * list qxentry := match qtnet_run b0 c0 w es with Some r => r | None => (qtnet_init, []) end.
Definition runs (es : list qxevent) (w : qtnet) : bool := match qtnet_run b0 c0 w es with Some _ => true | None => false end.
Lemma ranx_history es tr w : runs es w = true -> qx_history b0 c0 tr w -> qx_history b0 c0 (tr ++ snd (ranx es w)) (fst (ranx es w)).
Proof. unfold runs, ranx. destruct (qtnet_run b0 c0 w es) as [[w' tr']|] eqn:R; [|discriminate]. intros _ H. exact (qtnet_run_history _ _ _ _ _ _ _ H R). Qed.
Lemma ranx_first es : runs es qtnet_init = true -> qx_history b0 c0 (snd (ranx es qtnet_init)) (fst (ranx es qtnet_init)).
Proof. intros R. exact (ranx_history es [] qtnet_init R (qx_start _ _)). Qed.
Definition coop (e : event) : bool :=
  match e with ERoute _ | ESender _ | ESocket _ true | EEp true | ETake _ true | EListener _ | EAcceptShare _ | EStub _ true | ERecvFrom _ | EProxyRecv _ => true | _ => false end.
Definition moved (w w' : qtnet) (a : N) : bool :=
  negb (Nat.eqb (RuntimeWorkTheorems.total TcpNetRestTheorems.flight_w (tn_wires (qx_net w'))) (RuntimeWorkTheorems.total TcpNetRestTheorems.flight_w (tn_wires (qx_net w)))) ||
  negb (Nat.eqb (unreads (tn_node (qx_net w') a)) (unreads (tn_node (qx_net w) a))) || negb (Nat.eqb (unsent (tn_node (qx_net w') a)) (unsent (tn_node (qx_net w) a))).
Definition on_enough (w : qtnet) (x : qxentry) (w' : qtnet) : bool :=
  match fst (snd x) with
  | AtCalls (QRun (EAccept _ _)) => true
  | AtCalls _ => match qtl_call (snd (snd x)) with
      | Some (QEnter _, _, _) | Some (QTake, _, _) | Some (QGo true, _, _) | Some (QReturn _, _, _) => true
      | Some (QRun e, o, l) => coop e && acts (QRun e, o, l)
      | _ => false end
  | AtStream e => (from_network e || settles_enough (qx_net w) (WRun (fst x) e)) && moved w w' (fst x)
  end.
Lemma moved_changed w w' a : moved w w' a = true -> changed (qx_net w) (qx_net w').
Proof.
  unfold moved. rewrite !orb_true_iff, !negb_true_iff, !Nat.eqb_neq. intros [[K|K]|K]; [left|right; exists a|right; exists a]; intros E; rewrite E in K; congruence.
Qed.
Lemma enough_on w x w' : on_enough w x w' = true -> qx_on w x w'.
Proof.
  unfold on_enough, qx_on. destruct (fst (snd x)) as [y|e].
  - intros K. assert (G : match y with QRun (EAccept _ _) => False | _ => True end -> match qtl_call (snd (snd x)) with Some l => goes_on l | None => False end).
    { intros N. assert (K' : match qtl_call (snd (snd x)) with
      | Some (QEnter _, _, _) | Some (QTake, _, _) | Some (QGo true, _, _) | Some (QReturn _, _, _) => true
      | Some (QRun e, o, l) => coop e && acts (QRun e, o, l)
      | _ => false end = true) by (destruct y as [| | | | | | | |[]]; try exact K; contradiction N). clear K.
      destruct (qtl_call (snd (snd x))) as [[[z o] l]|]; [|discriminate K']. destruct z as [| | |[]| | | | |e]; try discriminate K'; try exact I.
      apply andb_true_iff in K'. destruct K' as [C A]. split; [|exact A]. destruct e; try discriminate C; try destruct ok; try discriminate C; exact I. }
    destruct y as [| | | | | | | |[]]; try exact (G I); exact I.
  - intros K. apply andb_true_iff in K. destruct K as [K M]. split; [|exact (moved_changed _ _ _ M)]. apply orb_true_iff in K. destruct K as [K|K]; [left; exact K|right; exact (enough_settles _ _ K)].
Qed.
Fixpoint all_on (w : qtnet) (es : list qxevent) : bool :=
  match es with
  | [] => true
  | e :: es' => match qtnet_step b0 c0 w e with Some (w', x) => on_enough w x w' && all_on w' es' | None => false end
  end.
Lemma ranx_steps es : forall w, all_on w es = true -> qx_steps b0 c0 w (snd (ranx es w)) (fst (ranx es w)) /\ runs es w = true.
Proof.
  unfold ranx, runs. induction es as [|e es IH]; intros w A; [split; [constructor|reflexivity]|]. cbn [all_on] in A. cbn [qtnet_run].
  destruct (qtnet_step b0 c0 w e) as [[w' x]|] eqn:ST; [|discriminate A]. apply andb_true_iff in A. destruct A as [O A]. destruct (IH w' A) as [S N].
  destruct (qtnet_run b0 c0 w' es) as [[w2 tr]|] eqn:R; [|discriminate N]. split; [|reflexivity]. cbn in *. econstructor; [exact ST|exact (enough_on _ _ _ O)|exact S].
Qed.
(** Endpoint 5 has a proxy for an interface of endpoint 9, was asked to send a message with it and calls
    [serve]; endpoint 9 is only called to serve.  Left to themselves both calls return, and the message
    is written, brought in two pieces, and the stub gets it. *)
Definition ex_asks : list qxevent :=
  map (XCalls 5) [QCall (1%N, 1%N) (Some 9%N); QEnter (FCall 0); QTake; QGo true; QGo true; QGo true; QGo true; QReturn 0; QRun (ESender 0); QRun (EProxySend 0 (note 1 7)); QCall (4%N, 1%N) None] ++
  map (XCalls 9) [QCall (1%N, 1%N) None; QEnter (FCall 0)].
Definition ex_goes : list qxevent :=
  map (XCalls 9) [QTake; QGo true; QGo true; QGo true; QGo true; QReturn 0; QRun (EListener 0)] ++
  map (XCalls 5) [QRun (ESender 0); QEnter (FCall 1); QTake; QGo true] ++
  [XStreams (WRun 5 (TWrite 0 all)); XStreams (WAccept 9 0 0); XCalls 9 (QRun (EAcceptShare 0)); XStreams (WThere 0 9); XStreams (WThere 0 100); XStreams (WRun 9 (TRead 0 all));
   XCalls 9 (QRun (ERoute 0)); XCalls 9 (QRun (ERoute 0)); XCalls 9 (QRun (ERecvFrom 0))] ++
  map (XCalls 5) [QGo true; QGo true; QGo true; QReturn 1; QRun (EListener 0)].
Definition ex_a : qtnet * list qxentry := ranx ex_asks qtnet_init.
Definition ex_b : qtnet * list qxentry := ranx ex_goes (fst ex_a).
Ltac at_place_of x := let c := fresh in let X := fresh in intros c (? & X & _); PropertiesQueueTcp.ex_pick c X; vm_compute; reflexivity.
Lemma ex_elsewhere tr w a L : qx_history b0 c0 tr w -> nodup N.eq_dec (map fst tr) = L -> ~ In a L -> qt_rest (at_place a tr) (endpoint w a).
Proof.
  intros H <- NI. rewrite nodup_In in NI. assert (E : at_place a tr = []).
  { clear H. induction tr as [|[b p] tr IH]; [reflexivity|]. cbn in *. destruct (N.eqb_spec b a) as [->|]; [destruct NI; left; reflexivity|]. apply IH. tauto. }
  pose proof (at_endpoint _ _ _ _ a H) as HA. rewrite E in *. remember (endpoint w a) as j eqn:J. inversion HA as [E1 E2|? ? ? ? ? ? ? E1]; [apply init_rest|]. destruct (app_cons_not_nil _ _ _ (eq_sym E1)).
Qed.
Lemma ex_a_history : qx_history b0 c0 (snd ex_a) (fst ex_a).
Proof. unfold ex_a. apply ranx_first. vm_compute. reflexivity. Qed.
Lemma ex_b_steps : qx_steps b0 c0 (fst ex_a) (snd ex_b) (fst ex_b).
Proof. unfold ex_b. apply ranx_steps. vm_compute. reflexivity. Qed.
Lemma ex_b_history : qx_history b0 c0 (snd ex_a ++ snd ex_b) (fst ex_b).
Proof. unfold ex_b. apply ranx_history; [vm_compute; reflexivity|exact ex_a_history]. Qed.
Example C96_example : qx_history b0 c0 (snd ex_a) (fst ex_a) /\ ~ answered_all (at_place 5 (snd ex_a)) /\ ~ answered_all (at_place 9 (snd ex_a)) /\
  qx_steps b0 c0 (fst ex_a) (snd ex_b) (fst ex_b) /\ qx_history b0 c0 (snd ex_a ++ snd ex_b) (fst ex_b) /\ qx_rest (snd ex_a ++ snd ex_b) (fst ex_b) /\
  In (MReturned (OStub 0 (1%N, 1%N))) (life 0 (calls_at (at_place 9 (snd ex_a ++ snd ex_b)))) /\
  In (MReturned (OStub 0 (4%N, 1%N))) (life 1 (calls_at (at_place 5 (snd ex_a ++ snd ex_b)))) /\
  map it_msg (stub_got 0 (rt_tcp 9 (streams_of (snd ex_a ++ snd ex_b)))) = [note 1 7].
Proof.
  pose proof ex_a_history as H. pose proof ex_b_steps as S. pose proof ex_b_history as H'.
  split; [exact H|]. split.
  { value_of (life 1 (calls_at (at_place 5 (snd ex_a)))) E. intros A. specialize (A 1 (4%N, 1%N) None). rewrite E in A. clear -A.
    destruct A as (o & K & _); [cbn; tauto|cbn; intuition discriminate|]. cbn in K. intuition discriminate. }
  split.
  { value_of (life 0 (calls_at (at_place 9 (snd ex_a)))) E. intros A. specialize (A 0 (1%N, 1%N) None). rewrite E in A. clear -A.
    destruct A as (o & K & _); [cbn; tauto|cbn; intuition discriminate|]. cbn in K. intuition discriminate. }
  split; [exact S|]. split; [exact H'|].
  assert (W : tn_wires (qx_net (fst ex_b)) = [mkWire 5 0 9 (Some 0) [] []]) by (vm_compute; reflexivity).
  value_of (t_rt (tn_node (qx_net (fst ex_b)) 5)) E5. value_of (t_rt (tn_node (qx_net (fst ex_b)) 9)) E9.
  split.
  { split; [intros x I _; rewrite W in I; destruct I as [<-|[]]; split; reflexivity|].
    split; [intros x I T; rewrite W in I; destruct I as [<-|[]]; discriminate T|]. split.
    { intros a c b d (x & I & J) NR. exfalso. apply NR. rewrite W in I. destruct I as [<-|[]]. cbn in J.
      destruct J as [(<- & <- & _ & _)|(_ & _ & <- & E)]; [rewrite E5|injection E as <-; rewrite E9]; eexists; split; reflexivity. }
    value_of (qx_calls (fst ex_b) 5%N) Q5. value_of (qx_calls (fst ex_b) 9%N) Q9.
    intros a. destruct (N.eq_dec a 5) as [->|N5]; [|destruct (N.eq_dec a 9) as [->|N9]].
    - constructor; [cbn [endpoint qt_calls]; rewrite Q5; PropertiesQueueTcp.ex_ease|]. unfold all_read. cbn [endpoint qt_node]. rewrite E5. at_place_of tt.
    - constructor; [cbn [endpoint qt_calls]; rewrite Q9; PropertiesQueueTcp.ex_ease|]. unfold all_read. cbn [endpoint qt_node]. rewrite E9. at_place_of tt.
    - eapply ex_elsewhere; [exact H'|vm_compute; reflexivity|]. cbn. intuition congruence. }
  value_of (life 0 (calls_at (at_place 9 (snd ex_a ++ snd ex_b)))) L9. value_of (life 1 (calls_at (at_place 5 (snd ex_a ++ snd ex_b)))) L5. rewrite L9, L5.
  split; [cbn; tauto|]. split; [cbn; tauto|]. vm_compute. reflexivity.
Qed.
(** The same in a run without end. *)
Example C96_fair_example : exists f t, qx_fair b0 c0 [] f t /\ qx_history b0 c0 (t 0) (f 0) /\ ~ all_places_answered (t 0) /\
  exists n, qx_rest (t n) (f n) /\ all_places_answered (t n).
Proof.
  destruct C96_example as (H & N & _ & S & H' & R & _).
  pose proof (steps_go_net b0 c0 [] _ _ _ S) as G. destruct (qx_fair_exists _ _ _ _ _ _ _ G H' R) as (f & t & F & F0 & T0 & E).
  exists f, t. split; [exact F|]. rewrite F0, T0. split; [exact H|]. split; [intros A; exact (N (A 5%N))|]. exists (length (snd ex_b)). destruct (E _ (Nat.le_refl _)) as [-> ->].
  split; [exact R|]. eapply qx_answered; eassumption.
Qed.
(** The exchange of C86, with the calls: 9 serves, 5 asks twice and is answered twice. *)
Definition ex_begin : list qxevent :=
  map (XCalls 9) [QCall (1%N, 1%N) None; QEnter (FCall 0); QTake; QGo true; QGo true; QGo true; QGo true; QReturn 0; QRun (EListener 0)] ++
  map (XCalls 5) [QCall (1%N, 1%N) (Some 9%N); QEnter (FCall 0); QTake; QGo true; QGo true; QGo true; QGo true; QReturn 0; QRun (ESender 0)].
Definition as_calls (e : tnet_event) : qxevent := match e with WRun a (TRun f) => XCalls a (QRun f) | _ => XStreams e end.
Definition ex_c : qtnet * list qxentry := ranx ex_begin qtnet_init.
Definition ex_d : qtnet * list qxentry := ranx (map as_calls (ex_talk ++ ex_back)) (fst ex_c).
Lemma ex_d_same : qx_history b0 c0 (snd ex_c ++ snd ex_d) (fst ex_d) /\ qx_rest (snd ex_c ++ snd ex_d) (fst ex_d) /\ tn_wires (qx_net (fst ex_d)) = [mkWire 5 0 9 (Some 0) [] []].
Proof.
  assert (H : qx_history b0 c0 (snd ex_c) (fst ex_c)) by (unfold ex_c; apply ranx_first; vm_compute; reflexivity).
  assert (H' : qx_history b0 c0 (snd ex_c ++ snd ex_d) (fst ex_d)) by (unfold ex_d; apply ranx_history; [vm_compute; reflexivity|exact H]).
  split; [exact H'|].
  assert (W : tn_wires (qx_net (fst ex_d)) = [mkWire 5 0 9 (Some 0) [] []]) by (vm_compute; reflexivity). split; [|exact W].
  value_of (t_rt (tn_node (qx_net (fst ex_d)) 5)) E5. value_of (t_rt (tn_node (qx_net (fst ex_d)) 9)) E9.
  split; [intros x I _; rewrite W in I; destruct I as [<-|[]]; split; reflexivity|].
  split; [intros x I T; rewrite W in I; destruct I as [<-|[]]; discriminate T|]. split.
  { intros a c b d (x & I & J) NR. exfalso. apply NR. rewrite W in I. destruct I as [<-|[]]. cbn in J.
    destruct J as [(<- & <- & _ & _)|(_ & _ & <- & E)]; [rewrite E5|injection E as <-; rewrite E9]; eexists; split; reflexivity. }
  value_of (qx_calls (fst ex_d) 5%N) Q5. value_of (qx_calls (fst ex_d) 9%N) Q9.
  intros a. destruct (N.eq_dec a 5) as [->|N5]; [|destruct (N.eq_dec a 9) as [->|N9]].
  - constructor; [cbn [endpoint qt_calls]; rewrite Q5; PropertiesQueueTcp.ex_ease|]. unfold all_read. cbn [endpoint qt_node]. rewrite E5. at_place_of tt.
  - constructor; [cbn [endpoint qt_calls]; rewrite Q9; PropertiesQueueTcp.ex_ease|]. unfold all_read. cbn [endpoint qt_node]. rewrite E9. at_place_of tt.
  - eapply ex_elsewhere; [exact H'|vm_compute; reflexivity|]. cbn. intuition congruence.
Qed.
Example C96_exchange_example : qx_history b0 c0 (snd ex_c ++ snd ex_d) (fst ex_d) /\ qx_rest (snd ex_c ++ snd ex_d) (fst ex_d) /\
  (forall a, ordinary_at a (streams_of (snd ex_c ++ snd ex_d))) /\ never_cut (qx_net (fst ex_d)) (streams_of (snd ex_c ++ snd ex_d)) /\
  joined (qx_net (fst ex_d)) 5 0 9 0 /\ conn_runs (t_rt (tn_node (qx_net (fst ex_d)) 5)) 0 /\ conn_runs (t_rt (tn_node (qx_net (fst ex_d)) 9)) 0 /\
  served 0 (1%N, 1%N) (rt_tcp 9 (streams_of (snd ex_c))) /\ reads 0 (at_tcp 9 (streams_of (snd ex_c))) = [] /\
  stub_exists (t_rt (tn_node (qx_net (fst ex_d)) 9)) 0 /\ stub_listening (t_rt (tn_node (qx_net (fst ex_d)) 9)) 0 /\
  proxied 0 (1%N, 1%N) 9 (rt_tcp 5 (streams_of (snd ex_c))) /\ reads 0 (at_tcp 5 (streams_of (snd ex_c))) = [] /\
  proxy_exists (t_rt (tn_node (qx_net (fst ex_d)) 5)) 0 /\ proxy_connected (t_rt (tn_node (qx_net (fst ex_d)) 5)) 0 /\
  Forall (fun m => of_id (1%N, 1%N) m = true) (accepted 0 (rt_tcp 5 (streams_of (snd ex_c ++ snd ex_d)))) /\
  (forall m, of_id (1%N, 1%N) m = true -> of_id (1%N, 1%N) (ex_reply m) = true) /\
  accepted 0 (rt_tcp 9 (streams_of (snd ex_c ++ snd ex_d))) = map ex_reply (map it_msg (from_conn 0 (stub_got 0 (rt_tcp 9 (streams_of (snd ex_c ++ snd ex_d)))))) /\
  length (from_conn 0 (proxy_got 0 (rt_tcp 5 (streams_of (snd ex_c ++ snd ex_d))))) = 2.
Proof.
  destruct ex_d_same as (H & R & W). split; [exact H|]. split; [exact R|].
  value_of (rt_tcp 5 (streams_of (snd ex_c ++ snd ex_d))) E5. value_of (rt_tcp 9 (streams_of (snd ex_c ++ snd ex_d))) E9.
  split.
  { intros a c. destruct (N.eq_dec a 5) as [->|N5]; [|destruct (N.eq_dec a 9) as [->|N9]].
    - rewrite E5. destruct c as [|c]; [|constructor]. repeat (constructor; [apply note_ordinary; lia|]). constructor.
    - rewrite E9. destruct c as [|c]; [|constructor]. constructor; [exact (reply_ordinary 7%N eq_refl)|constructor; [exact (reply_ordinary 9%N eq_refl)|constructor]].
    - unfold rt_tcp. rewrite (TcpNetRestTheorems.not_there c0 a); [constructor|]. value_of (map fst (streams_of (snd ex_c ++ snd ex_d))) E. rewrite E. clear -N5 N9. cbn. lia. }
  split.
  { intros a c b d (x & I & J). rewrite W in I. destruct I as [<-|[]]. cbn in J.
    destruct J as [(<- & <- & <- & E)|(<- & <- & <- & E)]; injection E as <-.
    - rewrite E5. value_of (reads 0 (at_tcp 9 (streams_of (snd ex_c ++ snd ex_d)))) RD. rewrite RD. intros i I. cbn in I. destruct i as [|[|[|i]]]; [exists 0|exists 1|exists 2|lia]; reflexivity.
    - rewrite E9. value_of (reads 0 (at_tcp 5 (streams_of (snd ex_c ++ snd ex_d)))) RD. rewrite RD. intros i I. cbn in I. destruct i as [|[|[|i]]]; [exists 0|exists 1|exists 2|lia]; reflexivity. }
  split; [exists (mkWire 5 0 9 (Some 0) [] []); rewrite W; split; [left; reflexivity|left; repeat split]|].
  value_of (t_rt (tn_node (qx_net (fst ex_d)) 5)) R5. value_of (t_rt (tn_node (qx_net (fst ex_d)) 9)) R9. rewrite R5, R9.
  split; [eexists; split; reflexivity|]. split; [eexists; split; reflexivity|].
  value_of (rt_tcp 9 (streams_of (snd ex_c))) T9. value_of (rt_tcp 5 (streams_of (snd ex_c))) T5. rewrite T5, T9.
  split; [exists (EEp true); cbn; tauto|]. split; [vm_compute; reflexivity|]. split; [eexists; split; reflexivity|]. split; [repeat eexists|].
  split; [exists (EEp true); cbn; tauto|]. split; [vm_compute; reflexivity|]. split; [eexists; split; reflexivity|]. split; [repeat eexists|].
  rewrite E5, E9. split; [repeat constructor|]. split; [intros m E; exact E|]. split; reflexivity.
Qed.
