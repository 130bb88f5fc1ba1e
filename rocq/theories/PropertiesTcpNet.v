(** Property theorems C85 and C86: any number of endpoints over TCP and the streams between them.
    [bk] and [cbk] say which entries of the shared maps share a lock: all theorems hold whatever
    they are. *)
From Coq Require Import List NArith Bool PeanoNat Lia.
From Verif Require Import BytesModel WireSpec SomeipModel SomeipSpec MapModel RuntimeModel RuntimeSpec NodeSpec
  TcpModel TcpSpec TcpNodeModel TcpNodeSpec TcpRestSpec TcpNetModel TcpNetSpec TcpNetTheorems TcpNetRestTheorems PropertiesTcpNode PropertiesTcpRest.
Import ListNotations.
Open Scope nat_scope.

(** C85.  A connection is one end of at most one stream.  One of the two ends was made by its endpoint
    to the address of the other; the other was accepted there, from that address. *)
Theorem C85_two_ends : forall bk cbk tr w a c b d, tnet_history bk cbk tr w -> joined w a c b d ->
  joined w b d a c /\ (forall b' d', joined w a c b' d' -> b' = b /\ d' = d) /\
  ((exists ok l, In (EEp ok, OSpawned c b) (rt_tcp a tr) /\ In (EAccept l a, OSpawned d a) (rt_tcp b tr)) \/
   (exists ok l, In (EEp ok, OSpawned d a) (rt_tcp b tr) /\ In (EAccept l b, OSpawned c b) (rt_tcp a tr))).
Proof. exact @joined_ends. Qed.
Print Assumptions C85_two_ends.
(** Every connection is such an end, or it was made, nobody has accepted it yet and it got nothing. *)
Theorem C85_every_end : forall bk cbk tr w a c b, tnet_history bk cbk tr w -> opened c b (rt_tcp a tr) ->
  (exists d, joined w a c b d) \/
  ((exists ok, In (EEp ok, OSpawned c b) (rt_tcp a tr)) /\ bytes_in c (at_tcp a tr) = [] /\ ~ peer_closed c (at_tcp a tr)).
Proof. exact @every_end. Qed.
Print Assumptions C85_every_end.
(** What arrives at one end is what was written at the other, as far as it has come, and the whole of
    it if the end of the stream has arrived, which it does only after the other end has stopped. *)
Theorem C85_stream : forall bk cbk tr w a c b d, tnet_history bk cbk tr w -> joined w a c b d ->
  prefix (bytes_in d (at_tcp b tr)) (bytes_out c (at_tcp a tr)).
Proof. exact @joined_prefix. Qed.
Print Assumptions C85_stream.
Theorem C85_closed : forall bk cbk tr w a c b d, tnet_history bk cbk tr w -> joined w a c b d -> peer_closed d (at_tcp b tr) ->
  bytes_in d (at_tcp b tr) = bytes_out c (at_tcp a tr) /\ ~ conn_runs (t_rt (tn_node w a)) c.
Proof. exact @joined_closed. Qed.
Print Assumptions C85_closed.
(** If every read stopped where a message stops (C76): whatever a stub or proxy is given as coming from
    an address was accepted for sending by the endpoint with that address, on the other end of the
    connection it came on; and what comes on one connection comes in the order of sending, each once. *)
Theorem C85_authentic : forall bk cbk tr w b it, tnet_history bk cbk tr w ->
  (forall a, ordinary_at a tr) -> never_cut w tr -> In it (all_got (rt_tcp b tr)) ->
  exists c, joined w (it_addr it) c b (it_conn it) /\ In (it_msg it) (accepted c (rt_tcp (it_addr it) tr)).
Proof. exact @net_authentic. Qed.
Print Assumptions C85_authentic.
Theorem C85_in_order : forall bk cbk tr w a c b d n, tnet_history bk cbk tr w ->
  ordinary_at a tr -> never_cut w tr -> joined w a c b d ->
  subseq (map it_msg (from_conn d (stub_got n (rt_tcp b tr)))) (accepted c (rt_tcp a tr)) /\
  subseq (map it_msg (from_conn d (proxy_got n (rt_tcp b tr)))) (accepted c (rt_tcp a tr)).
Proof. exact @net_in_order. Qed.
Print Assumptions C85_in_order.

(** C86.  Endpoints over TCP that are left to themselves do not go on for ever, whatever their tasks do
    in whatever order, whenever connections are accepted and however what is under way arrives. *)
Theorem C86_stops : forall bk cbk (f : nat -> tnet) tr, tnet_history bk cbk tr (f 0) ->
  ~ (forall n, changed (f n) (f (S n)) /\ exists e x, net_settles (f n) e /\ tnet_step bk cbk (f n) e = Some (f (S n), x)).
Proof. exact @net_stops. Qed.
Print Assumptions C86_stops.
(** When nothing changes any more, everything has come to rest, or an endpoint is in the deadlock of
    C60. *)
Theorem C86_stopped : forall bk cbk tr w, tnet_history bk cbk tr w ->
  (forall e w' x, net_settles w e -> tnet_step bk cbk w e = Some (w', x) -> ~ changed w w') ->
  net_at_rest tr w \/ exists a c n, jammed bk (rt_tcp a tr) (t_rt (tn_node w a)) c n.
Proof. exact @net_stopped. Qed.
Print Assumptions C86_stopped.
Theorem C86_comes_to_rest : forall bk cbk tr w, tnet_history bk cbk tr w ->
  exists tr' w', net_settling bk cbk w tr' w' /\ tnet_history bk cbk (tr ++ tr') w' /\
  (net_at_rest (tr ++ tr') w' \/ exists a c n, jammed bk (rt_tcp a (tr ++ tr')) (t_rt (tn_node w' a)) c n).
Proof. exact @net_comes_to_rest. Qed.
Print Assumptions C86_comes_to_rest.
(** At rest, a stub has been given exactly the messages for its service that the other end of a
    connection has accepted, in order, if both ends run and every read stopped where a message stops. *)
Theorem C86_all_got : forall bk cbk tr1 tr2 w a c b d n id, tnet_history bk cbk (tr1 ++ tr2) w ->
  ordinary_at a (tr1 ++ tr2) -> never_cut w (tr1 ++ tr2) -> net_at_rest (tr1 ++ tr2) w ->
  joined w a c b d -> conn_runs (t_rt (tn_node w a)) c -> conn_runs (t_rt (tn_node w b)) d ->
  served n id (rt_tcp b tr1) -> reads d (at_tcp b tr1) = [] -> stub_exists (t_rt (tn_node w b)) n -> stub_listening (t_rt (tn_node w b)) n ->
  map it_msg (from_conn d (stub_got n (rt_tcp b (tr1 ++ tr2)))) = filter (of_id id) (accepted c (rt_tcp a (tr1 ++ tr2))).
Proof. exact @rest_all_got. Qed.
Print Assumptions C86_all_got.
(** So if the program with the stub answers every message it is given with its [reply], in order, and
    sends nothing else on the connection, the proxy has been given the replies to what was sent: one for
    each, in order, and nothing else. *)
Theorem C86_exchange : forall bk cbk tr1 tr2 w a c b d n k id reply, tnet_history bk cbk (tr1 ++ tr2) w ->
  (forall e, ordinary_at e (tr1 ++ tr2)) -> never_cut w (tr1 ++ tr2) -> net_at_rest (tr1 ++ tr2) w ->
  joined w a c b d -> conn_runs (t_rt (tn_node w a)) c -> conn_runs (t_rt (tn_node w b)) d ->
  served n id (rt_tcp b tr1) -> reads d (at_tcp b tr1) = [] -> stub_exists (t_rt (tn_node w b)) n -> stub_listening (t_rt (tn_node w b)) n ->
  proxied k id b (rt_tcp a tr1) -> reads c (at_tcp a tr1) = [] -> proxy_exists (t_rt (tn_node w a)) k -> proxy_connected (t_rt (tn_node w a)) k ->
  Forall (fun m => of_id id m = true) (accepted c (rt_tcp a (tr1 ++ tr2))) -> (forall m, of_id id m = true -> of_id id (reply m) = true) ->
  accepted d (rt_tcp b (tr1 ++ tr2)) = map reply (map it_msg (from_conn d (stub_got n (rt_tcp b (tr1 ++ tr2))))) ->
  map it_msg (from_conn c (proxy_got k (rt_tcp a (tr1 ++ tr2)))) = map reply (accepted c (rt_tcp a (tr1 ++ tr2))).
Proof. exact @rest_exchange. Qed.
Print Assumptions C86_exchange.

(** Endpoint 9 serves service 1; endpoint 5 makes a proxy for it and sends it two messages, which are
    answered.  The network brings them in pieces. *)
Definition ex_setup : list tnet_event :=
  map (WRun 9) (map TRun [EServe (1%N, 1%N); EEp true; EEp true; EEp true; EEp true; EListener 0]) ++
  map (WRun 5) (map TRun [EProxy (1%N, 1%N) 9%N; EEp true; EEp true; EEp true; EEp true; ESender 0]).
Definition ex_talk : list tnet_event :=
  map (WRun 5) (ex_send (note 1 7)) ++ [WAccept 9 0 0; WRun 9 (TRun (EAcceptShare 0)); WThere 0 9; WThere 0 100] ++
  map (WRun 9) (ex_read all) ++ map (WRun 5) (ex_send (note 1 9)) ++ [WThere 0 17] ++ map (WRun 9) (ex_read all).
Definition ex_reply_to (m : msg) : list tnevent :=
  map TRun [ERecvFrom 0; ESendTo 0 5%N (ex_reply m); EStub 0 true; EStub 0 true; EStub 0 true; ESender 0] ++ [TWrite 0 all].
Definition ex_back : list tnet_event :=
  map (WRun 9) (ex_reply_to (note 1 7)) ++ map (WRun 9) (ex_reply_to (note 1 9)) ++ [WBack 0 17] ++ map (WRun 5) (ex_read all) ++
  [WBack 0 17] ++ map (WRun 5) (ex_read all) ++ map (WRun 5) (map TRun [EProxyRecv 0; EProxyRecv 0]).
(** What a schedule gives, from the start or from where the network is. *)
Definition ran (es : list tnet_event) (w : tnet) : tnet * list (N * (tnevent * tentry)) :=
  match tnet_run b0 c0 w es with Some r => r | None => (tnet_init, []) end.
Lemma ran_history es tr w : match tnet_run b0 c0 w es with Some _ => true | None => false end = true ->
  tnet_history b0 c0 tr w -> tnet_history b0 c0 (tr ++ snd (ran es w)) (fst (ran es w)).
Proof.
  unfold ran. destruct (tnet_run b0 c0 w es) as [[w' tr']|] eqn:R; [|discriminate]. intros _ H. exact (tnet_run_history _ _ _ _ _ _ _ H R).
Qed.
Lemma ran_first es : match tnet_run b0 c0 tnet_init es with Some _ => true | None => false end = true ->
  tnet_history b0 c0 (snd (ran es tnet_init)) (fst (ran es tnet_init)).
Proof. intros R. exact (ran_history es [] tnet_init R (tw_start _ _)). Qed.
Ltac value_of t E := let v := eval vm_compute in t in assert (E : t = v) by (vm_compute; reflexivity).
Definition ex_one : tnet * list (N * (tnevent * tentry)) := ran ex_setup tnet_init.
Definition ex_two : tnet * list (N * (tnevent * tentry)) := ran (ex_talk ++ ex_back) (fst ex_one).
Lemma ex_one_history : tnet_history b0 c0 (snd ex_one) (fst ex_one).
Proof. unfold ex_one. apply ran_first. vm_compute. reflexivity. Qed.
Lemma ex_two_history : tnet_history b0 c0 (snd ex_one ++ snd ex_two) (fst ex_two).
Proof. unfold ex_two. apply ran_history; [vm_compute; reflexivity|exact ex_one_history]. Qed.
Lemma ex_two_wires : tn_wires (fst ex_two) = [mkWire 5 0 9 (Some 0) [] []].
Proof. vm_compute. reflexivity. Qed.
Lemma ex_two_places b : b <> 5%N -> b <> 9%N -> ~ In b (map fst (snd ex_one ++ snd ex_two)).
Proof. value_of (map fst (snd ex_one ++ snd ex_two)) E. rewrite E. clear E. cbn. lia. Qed.
Lemma ex_two_joined a c b d : joined (fst ex_two) a c b d -> (a = 5%N /\ c = 0 /\ b = 9%N /\ d = 0) \/ (a = 9%N /\ c = 0 /\ b = 5%N /\ d = 0).
Proof.
  intros (x & I & J). rewrite ex_two_wires in I. destruct I as [<-|[]]. cbn in J.
  destruct J as [(<- & <- & <- & E)|(<- & <- & <- & E)]; injection E as <-; [left|right]; repeat split.
Qed.
Example C85_example : tnet_history b0 c0 (snd ex_one ++ snd ex_two) (fst ex_two) /\ joined (fst ex_two) 5 0 9 0 /\
  (forall a, ordinary_at a (snd ex_one ++ snd ex_two)) /\ never_cut (fst ex_two) (snd ex_one ++ snd ex_two) /\
  accepted 0 (rt_tcp 5 (snd ex_one ++ snd ex_two)) = [note 1 7; note 1 9] /\
  map it_msg (stub_got 0 (rt_tcp 9 (snd ex_one ++ snd ex_two))) = [note 1 7; note 1 9] /\
  map it_msg (all_got (rt_tcp 5 (snd ex_one ++ snd ex_two))) = [ex_reply (note 1 7); ex_reply (note 1 9)].
Proof.
  split; [exact ex_two_history|]. split; [exists (mkWire 5 0 9 (Some 0) [] []); rewrite ex_two_wires; split; [left; reflexivity|left; repeat split]|].
  value_of (rt_tcp 5 (snd ex_one ++ snd ex_two)) E5. value_of (rt_tcp 9 (snd ex_one ++ snd ex_two)) E9.
  split.
  { intros a c. destruct (N.eq_dec a 5) as [->|N5]; [|destruct (N.eq_dec a 9) as [->|N9]].
    - rewrite E5. destruct c as [|c]; [|constructor]. repeat (constructor; [apply note_ordinary; lia|]). constructor.
    - rewrite E9. destruct c as [|c]; [|constructor]. constructor; [exact (reply_ordinary 7%N eq_refl)|constructor; [exact (reply_ordinary 9%N eq_refl)|constructor]].
    - unfold rt_tcp. rewrite (not_there c0 a) by (apply ex_two_places; assumption). constructor. }
  split.
  { intros a c b d J. apply ex_two_joined in J. destruct J as [(-> & -> & -> & ->)|(-> & -> & -> & ->)].
    - rewrite E5. value_of (reads 0 (at_tcp 9 (snd ex_one ++ snd ex_two))) R. rewrite R. intros i I. cbn in I. destruct i as [|[|[|i]]]; [exists 0|exists 1|exists 2|lia]; reflexivity.
    - rewrite E9. value_of (reads 0 (at_tcp 5 (snd ex_one ++ snd ex_two))) R. rewrite R. intros i I. cbn in I. destruct i as [|[|[|i]]]; [exists 0|exists 1|exists 2|lia]; reflexivity. }
  rewrite E5, E9. repeat split.
Qed.
Lemma ex_two_rest : net_at_rest (snd ex_one ++ snd ex_two) (fst ex_two).
Proof.
  split; [intros x I _; rewrite ex_two_wires in I; destruct I as [<-|[]]; split; reflexivity|].
  split; [intros x I T; rewrite ex_two_wires in I; destruct I as [<-|[]]; discriminate T|].
  value_of (t_rt (tn_node (fst ex_two) 5)) E5. value_of (t_rt (tn_node (fst ex_two) 9)) E9.
  split.
  { intros a c b d J NR. exfalso. apply NR. apply ex_two_joined in J. destruct J as [(-> & -> & _ & _)|(-> & -> & _ & _)]; [rewrite E5|rewrite E9]; eexists; split; reflexivity. }
  intros a. destruct (N.eq_dec a 5) as [->|N5]; [|destruct (N.eq_dec a 9) as [->|N9]].
  - unfold all_read. rewrite E5. split; [ex_idle|]. intros [|[|c]] (x & X & _); [vm_compute; reflexivity|discriminate X|discriminate X].
  - unfold all_read. rewrite E9. split; [ex_idle|]. intros [|[|c]] (x & X & _); [vm_compute; reflexivity|discriminate X|discriminate X].
  - rewrite (untouched _ _ _ _ a ex_two_history) by (apply ex_two_places; assumption). split; [exact init_idle|apply init_read].
Qed.
(** With C85_example, what C86_exchange asks for, of a network that has come to rest. *)
Example C86_exchange_example : net_at_rest (snd ex_one ++ snd ex_two) (fst ex_two) /\
  conn_runs (t_rt (tn_node (fst ex_two) 5)) 0 /\ conn_runs (t_rt (tn_node (fst ex_two) 9)) 0 /\
  served 0 (1%N, 1%N) (rt_tcp 9 (snd ex_one)) /\ reads 0 (at_tcp 9 (snd ex_one)) = [] /\
  stub_exists (t_rt (tn_node (fst ex_two) 9)) 0 /\ stub_listening (t_rt (tn_node (fst ex_two) 9)) 0 /\
  proxied 0 (1%N, 1%N) 9 (rt_tcp 5 (snd ex_one)) /\ reads 0 (at_tcp 5 (snd ex_one)) = [] /\
  proxy_exists (t_rt (tn_node (fst ex_two) 5)) 0 /\ proxy_connected (t_rt (tn_node (fst ex_two) 5)) 0 /\
  Forall (fun m => of_id (1%N, 1%N) m = true) (accepted 0 (rt_tcp 5 (snd ex_one ++ snd ex_two))) /\
  (forall m, of_id (1%N, 1%N) m = true -> of_id (1%N, 1%N) (ex_reply m) = true) /\
  accepted 0 (rt_tcp 9 (snd ex_one ++ snd ex_two)) = map ex_reply (map it_msg (from_conn 0 (stub_got 0 (rt_tcp 9 (snd ex_one ++ snd ex_two))))).
Proof.
  split; [exact ex_two_rest|]. value_of (t_rt (tn_node (fst ex_two) 5)) E5. value_of (t_rt (tn_node (fst ex_two) 9)) E9. rewrite E5, E9.
  split; [eexists; split; reflexivity|]. split; [eexists; split; reflexivity|].
  value_of (rt_tcp 9 (snd ex_one)) T9. value_of (rt_tcp 5 (snd ex_one)) T5. rewrite T5, T9.
  split; [exists (EEp true); cbn; tauto|]. split; [vm_compute; reflexivity|]. split; [eexists; split; reflexivity|]. split; [repeat eexists|].
  split; [exists (EEp true); cbn; tauto|]. split; [vm_compute; reflexivity|]. split; [eexists; split; reflexivity|]. split; [repeat eexists|].
  split; [vm_compute; repeat constructor|]. split; [intros m E; exact E|]. vm_compute. reflexivity.
Qed.

(** A proxy has been asked to send.  Left to itself the network writes the message, accepts the
    connection, brings the message in two pieces and the stub is given it. *)
Definition ex_asked : tnet * list (N * (tnevent * tentry)) := ran (ex_setup ++ [WRun 5 (TRun (EProxySend 0 (note 1 7)))]) tnet_init.
Definition ex_goes_on : list tnet_event :=
  [WRun 5 (TRun (ESender 0)); WRun 5 (TWrite 0 (NotReady, None)); WRun 5 (TWrite 0 all); WAccept 9 0 0; WRun 9 (TRun (EAcceptShare 0)); WThere 0 9; WThere 0 100;
   WRun 9 (TRead 0 all); WRun 9 (TRun (ERoute 0)); WRun 9 (TRun (ERoute 0)); WRun 9 (TRun (ERecvFrom 0))].
Definition ex_settled : tnet * list (N * (tnevent * tentry)) := ran ex_goes_on (fst ex_asked).
(** Enough for a step to be one that the network takes by itself, and for a schedule to be of such
    steps; it can be computed. *)
Definition settles_enough (w : tnet) (e : tnet_event) : bool :=
  match e with
  | WRun a (TRun (ERoute _ | ESender _ | EAcceptShare _ | ERecvFrom _)) | WRun a (TWrite _ (NotReady, _) | TWrite _ (Ready, Some _)) => true
  | WRun a (TRead c (Ready, Some _)) => match nth_error (t_links (tn_node w a)) c with Some k => match t_avail (k_in k) with [] => false | _ => true end | None => false end
  | WRun _ _ => false
  | _ => true
  end.
Fixpoint all_settle (w : tnet) (es : list tnet_event) : bool :=
  match es with
  | [] => true
  | e :: es' => settles_enough w e && match tnet_step b0 c0 w e with Some (w', _) => all_settle w' es' | None => false end
  end.
Lemma enough_settles w e : settles_enough w e = true -> net_settles w e.
Proof.
  destruct e as [a e|a l i|i n|i n|i|i]; try (intros _; exact I). destruct e as [e|c d|c|c [[] [m|]]|c [[] [m|]]]; try discriminate; cbn; intros E.
  - destruct e; try discriminate E; exact I.
  - split; [right; split; [reflexivity|discriminate]|]. intros _. unfold readable. destruct (nth_error (t_links (tn_node w a)) c) as [k|]; [|discriminate E].
    exists k. split; [reflexivity|]. left. intros X. rewrite X in E. discriminate E.
  - right. split; [reflexivity|discriminate].
  - left. reflexivity.
  - left. reflexivity.
Qed.
Lemma ran_settling es : forall w, all_settle w es = true -> net_settling b0 c0 w (snd (ran es w)) (fst (ran es w)) /\ tnet_run b0 c0 w es <> None.
Proof.
  unfold ran. induction es as [|e es IH]; intros w A; [split; [constructor|discriminate]|]. cbn [all_settle] in A. apply andb_true_iff in A. destruct A as [Q A]. cbn [tnet_run].
  destruct (tnet_step b0 c0 w e) as [[w' x]|] eqn:ST; [|discriminate A]. destruct (IH w' A) as [S N].
  destruct (tnet_run b0 c0 w' es) as [[w2 tr]|] eqn:R; [|congruence]. split; [|discriminate]. cbn in *.
  eapply ns_more; [apply enough_settles; exact Q|exact ST|exact S].
Qed.
Example C86_example : tnet_history b0 c0 (snd ex_asked) (fst ex_asked) /\ net_settling b0 c0 (fst ex_asked) (snd ex_settled) (fst ex_settled) /\
  net_at_rest (snd ex_asked ++ snd ex_settled) (fst ex_settled) /\ stub_got 0 (rt_tcp 9 (snd ex_asked)) = [] /\
  map it_msg (stub_got 0 (rt_tcp 9 (snd ex_asked ++ snd ex_settled))) = [note 1 7].
Proof.
  assert (H : tnet_history b0 c0 (snd ex_asked) (fst ex_asked)) by (unfold ex_asked; apply ran_first; vm_compute; reflexivity).
  assert (H' : tnet_history b0 c0 (snd ex_asked ++ snd ex_settled) (fst ex_settled)) by (unfold ex_settled; apply ran_history; [vm_compute; reflexivity|exact H]).
  split; [exact H|]. split; [unfold ex_settled; apply ran_settling; vm_compute; reflexivity|]. split; [|split; vm_compute; reflexivity].
  assert (W : tn_wires (fst ex_settled) = [mkWire 5 0 9 (Some 0) [] []]) by (vm_compute; reflexivity).
  split; [intros x I _; rewrite W in I; destruct I as [<-|[]]; split; reflexivity|].
  split; [intros x I T; rewrite W in I; destruct I as [<-|[]]; discriminate T|].
  value_of (t_rt (tn_node (fst ex_settled) 5)) E5. value_of (t_rt (tn_node (fst ex_settled) 9)) E9.
  split.
  { intros a c b d (x & I & J) NR. exfalso. apply NR. rewrite W in I. destruct I as [<-|[]]. cbn in J.
    destruct J as [(<- & <- & _ & _)|(_ & _ & <- & E)]; [rewrite E5|injection E as <-; rewrite E9]; eexists; split; reflexivity. }
  intros a. destruct (N.eq_dec a 5) as [->|N5]; [|destruct (N.eq_dec a 9) as [->|N9]].
  - unfold all_read. rewrite E5. split; [ex_idle|]. intros [|[|c]] (x & X & _); [vm_compute; reflexivity|discriminate X|discriminate X].
  - unfold all_read. rewrite E9. split; [ex_idle|]. intros [|[|c]] (x & X & _); [vm_compute; reflexivity|discriminate X|discriminate X].
  - rewrite (untouched _ _ _ _ a H'); [split; [exact init_idle|apply init_read]|]. value_of (map fst (snd ex_asked ++ snd ex_settled)) E. rewrite E. cbn. lia.
Qed.

(** That one end of a stream has stopped does not stop the other: the stream of endpoint 5 fails, its
    end arrives at 9, everything comes to rest, and the connection of 9 still runs. *)
Definition ex_fails : list tnet_event :=
  [WRun 5 (TRead 0 (Broken, None)); WAccept 9 0 0; WRun 9 (TRun (EAcceptShare 0)); WEndThere 0; WRun 9 (TRead 0 all)].
Definition ex_half : tnet * list (N * (tnevent * tentry)) := ran ex_fails (fst ex_one).
Theorem C86_closing_refuted : exists tr w a c b d, tnet_history b0 c0 tr w /\ net_at_rest tr w /\ joined w a c b d /\
  ~ conn_runs (t_rt (tn_node w a)) c /\ peer_closed d (at_tcp b tr) /\ conn_runs (t_rt (tn_node w b)) d.
Proof.
  exists (snd ex_one ++ snd ex_half), (fst ex_half), 5%N, 0, 9%N, 0.
  assert (H : tnet_history b0 c0 (snd ex_one ++ snd ex_half) (fst ex_half)) by (unfold ex_half; apply ran_history; [vm_compute; reflexivity|exact ex_one_history]).
  assert (W : tn_wires (fst ex_half) = [mkWire 5 0 9 (Some 0) [] []]) by (vm_compute; reflexivity).
  value_of (t_rt (tn_node (fst ex_half) 5)) E5. value_of (t_rt (tn_node (fst ex_half) 9)) E9.
  assert (PC : peer_closed 0 (at_tcp 9 (snd ex_one ++ snd ex_half))).
  { value_of (at_tcp 9 (snd ex_one ++ snd ex_half)) T. rewrite T. eexists. cbn. tauto. }
  split; [exact H|]. split.
  { split; [intros x I _; rewrite W in I; destruct I as [<-|[]]; split; reflexivity|].
    split; [intros x I T; rewrite W in I; destruct I as [<-|[]]; discriminate T|].
    split.
    { intros a c b d (x & I & J) NR. rewrite W in I. destruct I as [<-|[]]. cbn in J.
      destruct J as [(<- & <- & <- & E)|(<- & <- & <- & E)]; injection E as <-; [exact PC|]. exfalso. apply NR. rewrite E9. eexists. split; reflexivity. }
    intros a. destruct (N.eq_dec a 5) as [->|N5]; [|destruct (N.eq_dec a 9) as [->|N9]].
    - unfold all_read. rewrite E5. split; [ex_idle|]. intros [|[|c]] (x & X & A); [cbn in X; injection X as <-; discriminate A|discriminate X|discriminate X].
    - unfold all_read. rewrite E9. split; [ex_idle|]. intros [|[|c]] (x & X & _); [vm_compute; reflexivity|discriminate X|discriminate X].
    - rewrite (untouched _ _ _ _ a H); [split; [exact init_idle|apply init_read]|]. value_of (map fst (snd ex_one ++ snd ex_half)) E. rewrite E. cbn. lia. }
  split; [exists (mkWire 5 0 9 (Some 0) [] []); rewrite W; split; [left; reflexivity|left; repeat split]|].
  split; [rewrite E5; intros (x & X & A); cbn in X; injection X as <-; discriminate A|]. split; [exact PC|]. rewrite E9. eexists. split; reflexivity.
Qed.
Print Assumptions C86_closing_refuted.
