(** Any number of endpoints over TCP and the streams between them under load that does not end: C99. *)
From Coq Require Import List NArith Bool PeanoNat Lia.
From Verif Require Import BytesModel SomeipModel SomeipSpec MapModel RuntimeModel RuntimeSpec NodeSpec TcpModel TcpSpec TcpNodeModel TcpNodeSpec TcpNetModel TcpNetSpec
  QueueModel QueueSpec QueueTcpModel QueueTcpSpec QueueTcpNetModel QueueTcpNetSpec QueueTcpNetTheorems LoadSpec LoadTheorems LoadTcpSpec LoadTcpTheorems LoadNetSpec LoadNetTheorems
  PropertiesTcpNode PropertiesTcpRest PropertiesTcpNet PropertiesQueueTcpNet.
From Verif Require QueueTcpTheorems TcpNetTheorems.
Import ListNotations.
Open Scope nat_scope.

(** ** C99: what is sent over TCP is delivered under load that does not end *)
(** What happens at each endpoint is what C98 is about. *)
Theorem C99_endpoints : forall bk cbk f t a, net_load bk cbk f t -> tcp_load bk cbk (fun n => endpoint (f n) a) (fun n => at_place a (t n)).
Proof. intros bk cbk f t a R. exact (load_at bk cbk f t R a). Qed.
Print Assumptions C99_endpoints.

Theorem C99_returns : forall bk cbk f t a u n id to, net_load bk cbk f t -> qx_history bk cbk (t 0) (f 0) -> In (MMade id to) (life u (calls_at (at_place a (t n)))) ->
  (exists m, n <= m /\ (In MDropped (life u (calls_at (at_place a (t m)))) \/ exists o, In (MReturned o) (life u (calls_at (at_place a (t m)))) /\ fits id to o)) \/
  tcp_unread (fun n => endpoint (f n) a) (fun n => at_place a (t n)).
Proof.
  intros bk cbk f t a u n id to R H. pose proof (load_at bk cbk f t R a) as RA. pose proof (at_endpoint _ _ _ _ a H) as HA.
  exact (returns bk cbk false _ _ (seen_run bk cbk _ _ RA HA) (proj1 (QueueTcpTheorems.halves _ _ _ _ HA)) u n id to).
Qed.
Print Assumptions C99_returns.

(** What was written at one end of a stream arrives at the other, ... *)
Theorem C99_arrives : forall bk cbk f t a c b d N, net_load bk cbk f t -> qx_history bk cbk (t 0) (f 0) -> joined (qx_net (f N)) a c b d ->
  exists m, N <= m /\ exists rest, bytes_in d (at_tcp b (streams_of (t m))) = bytes_out c (at_tcp a (streams_of (t N))) ++ rest.
Proof. intros bk cbk f t a c b d N R H. exact (arrives_on bk cbk f t R H a c b d N). Qed.
Print Assumptions C99_arrives.

(** ... what was accepted at one end is read at the other, ... *)
Theorem C99_read : forall bk cbk f t a c b d N, net_load bk cbk f t -> qx_history bk cbk (t 0) (f 0) -> joined (qx_net (f N)) a c b d ->
  (exists m, N <= m /\ exists rest, concat (reads d (at_tcp b (streams_of (t m)))) = concat (map encode (accepted c (rt_tcp a (streams_of (t N))))) ++ rest) \/
  (exists m, N <= m /\ (~ conn_runs (t_rt (tn_node (qx_net (f m)) a)) c \/ ~ conn_runs (t_rt (tn_node (qx_net (f m)) b)) d)) \/ unread_at f t b d.
Proof. intros bk cbk f t a c b d N R H. exact (read_on bk cbk f t R H a c b d N). Qed.
Print Assumptions C99_read.

(** ... and if every read stops where a message stops, a stub there is given it, in order, ... *)
Theorem C99_requests : forall bk cbk f t a c b d n id K N, net_load bk cbk f t -> qx_history bk cbk (t 0) (f 0) -> K <= N -> joined (qx_net (f N)) a c b d ->
  served n id (rt_tcp b (streams_of (t K))) -> reads d (at_tcp b (streams_of (t K))) = [] ->
  (forall m, N <= m -> stub_exists (t_rt (tn_node (qx_net (f m)) b)) n /\ stub_listening (t_rt (tn_node (qx_net (f m)) b)) n) ->
  (forall m, N <= m -> ordinary_at a (streams_of (t m)) /\ never_cut (qx_net (f m)) (streams_of (t m))) ->
  (exists m, N <= m /\ exists more, map it_msg (from_conn d (stub_got n (rt_tcp b (streams_of (t m))) ++ stub_backlog (t_rt (tn_node (qx_net (f m)) b)) n)) =
    filter (of_id id) (accepted c (rt_tcp a (streams_of (t N)))) ++ more) \/
  (exists m, N <= m /\ (~ conn_runs (t_rt (tn_node (qx_net (f m)) a)) c \/ ~ conn_runs (t_rt (tn_node (qx_net (f m)) b)) d)) \/ unread_at f t b d.
Proof. intros bk cbk f t a c b d n id K N R H. exact (requests_on bk cbk f t R H a c b d n id K N). Qed.
Print Assumptions C99_requests.

(** ... and so is a proxy for the other end. *)
Theorem C99_replies : forall bk cbk f t a c b d n id K N, net_load bk cbk f t -> qx_history bk cbk (t 0) (f 0) -> K <= N -> joined (qx_net (f N)) a c b d ->
  proxied n id a (rt_tcp b (streams_of (t K))) -> reads d (at_tcp b (streams_of (t K))) = [] ->
  (forall m, N <= m -> proxy_exists (t_rt (tn_node (qx_net (f m)) b)) n /\ proxy_connected (t_rt (tn_node (qx_net (f m)) b)) n) ->
  (forall m, N <= m -> ordinary_at a (streams_of (t m)) /\ never_cut (qx_net (f m)) (streams_of (t m))) ->
  (exists m, N <= m /\ exists more, map it_msg (from_conn d (proxy_got n (rt_tcp b (streams_of (t m))) ++ proxy_backlog (t_rt (tn_node (qx_net (f m)) b)) n)) =
    filter (of_id id) (accepted c (rt_tcp a (streams_of (t N)))) ++ more) \/
  (exists m, N <= m /\ (~ conn_runs (t_rt (tn_node (qx_net (f m)) a)) c \/ ~ conn_runs (t_rt (tn_node (qx_net (f m)) b)) d)) \/ unread_at f t b d.
Proof. intros bk cbk f t a c b d n id K N R H. exact (replies_on bk cbk f t R H a c b d n id K N). Qed.
Print Assumptions C99_replies.

(** If what waits at the stub is received again and again, all of it is received from the stub, in order, ... *)
Theorem C99_requests_received : forall bk cbk f t a c b d n id K N, net_load bk cbk f t -> qx_history bk cbk (t 0) (f 0) -> K <= N -> joined (qx_net (f N)) a c b d ->
  served n id (rt_tcp b (streams_of (t K))) -> reads d (at_tcp b (streams_of (t K))) = [] ->
  (forall m, N <= m -> stub_exists (t_rt (tn_node (qx_net (f m)) b)) n /\ stub_listening (t_rt (tn_node (qx_net (f m)) b)) n) ->
  (forall m, N <= m -> ordinary_at a (streams_of (t m)) /\ never_cut (qx_net (f m)) (streams_of (t m))) ->
  stub_emptied f t b n N ->
  (exists m, N <= m /\ exists more, map it_msg (from_conn d (stub_got n (rt_tcp b (streams_of (t m))))) =
    filter (of_id id) (accepted c (rt_tcp a (streams_of (t N)))) ++ more) \/
  (exists m, N <= m /\ (~ conn_runs (t_rt (tn_node (qx_net (f m)) a)) c \/ ~ conn_runs (t_rt (tn_node (qx_net (f m)) b)) d)) \/ unread_at f t b d.
Proof. intros bk cbk f t a c b d n id K N R H. exact (requests_received bk cbk f t R H a c b d n id K N). Qed.
Print Assumptions C99_requests_received.

(** ... and the same for the proxy. *)
Theorem C99_replies_received : forall bk cbk f t a c b d n id K N, net_load bk cbk f t -> qx_history bk cbk (t 0) (f 0) -> K <= N -> joined (qx_net (f N)) a c b d ->
  proxied n id a (rt_tcp b (streams_of (t K))) -> reads d (at_tcp b (streams_of (t K))) = [] ->
  (forall m, N <= m -> proxy_exists (t_rt (tn_node (qx_net (f m)) b)) n /\ proxy_connected (t_rt (tn_node (qx_net (f m)) b)) n) ->
  (forall m, N <= m -> ordinary_at a (streams_of (t m)) /\ never_cut (qx_net (f m)) (streams_of (t m))) ->
  proxy_emptied f t b d n N ->
  (exists m, N <= m /\ exists more, map it_msg (from_conn d (proxy_got n (rt_tcp b (streams_of (t m))))) =
    filter (of_id id) (accepted c (rt_tcp a (streams_of (t N)))) ++ more) \/
  (exists m, N <= m /\ (~ conn_runs (t_rt (tn_node (qx_net (f m)) a)) c \/ ~ conn_runs (t_rt (tn_node (qx_net (f m)) b)) d)) \/ unread_at f t b d.
Proof. intros bk cbk f t a c b d n id K N R H. exact (replies_received bk cbk f t R H a c b d n id K N). Qed.
Print Assumptions C99_replies_received.

(** ** Examples *)
(** 9 serves, 5 has a proxy for it and a message was accepted; it is written in two parts and brought in
    two, the stub gets it and answers, and the proxy is given the answer, which is
    received from it. *)
Definition lx_start : list qxevent := ex_begin ++ [XStreams (WAccept 9 0 0); XCalls 9 (QRun (EAcceptShare 0)); XCalls 5 (QRun (EProxySend 0 (note 1 7)))].
Definition lx_rest : list qxevent :=
  [XCalls 5 (QRun (ESender 0)); XStreams (WRun 5 (TWrite 0 (Ready, Some 10))); XStreams (WRun 5 (TWrite 0 all)); XStreams (WThere 0 9); XStreams (WThere 0 100); XStreams (WRun 9 (TRead 0 all))] ++
  map (XCalls 9) (map QRun [ERoute 0; ERoute 0; ERecvFrom 0; ESendTo 0 5%N (ex_reply (note 1 7)); EStub 0 true; EStub 0 true; EStub 0 true; ESender 0]) ++
  [XStreams (WRun 9 (TWrite 0 all)); XStreams (WBack 0 17); XStreams (WRun 5 (TRead 0 all)); XCalls 5 (QRun (ERoute 0)); XCalls 5 (QRun (ERoute 0)); XCalls 5 (QRun (EProxyRecv 0))].
Definition lx_a : qtnet * list qxentry := ranx lx_start qtnet_init.
Definition lx_f (n : nat) : qtnet := fst (ranx (firstn n lx_rest) (fst lx_a)).
Definition lx_t (n : nat) : list qxentry := snd lx_a ++ snd (ranx (firstn n lx_rest) (fst lx_a)).
Lemma lx_after n : 20 <= n -> lx_f n = lx_f 20 /\ lx_t n = lx_t 20.
Proof. intros L. unfold lx_f, lx_t. rewrite (firstn_all2 lx_rest) by (cbn; lia). rewrite (firstn_all2 (n := 20) lx_rest) by (cbn; lia). split; reflexivity. Qed.
Lemma lx_upto es : forall w r n, qtnet_run b0 c0 w es = Some r -> n < length es ->
  exists ev w1 t1 w2 x, qtnet_run b0 c0 w (firstn n es) = Some (w1, t1) /\ qtnet_step b0 c0 w1 ev = Some (w2, x) /\ qtnet_run b0 c0 w (firstn (S n) es) = Some (w2, t1 ++ [x]).
Proof.
  induction es as [|ev es IH]; intros w r n R L; [cbn in L; lia|]. cbn [qtnet_run] in R. destruct (qtnet_step b0 c0 w ev) as [[w' x]|] eqn:S; [|discriminate].
  destruct (qtnet_run b0 c0 w' es) as [[w2 t2]|] eqn:R'; [|discriminate]. destruct n as [|n].
  - exists ev, w, [], w', x. split; [reflexivity|]. split; [exact S|]. change (firstn 1 (ev :: es)) with [ev]. cbn [qtnet_run]. rewrite S. reflexivity.
  - cbn [length] in L. destruct (IH w' _ n R' ltac:(lia)) as (ev' & w1 & t1 & w3 & x' & A & B & C). exists ev', w1, (x :: t1), w3, x'.
    change (firstn (Datatypes.S n) (ev :: es)) with (ev :: firstn n es). change (firstn (Datatypes.S (Datatypes.S n)) (ev :: es)) with (ev :: firstn (Datatypes.S n) es).
    cbn [qtnet_run]. rewrite S, A, C. split; [reflexivity|]. split; [exact B|reflexivity].
Qed.
Lemma lx_goes n : n < 20 -> exists ev x, qtnet_step b0 c0 (lx_f n) ev = Some (lx_f (S n), x) /\ lx_t (S n) = lx_t n ++ [x].
Proof.
  intros L. assert (R : runs lx_rest (fst lx_a) = true) by (vm_compute; reflexivity). unfold runs in R. destruct (qtnet_run b0 c0 (fst lx_a) lx_rest) as [r|] eqn:E; [|discriminate R].
  destruct (lx_upto _ _ _ n E L) as (ev & w1 & t1 & w2 & x & A & B & C). exists ev, x. unfold lx_f, lx_t, ranx. rewrite A, C. cbn [fst snd]. rewrite app_assoc. split; [exact B|reflexivity].
Qed.
Lemma ran_nothing w : ranx [] w = (w, []).
Proof. reflexivity. Qed.
Lemma lx_start_history : qx_history b0 c0 (lx_t 0) (lx_f 0).
Proof.
  unfold lx_t, lx_f. cbn [firstn]. rewrite ran_nothing. cbn [fst snd]. rewrite app_nil_r. unfold lx_a. apply ranx_first. vm_compute. reflexivity.
Qed.
Lemma lx_history n : qx_history b0 c0 (lx_t n) (lx_f n).
Proof.
  induction n as [|n IH]; [exact lx_start_history|]. destruct (Nat.lt_ge_cases n 20) as [L|L].
  - destruct (lx_goes n L) as (ev & x & S & ->). econstructor; eassumption.
  - destruct (lx_after n L) as [E1 E2]. destruct (lx_after (S n) ltac:(lia)) as [-> ->]. rewrite <- E1, <- E2. exact IH.
Qed.
Ltac nothing := let ev := fresh in let j' := fresh in let p := fresh in let S := fresh in let A := fresh in let k := fresh in let c := fresh in let n := fresh in
  intros k (ev & j' & p & S & A); destruct ev as [x|e];
  [destruct k as [k|?]; [|contradiction A]; destruct k as [|c|c|?|?|?]; destruct x as [|[?|?]| | |?| | | |[]]; try contradiction A; cbn in A; subst; cbn in S; unfold at_rt in S; cbn in S; try discriminate S;
    repeat match type of S with context [nth_error _ ?n] => destruct n; cbn in S; try discriminate S end
  |destruct e as [?|?|?|c ?|c ?]; try contradiction A;
    [destruct A as (_ & (? & A & V) & _); destruct c as [|[]]; cbn in A; try discriminate A; injection A as <-; cbn in V; congruence
    |cbn in S; destruct c as [|[]]; cbn in S; discriminate S]].
Lemma init_nothing : forall k, ~ can_over b0 c0 k qtnode_init.
Proof. nothing. Qed.
Lemma lx_elsewhere a : a <> 5%N -> a <> 9%N -> endpoint (lx_f 20) a = qtnode_init.
Proof.
  intros N5 N9. value_of (map fst (lx_t 20)) M. pose proof (lx_history 20) as H. assert (NI : ~ In a (map fst (lx_t 20))) by (rewrite M; clear -N5 N9; cbn; lia). clear M.
  assert (E : at_place a (lx_t 20) = []).
  { clear H. revert NI. generalize (lx_t 20). intros tr NI. induction tr as [|[b p] tr IH]; [reflexivity|]. cbn in *. destruct (N.eqb_spec b a) as [->|]; [destruct NI; left; reflexivity|]. apply IH. tauto. }
  pose proof (at_endpoint _ _ _ _ a H) as HA. rewrite E in HA. remember (endpoint (lx_f 20) a) as j eqn:J. inversion HA as [E1 E2|? ? ? ? ? ? ? E1]; [reflexivity|]. destruct (app_cons_not_nil _ _ _ (eq_sym E1)).
Qed.
Lemma lx_still a : forall k, ~ can_over b0 c0 k (endpoint (lx_f 20) a).
Proof.
  destruct (N.eq_dec a 5) as [->|N5]; [|destruct (N.eq_dec a 9) as [->|N9]].
  - value_of (endpoint (lx_f 20) 5%N) E. rewrite E. nothing.
  - value_of (endpoint (lx_f 20) 9%N) E. rewrite E. nothing.
  - rewrite (lx_elsewhere a N5 N9). apply init_nothing.
Qed.
Lemma lx_wires : tn_wires (qx_net (lx_f 20)) = [mkWire 5 0 9 (Some 0) [] []].
Proof. vm_compute. reflexivity. Qed.
Lemma no_bytes w x b d : tn_wires (qx_net w) = [x] -> w_there x = [] -> w_back x = [] -> ~ can_arrive b0 c0 w b d.
Proof.
  intros W TH BK (ev & w' & bs & p & S & NB). pose proof (xstep _ _ _ _ _ _ S) as G. clear S.
  assert (K : forall ev v y, tnet_step b0 c0 (qx_net w) ev = Some (v, (b, (TBytes d bs, y))) -> False).
  { clear -W TH BK NB. intros ev v y T. destruct (TcpNetTheorems.net_stepped _ _ _ _ _ _ T) as (a1 & e1 & x1 & s' & X & _ & _ & WD). injection X as <- <- <-.
    destruct ev as [a e| | i n|i n| |]; cbn [tnet_step] in T.
    - destruct (from_network e) eqn:F; [discriminate T|]. destruct (tnode_step _ _ _ e) as [[]|]; [|discriminate T]. injection T as _ _ -> _. discriminate F.
    - destruct (nth_error _ _) as [z|]; [|discriminate T]. destruct (w_tc z); [discriminate T|]. destruct (N.eqb _ _); [|discriminate T]. destruct (tnode_step _ _ _ _) as [[]|]; discriminate T.
    - rewrite W in T. destruct i as [|[]]; try discriminate T. cbn [nth_error] in T. destruct (w_tc x); [|discriminate T]. rewrite TH, firstn_nil in T. destruct (tnode_step _ _ _ _) as [[]|]; [|discriminate T].
      injection T as _ _ _ E _. congruence.
    - rewrite W in T. destruct i as [|[]]; try discriminate T. cbn [nth_error] in T. rewrite BK, firstn_nil in T. destruct (tnode_step _ _ _ _) as [[]|]; [|discriminate T].
      injection T as _ _ _ E _. congruence.
    - destruct (nth_error _ _) as [z|]; [|discriminate T]. destruct (w_tc z); [|discriminate T]. destruct (w_there z); [|discriminate T]. destruct (dropped_conn _ _); [|discriminate T]. destruct (tnode_step _ _ _ _) as [[]|]; discriminate T.
    - destruct (nth_error _ _) as [z|]; [|discriminate T]. destruct (w_tc z); [|discriminate T]. destruct (w_back z); [|discriminate T]. destruct (dropped_conn _ _); [|discriminate T]. destruct (tnode_step _ _ _ _) as [[]|]; discriminate T. }
  inversion G; subst; match goal with Y : as_event ?e = AtStream _ |- _ => destruct e; try discriminate Y; injection Y as -> -> end; eapply K; eassumption.
Qed.
Lemma lx_no_bytes b d : ~ can_arrive b0 c0 (lx_f 20) b d.
Proof. eapply no_bytes; [exact lx_wires|reflexivity|reflexivity]. Qed.
Lemma lx_run : net_load b0 c0 lx_f lx_t.
Proof.
  constructor.
  - intros n. destruct (Nat.lt_ge_cases n 20) as [L|L]; [right; exact (lx_goes n L)|left]. destruct (lx_after n L) as [-> ->]. destruct (lx_after (S n) ltac:(lia)) as [-> ->]. split; reflexivity.
  - intros a k n. exists (20 + n). split; [lia|right]. intros m L. destruct (lx_after m ltac:(lia)) as [-> _]. apply lx_still.
  - intros b d n. exists (20 + n). split; [lia|right]. intros m L. destruct (lx_after m ltac:(lia)) as [-> _]. apply lx_no_bytes.
Qed.
Lemma lx_times (P : nat -> Prop) : (forall n m, lx_f n = lx_f m -> lx_t n = lx_t m -> P m -> P n) -> (forall k, k < 21 -> P k) -> forall n, P n.
Proof.
  intros E K n. destruct (Nat.lt_ge_cases n 21) as [L|L]; [exact (K n L)|]. destruct (lx_after n ltac:(lia)) as [A B]. exact (E n 20 A B (K 20 ltac:(lia))).
Qed.
Ltac each := repeat match goal with L : _ < 0 |- _ => exfalso; lia | L : ?k < S _ |- _ => is_var k; destruct k; [clear L|apply Nat.succ_lt_mono in L] end.
Lemma lx_stub n : stub_exists (t_rt (tn_node (qx_net (lx_f n)) 9)) 0 /\ stub_listening (t_rt (tn_node (qx_net (lx_f n)) 9)) 0.
Proof.
  revert n. apply lx_times; [intros n m -> _; auto|]. intros k L. each.
  all: match goal with |- stub_exists ?r _ /\ _ => value_of r E; rewrite E end; split; [eexists; split; reflexivity|repeat eexists].
Qed.
Lemma lx_proxy n : proxy_exists (t_rt (tn_node (qx_net (lx_f n)) 5)) 0 /\ proxy_connected (t_rt (tn_node (qx_net (lx_f n)) 5)) 0.
Proof.
  revert n. apply lx_times; [intros n m -> _; auto|]. intros k L. each.
  all: match goal with |- proxy_exists ?r _ /\ _ => value_of r E; rewrite E end; split; [eexists; split; reflexivity|repeat eexists].
Qed.
Lemma lx_ordinary n : ordinary_at 5 (streams_of (lx_t n)) /\ ordinary_at 9 (streams_of (lx_t n)).
Proof.
  revert n. apply lx_times; [intros n m _ ->; auto|]. intros k L. each.
  all: split; match goal with |- ordinary_at ?a ?t => value_of (rt_tcp a t) E end; intros c; rewrite E; (destruct c as [|c]; [|constructor]).
  all: repeat (constructor; [first [apply note_ordinary; lia|exact (reply_ordinary 7%N eq_refl)]|]); constructor.
Qed.
Lemma lx_uncut n : never_cut (qx_net (lx_f n)) (streams_of (lx_t n)).
Proof.
  revert n. apply lx_times; [intros n m -> ->; auto|]. intros k L. each.
  all: intros a c b d (x & I & J); match type of I with In _ ?ws => value_of ws W; rewrite W in I; clear W end; destruct I as [<-|[]]; cbn in J.
  all: destruct J as [(<- & <- & <- & E)|(<- & <- & <- & E)]; injection E as <-.
  all: match goal with |- between_messages ?u ?v => value_of v RD; value_of u AC; rewrite RD, AC; clear RD AC end; intros i I; cbn in I; (destruct i as [|[|i]]; [exists 0; reflexivity|first [lia|exists 1; reflexivity]|lia]).
Qed.
Example C99_example : net_load b0 c0 lx_f lx_t /\ qx_history b0 c0 (lx_t 0) (lx_f 0) /\ joined (qx_net (lx_f 0)) 5 0 9 0 /\
  served 0 (1%N, 1%N) (rt_tcp 9 (streams_of (lx_t 0))) /\ reads 0 (at_tcp 9 (streams_of (lx_t 0))) = [] /\
  proxied 0 (1%N, 1%N) 9 (rt_tcp 5 (streams_of (lx_t 0))) /\ reads 0 (at_tcp 5 (streams_of (lx_t 0))) = [] /\
  (forall n, stub_exists (t_rt (tn_node (qx_net (lx_f n)) 9)) 0 /\ stub_listening (t_rt (tn_node (qx_net (lx_f n)) 9)) 0) /\
  (forall n, proxy_exists (t_rt (tn_node (qx_net (lx_f n)) 5)) 0 /\ proxy_connected (t_rt (tn_node (qx_net (lx_f n)) 5)) 0) /\
  (forall n, ordinary_at 5 (streams_of (lx_t n)) /\ ordinary_at 9 (streams_of (lx_t n))) /\ (forall n, never_cut (qx_net (lx_f n)) (streams_of (lx_t n))) /\
  stub_emptied lx_f lx_t 9 0 0 /\ proxy_emptied lx_f lx_t 5 0 0 0 /\ ~ unread_at lx_f lx_t 9 0 /\ ~ unread_at lx_f lx_t 5 0.
Proof.
  split; [exact lx_run|]. split; [exact lx_start_history|].
  split. { value_of (tn_wires (qx_net (lx_f 0))) W. exists (mkWire 5 0 9 (Some 0) [] []). rewrite W. split; [left; reflexivity|left; repeat split]. }
  value_of (rt_tcp 9 (streams_of (lx_t 0))) T9. value_of (rt_tcp 5 (streams_of (lx_t 0))) T5. rewrite T5, T9.
  split; [exists (EEp true); cbn; tauto|]. split; [vm_compute; reflexivity|]. split; [exists (EEp true); cbn; tauto|]. split; [vm_compute; reflexivity|].
  split; [exact lx_stub|]. split; [exact lx_proxy|]. split; [exact lx_ordinary|]. split; [exact lx_uncut|].
  split. { intros m _. exists (20 + m). split; [lia|left]. destruct (lx_after (20 + m) ltac:(lia)) as [-> _]. vm_compute. reflexivity. }
  split. { intros m _. exists (20 + m). split; [lia|left]. destruct (lx_after (20 + m) ltac:(lia)) as [-> _]. vm_compute. reflexivity. }
  assert (K : forall b c x, b = 5%N \/ b = 9%N -> nth_error (r_conns (q_rt (qt_calls (endpoint (lx_f 20) b)))) c = Some x -> c_recv x = RWait []).
  { intros b c x [->| ->] X.
    - value_of (r_conns (q_rt (qt_calls (endpoint (lx_f 20) 5%N)))) E. rewrite E in X. destruct c as [|[]]; try discriminate X. injection X as <-. reflexivity.
    - value_of (r_conns (q_rt (qt_calls (endpoint (lx_f 20) 9%N)))) E. rewrite E in X. destruct c as [|[]]; try discriminate X. injection X as <-. reflexivity. }
  assert (RU : forall b, b = 5%N \/ b = 9%N -> conn_runs (q_rt (qt_calls (endpoint (lx_f 20) b))) 0).
  { unfold conn_runs. intros b [->| ->]; [value_of (r_conns (q_rt (qt_calls (endpoint (lx_f 20) 5%N)))) E|value_of (r_conns (q_rt (qt_calls (endpoint (lx_f 20) 9%N)))) E]; rewrite E; eexists; split; reflexivity. }
  assert (NU : forall b, b = 5%N \/ b = 9%N -> ~ unread_at lx_f lx_t b 0).
  { intros b B (N & c & n & U). destruct (lx_after (20 + N) ltac:(lia)) as [EF _]. destruct U as [U|U]; specialize (U (20 + N) ltac:(lia)); cbn beta in U; rewrite EF in U;
      destruct (U (RU b B)) as [(x & st & it & todo & X & _ & _ & XR & _) _]; rewrite (K b c x B X) in XR; discriminate XR. }
  split; apply NU; auto.
Qed.
(** At first nothing was written, then part of the message; at the end both messages are where they
    belong. *)
Example C99_example_delivered : accepted 0 (rt_tcp 5 (streams_of (lx_t 0))) = [note 1 7] /\ bytes_out 0 (at_tcp 5 (streams_of (lx_t 0))) = [] /\
  bytes_out 0 (at_tcp 5 (streams_of (lx_t 2))) = firstn 10 (s_form (note 1 7)) /\ bytes_in 0 (at_tcp 9 (streams_of (lx_t 4))) = firstn 9 (s_form (note 1 7)) /\
  map it_msg (from_conn 0 (stub_got 0 (rt_tcp 9 (streams_of (lx_t 19))))) = [note 1 7] /\
  accepted 0 (rt_tcp 9 (streams_of (lx_t 13))) = [ex_reply (note 1 7)] /\ bytes_out 0 (at_tcp 9 (streams_of (lx_t 13))) = [] /\
  map it_msg (from_conn 0 (proxy_backlog (t_rt (tn_node (qx_net (lx_f 19)) 5)) 0)) = [ex_reply (note 1 7)] /\
  map it_msg (from_conn 0 (proxy_got 0 (rt_tcp 5 (streams_of (lx_t 20))))) = [ex_reply (note 1 7)].
Proof. repeat split; vm_compute; reflexivity. Qed.
