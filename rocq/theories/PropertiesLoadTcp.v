(** An endpoint over TCP under load that does not end: C98. *)
From Coq Require Import List NArith Bool PeanoNat Lia.
From Verif Require Import BytesModel WireSpec SomeipModel SomeipSpec MapModel RuntimeModel RuntimeSpec TcpModel TcpNodeModel TcpNodeSpec QueueModel QueueSpec QueueTcpModel QueueTcpSpec LoadSpec LoadTheorems
  QueueTcpTheorems LoadTcpSpec LoadTcpTheorems.
Import ListNotations.
Open Scope nat_scope.

(** ** C98: over TCP calls are answered, and what arrived is read and what was accepted is written *)
Theorem C98_seen : forall bk cbk f t, tcp_load bk cbk f t -> qt_history bk cbk (t 0) (f 0) -> load_run bk cbk (fun n => qt_calls (f n)) (fun n => calls_at (t n)).
Proof. exact seen_run. Qed.
Print Assumptions C98_seen.

Theorem C98_returns : forall bk cbk f t u n id to, tcp_load bk cbk f t -> qt_history bk cbk (t 0) (f 0) -> In (MMade id to) (life u (calls_at (t n))) ->
  (exists m, n <= m /\ (In MDropped (life u (calls_at (t m))) \/ exists o, In (MReturned o) (life u (calls_at (t m))) /\ fits id to o)) \/ tcp_unread f t.
Proof. intros bk cbk f t u n id to R H. exact (returns bk cbk false _ _ (seen_run bk cbk f t R H) (proj1 (halves _ _ _ _ H)) u n id to). Qed.
Print Assumptions C98_returns.

Theorem C98_sends : forall bk cbk f t N n, tcp_load bk cbk f t -> qt_history bk cbk (t 0) (f 0) ->
  (exists m, N <= m /\ ~ busy (q_rt (qt_calls (f m))) n) \/ tcp_unread f t.
Proof. intros bk cbk f t N n R H. exact (sends_end bk cbk false _ _ (seen_run bk cbk f t R H) (proj1 (halves _ _ _ _ H)) n N). Qed.
Print Assumptions C98_sends.

(** The bytes of what was accepted are handed to the stream, in order, unless the connection ends. *)
Theorem C98_written : forall bk cbk f t N c, tcp_load bk cbk f t -> qt_history bk cbk (t 0) (f 0) ->
  exists m, N <= m /\ (~ conn_runs (t_rt (qt_node (f m))) c \/
    exists rest, bytes_out c (node_at (t m)) = concat (map encode (accepted c (tcp_trace (node_at (t N))))) ++ rest).
Proof. intros bk cbk f t N c R H. exact (tcp_written_on bk cbk f t R H c N). Qed.
Print Assumptions C98_written.

(** The bytes that arrived are read, in order, unless the connection ends. *)
Theorem C98_read : forall bk cbk f t N c, tcp_load bk cbk f t -> qt_history bk cbk (t 0) (f 0) ->
  (exists m, N <= m /\ exists rest, concat (reads c (node_at (t m))) = bytes_in c (node_at (t N)) ++ rest) \/
  (exists m, N <= m /\ ~ conn_runs (t_rt (qt_node (f m))) c) \/ tcp_unread_while f t c.
Proof. intros bk cbk f t N c R H. exact (all_read_on bk cbk f t R H c N). Qed.
Print Assumptions C98_read.

Theorem C98_routed : forall bk cbk f t N c it, tcp_load bk cbk f t -> qt_history bk cbk (t 0) (f 0) -> In it (waiting (q_rt (qt_calls (f N))) c) ->
  (exists m, N <= m /\ (In (ERoute c, ORouted it) (rt_trace (calls_at (t m))) \/ In (ERoute c, ODropped it) (rt_trace (calls_at (t m))))) \/
  (exists m, N <= m /\ ~ conn_runs (q_rt (qt_calls (f m))) c) \/ tcp_unread_while f t c.
Proof. intros bk cbk f t N c it R H. exact (routed bk cbk false _ _ (seen_run bk cbk f t R H) (proj1 (halves _ _ _ _ H)) c N it). Qed.
Print Assumptions C98_routed.

Definition b0 : iid -> N := fun _ => 0%N.
Definition c0 : N -> N := fun _ => 0%N.
Lemma run_history evs : forall tr j j' tr', qt_history b0 c0 tr j -> qtnode_run b0 c0 j evs = Some (j', tr') -> qt_history b0 c0 (tr ++ tr') j'.
Proof.
  induction evs as [|ev evs IH]; intros tr j j' tr' H R; cbn in R; [injection R as <- <-; rewrite app_nil_r; exact H|].
  destruct (qtnode_step b0 c0 j ev) as [[j1 p]|] eqn:S; [|discriminate]. destruct (qtnode_run b0 c0 j1 evs) as [[j2 t2]|] eqn:R'; [|discriminate]. injection R as <- <-.
  change ((ev, p) :: t2) with ([(ev, p)] ++ t2). rewrite app_assoc. eapply IH; [|exact R']. econstructor; eassumption.
Qed.
(** An endpoint serves an id and has accepted a connection. *)
Definition lid : iid := (1%N, 1%N).
Definition ex_start : list qtevent :=
  map AtCalls [QCall lid None; QEnter (FCall 0); QTake; QGo true; QGo true; QGo true; QGo true; QReturn 0; QRun (EListener 0); QRun (EAccept 0 5%N); QRun (EAcceptShare 0)].
Definition state_of (evs : list qtevent) : qtnode := match qtnode_run b0 c0 qtnode_init evs with Some (j, _) => j | None => qtnode_init end.
Definition trace_of (evs : list qtevent) : list (qtevent * qtlog) := match qtnode_run b0 c0 qtnode_init evs with Some (_, tr) => tr | None => [] end.
Ltac nothing := let ev := fresh in let j' := fresh in let p := fresh in let S := fresh in let A := fresh in let k := fresh in let c := fresh in let n := fresh in
  intros k (ev & j' & p & S & A); destruct ev as [x|e];
  [destruct k as [k|?]; [|contradiction A]; destruct k as [|c|c|?|?|?]; destruct x as [|[?|?]| | |?| | | |[]]; try contradiction A; cbn in A; subst; cbn in S; unfold at_rt in S; cbn in S; try discriminate S;
    repeat match type of S with context [nth_error _ ?n] => destruct n; cbn in S; try discriminate S end
  |destruct e as [?|?|?|c ?|c ?]; try contradiction A;
    [destruct A as (_ & (? & A & V) & _); destruct c as [|[]]; cbn in A; try discriminate A; injection A as <-; cbn in V; congruence
    |cbn in S; destruct c as [|[]]; cbn in S; discriminate S]].

(** A byte that is no message arrives again and again, and is read. *)
Definition idle_j : qtnode := Eval vm_compute in state_of ex_start.
Definition idle_t : list (qtevent * qtlog) := Eval vm_compute in trace_of ex_start.
Definition one_byte : qtevent := AtStream (TBytes 0 [7%N]).
Definition one_read : qtevent := AtStream (TRead 0 (Ready, Some 400)).
Definition byte_j : qtnode := Eval vm_compute in match qtnode_step b0 c0 idle_j one_byte with Some (j, _) => j | None => idle_j end.
Definition byte_l : qtlog := Eval vm_compute in match qtnode_step b0 c0 idle_j one_byte with Some (_, p) => p | None => mkQTL None [] end.
Definition read_l : qtlog := Eval vm_compute in match qtnode_step b0 c0 byte_j one_read with Some (_, p) => p | None => mkQTL None [] end.
Definition bytes_f (n : nat) : qtnode := if Nat.even n then idle_j else byte_j.
Fixpoint bytes_t (n : nat) : list (qtevent * qtlog) :=
  match n with 0 => idle_t | S n' => bytes_t n' ++ [if Nat.even n' then (one_byte, byte_l) else (one_read, read_l)] end.
Lemma idle_still : forall k, ~ can_over b0 c0 k idle_j.
Proof. nothing. Qed.
Lemma byte_still : forall k, k <> Reading 0 -> ~ can_over b0 c0 k byte_j.
Proof.
  intros k N (ev & j' & p & S & A). destruct ev as [x|e].
  - destruct k as [k|?]; [|contradiction A]. destruct k as [|c|c|?|?|?]; destruct x as [|[?|?]| | |?| | | |[]]; try contradiction A; cbn in A; subst; cbn in S; unfold at_rt in S; cbn in S; try discriminate S;
      repeat match type of S with context [nth_error _ ?n] => destruct n; cbn in S; try discriminate S end.
  - destruct e as [?|?|?|c ?|c ?]; try contradiction A.
    + destruct A as (-> & (? & A & V) & _). destruct c as [|[]]; cbn in A; try discriminate A. congruence.
    + cbn in S. destruct c as [|[]]; cbn in S; discriminate S.
Qed.
Lemma bytes_run : tcp_load b0 c0 bytes_f bytes_t.
Proof.
  assert (E : forall n, Nat.even (S n) = negb (Nat.even n)) by (intros n; rewrite Nat.even_succ, <- Nat.negb_even; reflexivity).
  constructor.
  - intros n. right. unfold bytes_f. cbn [bytes_t]. rewrite E. destruct (Nat.even n); cbn [negb]; [exists one_byte, byte_l|exists one_read, read_l]; (split; [vm_compute; reflexivity|reflexivity]).
  - intros k n. assert (D : k = Reading 0 \/ k <> Reading 0) by (destruct k as [|[]]; first [left; reflexivity|right; discriminate]). destruct D as [->|NK].
    + destruct (Nat.even n) eqn:EN; [exists (S n)|exists n]; (split; [lia|left]).
      * exists one_read, read_l. cbn [bytes_t]. unfold bytes_f. rewrite !E, EN. cbn [negb]. split; [|reflexivity]. split; [reflexivity|]. split; [eexists; split; [reflexivity|discriminate]|discriminate].
      * exists one_read, read_l. cbn [bytes_t]. unfold bytes_f. rewrite !E, EN. cbn [negb]. split; [|reflexivity]. split; [reflexivity|]. split; [eexists; split; [reflexivity|discriminate]|discriminate].
    + exists n. split; [reflexivity|right]. intros m _. unfold bytes_f. destruct (Nat.even m); [apply idle_still|apply byte_still; exact NK].
Qed.
Lemma bytes_start : qt_history b0 c0 idle_t idle_j.
Proof.
  assert (E : qtnode_run b0 c0 qtnode_init ex_start = Some (idle_j, idle_t)) by (vm_compute; reflexivity).
  exact (run_history _ [] _ _ _ (qt_start _ _) E).
Qed.
Example C98_example : tcp_load b0 c0 bytes_f bytes_t /\ qt_history b0 c0 (bytes_t 0) (bytes_f 0) /\ (forall m, conn_runs (t_rt (qt_node (bytes_f m))) 0) /\
  ~ tcp_unread_while bytes_f bytes_t 0 /\ forall n, length (bytes_in 0 (node_at (bytes_t (2 * n)))) = n.
Proof.
  assert (RU : forall m, conn_runs (t_rt (qt_node (bytes_f m))) 0) by (intros m; unfold bytes_f; destruct (Nat.even m); eexists; split; reflexivity).
  split; [exact bytes_run|]. split; [exact bytes_start|]. split; [exact RU|]. split.
  - assert (RQ : forall m, conn_runs (q_rt (qt_calls (bytes_f m))) 0) by (intros m; unfold bytes_f; destruct (Nat.even m); eexists; split; reflexivity).
    intros (N & c & n & [U|U]); destruct (U N (le_n _) (RQ N)) as [(x & st & it & todo & X & _ & _ & XR & _) _]; revert X; unfold bytes_f; destruct (Nat.even N); intros X; destruct c as [|[]]; try discriminate X;
      injection X as <-; discriminate XR.
  - intros n. induction n as [|n IH]; [reflexivity|]. replace (2 * S n) with (S (S (2 * n))) by lia. cbn [bytes_t]. assert (EV : Nat.even (2 * n) = true) by (rewrite Nat.even_mul; reflexivity).
    rewrite Nat.even_succ, <- Nat.negb_even, EV. cbn [negb]. rewrite !node_snoc. unfold bytes_in in *. rewrite !flat_map_app, !app_length, IH. cbn. lia.
Qed.

(** A message has arrived, a stub sends its answer, and a call is made.  The answer is written in two parts. *)
Definition m1 : msg := mkS 1 2 3 4 1 1 StRequest ScOk [7%N].
Definition m2 : msg := mkS 1 2 3 4 1 1 StResponse ScOk [8%N].
Definition ex_load : list qtevent := [AtStream (TBytes 0 (s_form m1)); AtCalls (QRun (ESendTo 0 5%N m2)); AtCalls (QCall (2%N, 1%N) None)].
Definition ex_rest : list qtevent :=
  [AtStream (TRead 0 (Ready, Some 400)); AtCalls (QEnter (FCall 1)); AtCalls QTake] ++
  map AtCalls [QRun (EStub 0 true); QRun (EStub 0 true); QRun (EStub 0 true); QRun (ERoute 0); QRun (ERoute 0); QRun (ESender 0)] ++
  [AtStream (TWrite 0 (Ready, Some 10)); AtStream (TWrite 0 (Ready, Some 400))] ++ map AtCalls [QGo true; QGo true; QGo true; QGo true; QReturn 1; QRun (EListener 0)].
Definition load_j : qtnode := Eval vm_compute in state_of (ex_start ++ ex_load).
Definition load_t : list (qtevent * qtlog) := Eval vm_compute in trace_of (ex_start ++ ex_load).
Definition end_j : qtnode := Eval vm_compute in state_of (ex_start ++ ex_load ++ ex_rest).
Definition fin_f (n : nat) : qtnode := match qtnode_run b0 c0 load_j (firstn n ex_rest) with Some (j, _) => j | None => load_j end.
Definition fin_t (n : nat) : list (qtevent * qtlog) := load_t ++ match qtnode_run b0 c0 load_j (firstn n ex_rest) with Some (_, tr) => tr | None => [] end.
Lemma end_still : forall k, ~ can_over b0 c0 k end_j.
Proof. nothing. Qed.
Lemma run_upto evs : forall j r n, qtnode_run b0 c0 j evs = Some r -> n < length evs ->
  exists ev j1 t1 j2 p, qtnode_run b0 c0 j (firstn n evs) = Some (j1, t1) /\ qtnode_step b0 c0 j1 ev = Some (j2, p) /\ qtnode_run b0 c0 j (firstn (S n) evs) = Some (j2, t1 ++ [(ev, p)]).
Proof.
  induction evs as [|ev evs IH]; intros j r n R L; [cbn in L; lia|]. cbn [qtnode_run] in R. destruct (qtnode_step b0 c0 j ev) as [[j' p]|] eqn:S; [|discriminate].
  destruct (qtnode_run b0 c0 j' evs) as [[j2 t2]|] eqn:R'; [|discriminate]. destruct n as [|n].
  - exists ev, j, [], j', p. split; [reflexivity|]. split; [exact S|]. change (firstn 1 (ev :: evs)) with [ev]. cbn [qtnode_run]. rewrite S. reflexivity.
  - cbn [length] in L. destruct (IH j' _ n R' ltac:(lia)) as (ev' & j1 & t1 & j3 & p' & A & B & C). exists ev', j1, ((ev, p) :: t1), j3, p'.
    change (firstn (Datatypes.S n) (ev :: evs)) with (ev :: firstn n evs). change (firstn (Datatypes.S (Datatypes.S n)) (ev :: evs)) with (ev :: firstn (Datatypes.S n) evs).
    cbn [qtnode_run]. rewrite S, A, C. split; [reflexivity|]. split; [exact B|reflexivity].
Qed.
Lemma rest_runs : exists tr, qtnode_run b0 c0 load_j ex_rest = Some (end_j, tr).
Proof. eexists. vm_compute. reflexivity. Qed.
Lemma fin_after n : 17 <= n -> fin_f n = end_j /\ fin_t (S n) = fin_t n.
Proof.
  intros L. destruct rest_runs as [tr E]. unfold fin_f, fin_t. rewrite (firstn_all2 ex_rest) by (cbn; lia). rewrite (firstn_all2 (n := S n) ex_rest) by (cbn; lia). rewrite E. split; reflexivity.
Qed.
Lemma fin_run : tcp_load b0 c0 fin_f fin_t.
Proof.
  destruct rest_runs as [tr E]. constructor.
  - intros n. destruct (Nat.lt_ge_cases n 17) as [L|L]; [right|left].
    + destruct (run_upto _ _ _ n E L) as (ev & j1 & t1 & j2 & p & A & B & C). exists ev, p. unfold fin_f, fin_t. rewrite A, C, app_assoc. split; [exact B|reflexivity].
    + destruct (fin_after n L) as [A B]. destruct (fin_after (S n) ltac:(lia)) as [A' _]. rewrite A, A', B. split; reflexivity.
  - intros k n. exists (17 + n). split; [lia|right]. intros m L. destruct (fin_after m ltac:(lia)) as [-> _]. apply end_still.
Qed.
Example C98_example_served : tcp_load b0 c0 fin_f fin_t /\ qt_history b0 c0 (fin_t 0) (fin_f 0) /\ ~ tcp_unread fin_f fin_t /\
  In (MMade (2%N, 1%N) None) (life 1 (calls_at (fin_t 0))) /\ busy (q_rt (qt_calls (fin_f 0))) 0 /\
  bytes_in 0 (node_at (fin_t 0)) = s_form m1 /\ reads 0 (node_at (fin_t 0)) = [] /\ (exists it, waiting (q_rt (qt_calls (fin_f 1))) 0 = [it] /\ it_msg it = m1) /\
  accepted 0 (tcp_trace (node_at (fin_t 10))) = [m2] /\ bytes_out 0 (node_at (fin_t 10)) = firstn 10 (s_form m2) /\ bytes_out 0 (node_at (fin_t 11)) = s_form m2.
Proof.
  split; [exact fin_run|]. split.
  { assert (E : qtnode_run b0 c0 qtnode_init (ex_start ++ ex_load) = Some (load_j, load_t)) by (vm_compute; reflexivity).
    assert (T : fin_t 0 = load_t) by apply app_nil_r. rewrite T. exact (run_history _ [] _ _ _ (qt_start _ _) E). }
  split.
  { intros (N & c & n & [U|U]); destruct (U (17 + N) ltac:(lia)) as [(x & st & it & todo & X & _ & _ & XR & _) _]; rewrite (proj1 (fin_after (17 + N) ltac:(lia))) in X; destruct c as [|[]]; try discriminate X;
      injection X as <-; discriminate XR. }
  split; [vm_compute; tauto|]. split; [eexists; split; [reflexivity|discriminate]|]. split; [vm_compute; reflexivity|]. split; [vm_compute; reflexivity|].
  split; [eexists; split; vm_compute; reflexivity|]. split; [vm_compute; reflexivity|]. split; vm_compute; reflexivity.
Qed.
