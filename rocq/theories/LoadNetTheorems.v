(** Theorems about any number of endpoints over TCP and the streams between them, under load that does
    not end. *)
From Coq Require Import List NArith Bool PeanoNat Lia Wf_nat.
From Verif Require Import BytesModel SomeipModel MapModel EndpointProofs RuntimeModel RuntimeSpec RuntimeProofs RuntimeTheorems RuntimeCancelTheorems TcpModel TcpSpec TcpNodeModel TcpNodeSpec TcpNodeTheorems TcpNetModel TcpNetSpec TcpNetTheorems
  QueueModel QueueSpec QueueTheorems QueueTcpModel QueueTcpSpec QueueTcpTheorems QueueTcpNetModel QueueTcpNetSpec QueueTcpNetTheorems LoadSpec LoadTheorems LoadTcpSpec LoadTcpTheorems LoadNetSpec.
Import ListNotations.
Open Scope nat_scope.

(** ** Ends stay joined *)
Definition same_wire (x y : wire) : Prop := w_from y = w_from x /\ w_fc y = w_fc x /\ w_to y = w_to x /\ (forall d, w_tc x = Some d -> w_tc y = Some d).
Definition kept (ws ws' : list wire) : Prop := forall x, In x ws -> exists y, In y ws' /\ same_wire x y.
Lemma same_refl x : same_wire x x.
Proof. repeat split; auto. Qed.
Lemma kept_refl ws : kept ws ws.
Proof. intros x I. exists x. split; [exact I|apply same_refl]. Qed.
Lemma kept_app ws ws' more : kept ws ws' -> kept ws (ws' ++ more).
Proof. intros K x I. destruct (K x I) as (y & J & S). exists y. split; [apply in_or_app; left; exact J|exact S]. Qed.
Lemma kept_map ws g : (forall x, same_wire x (g x)) -> kept ws (map g ws).
Proof. intros K x I. exists (g x). split; [apply in_map; exact I|apply K]. Qed.
Lemma kept_upd ws i g : (forall x, nth_error ws i = Some x -> same_wire x (g x)) -> kept ws (upd i g ws).
Proof.
  intros K x I. destruct (In_nth_error _ _ I) as [j X]. destruct (Nat.eq_dec i j) as [->|NE].
  - exists (g x). split; [eapply nth_error_In; rewrite nth_upd_same, X; reflexivity|apply K; exact X].
  - exists x. split; [eapply nth_error_In with (n := j); rewrite nth_upd_other by congruence; exact X|apply same_refl].
Qed.
Lemma carry_same a c out x : same_wire x (carry a c out x).
Proof. destruct (carry_frame a c out x) as (E1 & E2 & E3 & E). repeat split; try assumption. intros d. rewrite E. auto. Qed.

Section Locks.
Context (bk : iid -> N) (cbk : N -> N).
Notation tnet_step := (tnet_step bk cbk).
Notation qtnet_step := (qtnet_step bk cbk).
Notation qx_history := (qx_history bk cbk).
Notation can_arrive := (can_arrive bk cbk).

Lemma wires_kept w ev w' p : tnet_step w ev = Some (w', p) -> kept (tn_wires w) (tn_wires w').
Proof.
  intros S. destruct (net_stepped _ _ _ _ _ _ S) as (a & e & x & s' & _ & _ & _ & W). destruct W; try apply kept_refl.
  - apply kept_app. destruct e; try apply kept_refl. apply kept_map. apply carry_same.
  - destruct (te_rt x) as [[? []]|]; try apply kept_refl. apply kept_upd. intros z Z. repeat split; try reflexivity. intros d D. congruence.
  - apply kept_upd. intros z Z. repeat split; auto.
  - apply kept_upd. intros z Z. repeat split; auto.
Qed.
Lemma joined_kept w w' a c b d : kept (tn_wires w) (tn_wires w') -> joined w a c b d -> joined w' a c b d.
Proof.
  intros K (x & I & J). destruct (K x I) as (y & I' & E1 & E2 & E3 & E4). exists y. split; [exact I'|]. rewrite E1, E2, E3.
  destruct J as [(? & ? & ? & T)|(? & ? & ? & T)]; [left|right]; repeat split; auto.
Qed.
Lemma does_kept a es : forall v v' xs x y z q, tnet_does bk cbk a v es = Some (v', xs) -> joined v x y z q -> joined v' x y z q.
Proof.
  induction es as [|e es IH]; intros v v' xs x y z q D J; cbn [tnet_does] in D; [injection D as <- <-; exact J|].
  destruct (tnet_step v (WRun a (TRun e))) as [[v1 [? ?]]|] eqn:S; [|discriminate D]. destruct (tnet_does bk cbk a v1 es) as [[v2 ys]|] eqn:D'; [|discriminate D]. injection D as <- <-.
  eapply IH; [exact D'|]. eapply joined_kept; [eapply wires_kept; exact S|exact J].
Qed.
Lemma joined_step w ev w' x a c b d : qtnet_step w ev = Some (w', x) -> joined (qx_net w) a c b d -> joined (qx_net w') a c b d.
Proof.
  intros S J. destruct (xstep _ _ _ _ _ _ S) as [a0 x0 q o l v xs Q D|ev v a0 e x0 N T R|ev v a0 e x0 f o' q o l N T R Q]; cbn [qx_net].
  - eapply does_kept; eassumption.
  - eapply joined_kept; [eapply wires_kept; exact T|exact J].
  - eapply joined_kept; [eapply wires_kept; exact T|exact J].
Qed.

(** ** What is under way can arrive *)
Lemma under_way tr w a c b d : qx_history tr w -> joined (qx_net w) a c b d ->
  length (bytes_in d (at_tcp b (streams_of tr))) < length (bytes_out c (at_tcp a (streams_of tr))) -> can_arrive w b d.
Proof.
  intros HX (x & I & J) LT. pose proof (is_tnet _ _ _ _ HX) as H. pose proof (net_inv _ _ _ _ H) as V. destruct (In_nth_error _ _ I) as [i X]. pose proof (ni_flows _ _ V _ _ X) as F. unfold flows in F.
  destruct (ni_fin _ _ V _ _ X) as [K1 K2]. set (w0 := qx_net w) in *.
  destruct J as [(<- & <- & <- & T)|(<- & <- & <- & T)]; rewrite T in F; destruct F as [F1 F2]; unfold tx, rx in F1, F2; cbn [fst snd] in F1, F2.
  - rewrite F1, app_length in LT. assert (NE : w_there x <> []) by (intros Z; rewrite Z in LT; cbn in LT; lia).
    assert (LE : d < nconns (tn_node w0 (w_to x))) by (apply (ni_ends _ _ V); eapply ends_in; [exact I|apply snd_end; exact T]).
    unfold nconns in LE. apply nth_error_Some in LE. destruct (nth_error (r_conns (t_rt (tn_node w0 (w_to x)))) d) as [y|] eqn:Y; [|congruence].
    pose proof (has_link _ _ _ _ _ _ (tcp_at_history _ _ _ _ (w_to x) H) Y) as LK. destruct (reading _ _ _ _ (tcp_at_history _ _ _ _ (w_to x) H) d) as (_ & FI & _).
    assert (S : exists v y', tnet_step w0 (WThere i (length (w_there x))) = Some (v, (w_to x, (TBytes d (w_there x), y')))).
    { cbn [TcpNetModel.tnet_step]. rewrite X, T. cbn [TcpNodeModel.tnode_step]. rewrite LK, firstn_all.
      destruct (t_fin (k_in (lk (tn_node w0 (w_to x)) d))); [destruct FI as [FI _]; destruct (K1 _ T (FI eq_refl)) as [B _]; congruence|]. eexists _, _. reflexivity. }
    destruct S as (v & y' & S). destruct (lift _ _ _ _ _ _ _ _ _ HX (Logic.I : no_run (WThere i (length (w_there x)))) S) as (w' & p & Q & _). exists (XStreams (WThere i (length (w_there x)))), w', (w_there x), p. split; [exact Q|exact NE].
  - rewrite F2, app_length in LT. assert (NE : w_back x <> []) by (intros Z; rewrite Z in LT; cbn in LT; lia).
    assert (LE : w_fc x < nconns (tn_node w0 (w_from x))) by (apply (ni_ends _ _ V); eapply ends_in; [exact I|apply fst_end]).
    unfold nconns in LE. apply nth_error_Some in LE. destruct (nth_error (r_conns (t_rt (tn_node w0 (w_from x)))) (w_fc x)) as [y|] eqn:Y; [|congruence].
    pose proof (has_link _ _ _ _ _ _ (tcp_at_history _ _ _ _ (w_from x) H) Y) as LK. destruct (reading _ _ _ _ (tcp_at_history _ _ _ _ (w_from x) H) (w_fc x)) as (_ & FI & _).
    assert (S : exists v y', tnet_step w0 (WBack i (length (w_back x))) = Some (v, (w_from x, (TBytes (w_fc x) (w_back x), y')))).
    { cbn [TcpNetModel.tnet_step]. rewrite X. cbn [TcpNodeModel.tnode_step]. rewrite LK, firstn_all.
      destruct (t_fin (k_in (lk (tn_node w0 (w_from x)) (w_fc x)))); [destruct FI as [FI _]; destruct (K2 (FI eq_refl)) as (? & _ & B & _); congruence|]. eexists _, _. reflexivity. }
    destruct S as (v & y' & S). destruct (lift _ _ _ _ _ _ _ _ _ HX (Logic.I : no_run (WBack i (length (w_back x)))) S) as (w' & p & Q & _). exists (XStreams (WBack i (length (w_back x)))), w', (w_back x), p. split; [exact Q|exact NE].
Qed.

(** ** Runs *)
Section Run.
Context (f : nat -> qtnet) (t : nat -> list qxentry).
Context (R : net_load bk cbk f t) (H : qx_history (t 0) (f 0)).

Lemma n_hist n : qx_history (t n) (f n).
Proof.
  induction n as [|n IH]; [exact H|]. destruct (nl_goes _ _ _ _ R n) as [[-> ->]|(ev & x & S & ->)]; [exact IH|]. econstructor; eassumption.
Qed.
Lemma n_grows n m : n <= m -> exists more, t m = t n ++ more.
Proof.
  induction 1 as [|m L (more & E)]; [exists []; rewrite app_nil_r; reflexivity|]. destruct (nl_goes _ _ _ _ R m) as [[_ ->]|(ev & x & _ & ->)]; [eauto|]. exists (more ++ [x]). rewrite E, app_assoc. reflexivity.
Qed.
Lemma joined_on a c b d n m : n <= m -> joined (qx_net (f n)) a c b d -> joined (qx_net (f m)) a c b d.
Proof.
  induction 1 as [|m L IH]; [auto|]. intros J. destruct (nl_goes _ _ _ _ R m) as [[-> _]|(ev & x & S & _)]; [auto|]. eapply joined_step; [exact S|auto].
Qed.
(** What happens at each endpoint is what LoadTcpTheorems.v is about. *)
Theorem load_at a : tcp_load bk cbk (fun n => endpoint (f n) a) (fun n => at_place a (t n)).
Proof.
  constructor.
  - intros n. destruct (nl_goes _ _ _ _ R n) as [[-> ->]|(ev & [b [ev' p]] & S & ->)]; [left; auto|]. rewrite place_snoc. cbn [fst snd]. destruct (placed _ _ _ _ _ _ _ (xstep _ _ _ _ _ _ S)) as [K O].
    destruct (N.eqb_spec b a) as [->|NE]; [right; exists ev', p; split; [exact K|reflexivity]|left]. rewrite app_nil_r. split; [apply O; congruence|reflexivity].
  - intros k n. destruct (nl_fair _ _ _ _ R a k n) as (m & L & [(ev & p & A & E)|NV]); exists m; (split; [exact L|]); [left|right; exact NV].
    exists ev, p. split; [exact A|]. rewrite E, place_snoc. cbn [fst snd]. rewrite N.eqb_refl. reflexivity.
Qed.
Notation out_of a c n := (bytes_out c (at_tcp a (streams_of (t n)))).
Notation into b d n := (bytes_in d (at_tcp b (streams_of (t n)))).
Lemma out_grows a c n m : n <= m -> exists more, out_of a c m = out_of a c n ++ more.
Proof.
  intros L. destruct (n_grows n m L) as [more ->]. rewrite streams_app, at_tcp_app. unfold bytes_out. rewrite flat_map_app. eauto.
Qed.
Lemma into_grows b d n m : n <= m -> exists more, into b d m = into b d n ++ more.
Proof.
  intros L. destruct (n_grows n m L) as [more ->]. rewrite streams_app, at_tcp_app. unfold bytes_in. rewrite flat_map_app. eauto.
Qed.
Theorem arrives_on a c b d N : joined (qx_net (f N)) a c b d -> exists m, N <= m /\ exists rest, into b d m = out_of a c N ++ rest.
Proof.
  intros J. assert (K : forall k M, N <= M -> length (out_of a c N) - length (into b d M) = k -> exists m, N <= m /\ length (out_of a c N) <= length (into b d m)).
  { intros k. induction k as [k IH] using lt_wf_ind. intros M L E. destruct (Nat.lt_ge_cases (length (into b d M)) (length (out_of a c N))) as [G|G]; [|exists M; auto].
    destruct (nl_arrives _ _ _ _ R b d M) as (m & LM & [(bs & p & NB & SE)|NV]).
    - assert (E3 : into b d (S m) = into b d m ++ bs).
      { rewrite SE, streams_snoc, at_tcp_app. unfold bytes_in. rewrite flat_map_app. f_equal.
        destruct (nl_goes _ _ _ _ R m) as [[_ GO]|(ev & x & GO & E2)]; [rewrite SE in GO; apply (f_equal (@length _)) in GO; rewrite app_length in GO; cbn in GO; lia|].
        rewrite SE in E2. apply app_inj_tail in E2. destruct E2 as [_ <-]. pose proof (xstep _ _ _ _ _ _ GO) as XG. inversion XG; subst; try discriminate.
        all: match goal with Y : as_event ?e = AtStream _ |- _ => destruct e; try discriminate Y; injection Y as -> -> end.
        all: cbn; rewrite N.eqb_refl; cbn; rewrite Nat.eqb_refl, ?app_nil_r; reflexivity. }
      assert (G' : length (into b d M) < length (into b d (S m))).
      { destruct (into_grows b d M m LM) as [more E']. rewrite E3, E', !app_length. destruct bs; [congruence|cbn; lia]. }
      destruct (Nat.lt_ge_cases (length (into b d (S m))) (length (out_of a c N))) as [G2|G2]; [|exists (S m); split; [lia|exact G2]].
      exact (IH (length (out_of a c N) - length (into b d (S m))) ltac:(lia) (S m) ltac:(lia) eq_refl).
    - destruct (Nat.lt_ge_cases (length (into b d m)) (length (out_of a c N))) as [G2|G2]; [|exists m; split; [lia|exact G2]].
      exfalso. apply (NV m (le_n _)). eapply under_way; [apply n_hist|eapply joined_on; [|exact J]; lia|]. destruct (out_grows a c N m ltac:(lia)) as [more ->]. rewrite app_length. lia. }
  destruct (K _ N (le_n _) eq_refl) as (m & L & G). exists m. split; [exact L|].
  destruct (joined_stream _ _ _ _ _ _ _ _ (is_tnet _ _ _ _ (n_hist m)) (joined_on _ _ _ _ _ _ L J)) as (q & B & _). destruct (out_grows a c N m L) as [more E]. rewrite E in B.
  set (i0 := into b d m) in *. set (o0 := out_of a c N) in *. exists (skipn (length o0) i0). rewrite <- (firstn_skipn (length o0) i0) at 1. f_equal.
  apply (f_equal (firstn (length o0))) in B. rewrite !firstn_app, Nat.sub_diag in B. cbn [firstn] in B. rewrite app_nil_r, firstn_all in B.
  replace (length o0 - length i0) with 0 in B by lia. cbn [firstn] in B. rewrite app_nil_r in B. symmetry. exact B.
Qed.
Theorem read_on a c b d N : joined (qx_net (f N)) a c b d ->
  (exists m, N <= m /\ exists rest, concat (reads d (at_tcp b (streams_of (t m)))) = concat (map encode (accepted c (rt_tcp a (streams_of (t N))))) ++ rest) \/
  (exists m, N <= m /\ (~ conn_runs (t_rt (tn_node (qx_net (f m)) a)) c \/ ~ conn_runs (t_rt (tn_node (qx_net (f m)) b)) d)) \/ unread_at f t b d.
Proof.
  intros J. destruct (tcp_written_on bk cbk _ _ (load_at a) (at_endpoint _ _ _ _ a H) c N) as (m1 & L1 & [NR|(r1 & E1)]); [right; left; exists m1; auto|].
  destruct (arrives_on a c b d m1 (joined_on _ _ _ _ _ _ L1 J)) as (m2 & L2 & r2 & E2).
  destruct (all_read_on bk cbk _ _ (load_at b) (at_endpoint _ _ _ _ b H) d m2) as [(m3 & L3 & r3 & E3)|[(m3 & L3 & NR)|U]]; [left|right; left|right; right; exact U].
  - exists m3. split; [lia|]. exists (r1 ++ r2 ++ r3). unfold rt_tcp. rewrite !same_streams in *. rewrite E3, E2, E1, !app_assoc. reflexivity.
  - exists m3. split; [lia|]. right. exact NR.
Qed.
(** ** Messages *)
Lemma accepted_grows a c n m : n <= m -> exists more, accepted c (rt_tcp a (streams_of (t m))) = accepted c (rt_tcp a (streams_of (t n))) ++ more.
Proof.
  intros L. destruct (n_grows n m L) as [more ->]. unfold rt_tcp. rewrite streams_app, at_tcp_app, tcp_trace_app. unfold accepted. rewrite flat_map_app. eauto.
Qed.
Lemma messages_on a c b d N : joined (qx_net (f N)) a c b d ->
  (forall m, N <= m -> ordinary_at a (streams_of (t m)) /\ between_messages (accepted c (rt_tcp a (streams_of (t m)))) (reads d (at_tcp b (streams_of (t m))))) ->
  (exists m, N <= m /\ conn_runs (t_rt (tn_node (qx_net (f m)) b)) d /\ waiting (t_rt (tn_node (qx_net (f m)) b)) d = [] /\
    exists more, flat_map packet_messages (reads d (at_tcp b (streams_of (t m)))) = accepted c (rt_tcp a (streams_of (t N))) ++ more) \/
  (exists m, N <= m /\ (~ conn_runs (t_rt (tn_node (qx_net (f m)) a)) c \/ ~ conn_runs (t_rt (tn_node (qx_net (f m)) b)) d)) \/ unread_at f t b d.
Proof.
  intros J O. destruct (read_on a c b d N J) as [(m1 & L1 & r1 & E1)|K]; [|right; exact K].
  pose proof (load_at b) as RB. pose proof (at_endpoint _ _ _ _ b H) as HB. destruct (halves _ _ _ _ HB) as (HQ & _).
  destruct (emptied bk cbk false _ _ (seen_run bk cbk _ _ RB HB) HQ d N m1 L1) as [(m & x & L & X & A & W)|[(m & L & NR)|U]].
  - left. exists m. assert (LN : N <= m) by lia. split; [exact LN|].
    destruct (halves _ _ _ _ (at_endpoint _ _ _ _ b (n_hist m))) as (_ & _ & RT & _). cbn in RT, X. rewrite RT in X.
    split; [exists x; auto|]. split; [unfold waiting; rewrite X, W; reflexivity|].
    destruct (O m LN) as [Om B]. pose proof (is_tnet _ _ _ _ (n_hist m)) as HT. pose proof (joined_on _ _ _ _ _ _ LN J) as JM.
    destruct (joined_prefix _ _ _ _ _ _ _ _ HT JM) as [q P]. destruct (written_prefix _ _ _ _ c (tcp_at_history _ _ _ _ a HT) (Om c)) as [q' P'].
    destruct (reading _ _ _ _ (tcp_at_history _ _ _ _ b HT) d) as (RD & _).
    destruct (whole_reads (accepted c (rt_tcp a (streams_of (t m)))) (reads d (at_tcp b (streams_of (t m)))) (Om c)) as (k & K & K1 & K2).
    { eexists. unfold rt_tcp. rewrite P', P, RD, <- !app_assoc. reflexivity. }
    { exact B. }
    destruct (accepted_grows a c N m LN) as [more E]. rewrite K1, E. set (l0 := accepted c (rt_tcp a (streams_of (t N)))) in *.
    assert (LK : length l0 <= k).
    { destruct (Nat.le_gt_cases (length l0) k) as [|G]; [assumption|exfalso].
      assert (OR : Forall ordinary l0) by (apply (proj1 (O N (le_n _)) c)).
      assert (G1 : length (concat (reads d (at_tcp b (streams_of (t m1))))) <= length (concat (reads d (at_tcp b (streams_of (t m)))))).
      { destruct (n_grows m1 m L) as [mo ->]. rewrite streams_app, at_tcp_app, reads_app, concat_app, app_length. lia. }
      rewrite E1, app_length, K2, E in G1. fold l0 in G1. rewrite (encode_all l0 OR) in G1.
      rewrite firstn_app in G1. replace (k - length l0) with 0 in G1 by lia. cbn [firstn] in G1. rewrite app_nil_r in G1.
      pose proof (forms_grow l0 k (length l0) ltac:(lia) (le_n _)) as G'. rewrite firstn_all in G'. unfold msg in *. lia. }
    exists (firstn (k - length l0) more). rewrite firstn_app, firstn_all2 by exact LK. reflexivity.
  - right. left. exists m. split; [exact L|]. right. destruct (halves _ _ _ _ (at_endpoint _ _ _ _ b (n_hist m))) as (_ & _ & RT & _). cbn in RT, NR. rewrite RT in NR. exact NR.
  - right. right. exact U.
Qed.
(** A stub is given all that was accepted for it at the other end of a stream. *)
Theorem requests_on a c b d n id K N : K <= N -> joined (qx_net (f N)) a c b d ->
  served n id (rt_tcp b (streams_of (t K))) -> reads d (at_tcp b (streams_of (t K))) = [] ->
  (forall m, N <= m -> stub_exists (t_rt (tn_node (qx_net (f m)) b)) n /\ stub_listening (t_rt (tn_node (qx_net (f m)) b)) n) ->
  (forall m, N <= m -> ordinary_at a (streams_of (t m)) /\ never_cut (qx_net (f m)) (streams_of (t m))) ->
  (exists m, N <= m /\ exists more, map it_msg (from_conn d (stub_got n (rt_tcp b (streams_of (t m))) ++ stub_backlog (t_rt (tn_node (qx_net (f m)) b)) n)) =
    filter (of_id id) (accepted c (rt_tcp a (streams_of (t N)))) ++ more) \/
  (exists m, N <= m /\ (~ conn_runs (t_rt (tn_node (qx_net (f m)) a)) c \/ ~ conn_runs (t_rt (tn_node (qx_net (f m)) b)) d)) \/ unread_at f t b d.
Proof.
  intros LK J SV NO EX OC. destruct (messages_on a c b d N J) as [(m & L & C & W & more & E)|D]; [|left|right; exact D].
  { intros m L. destruct (OC m L) as [O NC]. split; [exact O|]. apply NC. eapply joined_on; eassumption. }
  exists m. split; [exact L|]. destruct (EX m L) as [SE SL]. destruct (n_grows K m ltac:(lia)) as [mo EM].
  pose proof (tcp_at_history _ _ _ _ b (is_tnet _ _ _ _ (n_hist m))) as HB. exists (filter (of_id id) more). rewrite <- filter_app, <- E.
  rewrite EM, streams_app in *. unfold rt_tcp in *. rewrite at_tcp_app in *. pose proof (tcp_stub_gets _ _ _ _ _ _ _ _ HB SV NO SE SL C) as G. rewrite W in G. cbn in G. rewrite app_nil_r in G. exact G.
Qed.
(** A proxy is given all that was accepted for it at the other end of a stream. *)
Theorem replies_on a c b d n id K N : K <= N -> joined (qx_net (f N)) a c b d ->
  proxied n id a (rt_tcp b (streams_of (t K))) -> reads d (at_tcp b (streams_of (t K))) = [] ->
  (forall m, N <= m -> proxy_exists (t_rt (tn_node (qx_net (f m)) b)) n /\ proxy_connected (t_rt (tn_node (qx_net (f m)) b)) n) ->
  (forall m, N <= m -> ordinary_at a (streams_of (t m)) /\ never_cut (qx_net (f m)) (streams_of (t m))) ->
  (exists m, N <= m /\ exists more, map it_msg (from_conn d (proxy_got n (rt_tcp b (streams_of (t m))) ++ proxy_backlog (t_rt (tn_node (qx_net (f m)) b)) n)) =
    filter (of_id id) (accepted c (rt_tcp a (streams_of (t N)))) ++ more) \/
  (exists m, N <= m /\ (~ conn_runs (t_rt (tn_node (qx_net (f m)) a)) c \/ ~ conn_runs (t_rt (tn_node (qx_net (f m)) b)) d)) \/ unread_at f t b d.
Proof.
  intros LK J SV NO EX OC. destruct (messages_on a c b d N J) as [(m & L & C & W & more & E)|D]; [|left|right; exact D].
  { intros m L. destruct (OC m L) as [O NC]. split; [exact O|]. apply NC. eapply joined_on; eassumption. }
  exists m. split; [exact L|]. destruct (EX m L) as [SE SL]. destruct (n_grows K m ltac:(lia)) as [mo EM].
  pose proof (tcp_at_history _ _ _ _ b (is_tnet _ _ _ _ (n_hist m))) as HB. exists (filter (of_id id) more). rewrite <- filter_app, <- E.
  destruct (joined_opened _ _ _ _ _ _ _ _ (is_tnet _ _ _ _ (n_hist m)) (joined_on _ _ _ _ _ _ L J)) as [_ OP].
  rewrite EM, streams_app in *. unfold rt_tcp in *. rewrite at_tcp_app in *. pose proof (tcp_proxy_gets _ _ _ _ _ _ _ _ _ HB SV NO OP SE SL C) as G. rewrite W in G. cbn in G. rewrite app_nil_r in G. exact G.
Qed.
(** ** What waits is received *)
Lemma rt_after b n m : n <= m -> exists tr, rt_tcp b (streams_of (t m)) = rt_tcp b (streams_of (t n)) ++ tr /\
  steps bk cbk (t_rt (tn_node (qx_net (f n)) b)) tr (t_rt (tn_node (qx_net (f m)) b)).
Proof.
  intros L. pose proof (at_endpoint _ _ _ _ b H) as HB.
  destruct (after bk cbk _ _ (seen_run bk cbk _ _ (load_at b) HB) n m L) as (tr & E & S).
  destruct (halves _ _ _ _ (at_endpoint _ _ _ _ b (n_hist n))) as (_ & _ & R1 & T1).
  destruct (halves _ _ _ _ (at_endpoint _ _ _ _ b (n_hist m))) as (_ & _ & R2 & T2).
  cbn [endpoint qt_calls qt_node] in *. exists (rt_trace tr). unfold rt_tcp. rewrite !same_streams, <- T1, <- T2, <- R1, <- R2, E, QueueTcpTheorems.rt_app. split; [reflexivity|].
  clear - S. induction S as [q|q x o l q1 tr q2 S1 S2 IH]; [constructor|]. apply qstepped in S1. apply below in S1. cbn. eapply steps_app; eassumption.
Qed.
Lemma n_runs_dec b d m : conn_runs (t_rt (tn_node (qx_net (f m)) b)) d \/ ~ conn_runs (t_rt (tn_node (qx_net (f m)) b)) d.
Proof.
  destruct (halves _ _ _ _ (at_endpoint _ _ _ _ b (n_hist m))) as (_ & _ & E & _). cbn in E. rewrite <- E. exact (runs_dec (fun m => qx_calls (f m) b) d m).
Qed.
Lemma drained {A} (G B : nat -> list A) (Q : nat -> Prop) (X : list A) m0 :
  (forall m, m0 <= m -> Q m \/ exists more, G m ++ B m = X ++ more) ->
  (forall m, m0 <= m -> exists m', m <= m' /\ (B m' = [] \/ length (G m) < length (G m'))) ->
  (exists m, m0 <= m /\ exists more, G m = X ++ more) \/ exists m, m0 <= m /\ Q m.
Proof.
  intros P E. assert (K : forall k m, m0 <= m -> length X - length (G m) = k -> (exists m, m0 <= m /\ exists more, G m = X ++ more) \/ exists m, m0 <= m /\ Q m).
  { intros k. induction k as [k IH] using lt_wf_ind. intros m L D. destruct (E m L) as (m' & L' & C). assert (L0 : m0 <= m') by lia.
    destruct (P m' L0) as [q|[more W]]; [right; eauto|]. destruct (Nat.le_gt_cases (length X) (length (G m'))) as [Y|Y].
    - left. exists m'. split; [exact L0|]. exists (skipn (length X) (G m')). rewrite <- (firstn_skipn (length X) (G m')) at 1. f_equal.
      apply (f_equal (firstn (length X))) in W. rewrite !firstn_app, firstn_all, Nat.sub_diag in W. replace (length X - length (G m')) with 0 in W by lia. cbn [firstn] in W. rewrite !app_nil_r in W. exact W.
    - destruct C as [C|C]; [exfalso; apply (f_equal (@length A)) in W; rewrite C, !app_length in W; cbn in W; lia|].
      eapply (IH (length X - length (G m'))); [lia|exact L0|reflexivity]. }
  exact (K _ m0 (le_n _) eq_refl).
Qed.
Theorem requests_received a c b d n id K N : K <= N -> joined (qx_net (f N)) a c b d ->
  served n id (rt_tcp b (streams_of (t K))) -> reads d (at_tcp b (streams_of (t K))) = [] ->
  (forall m, N <= m -> stub_exists (t_rt (tn_node (qx_net (f m)) b)) n /\ stub_listening (t_rt (tn_node (qx_net (f m)) b)) n) ->
  (forall m, N <= m -> ordinary_at a (streams_of (t m)) /\ never_cut (qx_net (f m)) (streams_of (t m))) ->
  stub_emptied f t b n N ->
  (exists m, N <= m /\ exists more, map it_msg (from_conn d (stub_got n (rt_tcp b (streams_of (t m))))) =
    filter (of_id id) (accepted c (rt_tcp a (streams_of (t N)))) ++ more) \/
  (exists m, N <= m /\ (~ conn_runs (t_rt (tn_node (qx_net (f m)) a)) c \/ ~ conn_runs (t_rt (tn_node (qx_net (f m)) b)) d)) \/ unread_at f t b d.
Proof.
  intros LK J SV NO EX OC EM. destruct (requests_on a c b d n id K N LK J SV NO EX OC) as [(m0 & L0 & more & E)|D]; [|right; exact D].
  assert (SV0 : served n id (rt_tcp b (streams_of (t m0)))).
  { destruct (rt_after b K m0 ltac:(lia)) as (tr & -> & _). destruct SV as [e I]. exists e. apply in_or_app. left. exact I. }
  destruct (drained (fun m => stub_got n (rt_tcp b (streams_of (t m)))) (fun m => stub_backlog (t_rt (tn_node (qx_net (f m)) b)) n)
    (fun m => ~ conn_runs (t_rt (tn_node (qx_net (f m)) b)) d) (stub_got n (rt_tcp b (streams_of (t m0))) ++ stub_backlog (t_rt (tn_node (qx_net (f m0)) b)) n) m0) as [(m & L & r & G)|(m & L & NR)].
  - intros m L. destruct (n_runs_dec b d m) as [C|C]; [right|left; exact C].
    destruct (rt_after b m0 m L) as (tr & -> & S). destruct (EX m ltac:(lia)) as [SE SL].
    destruct (nothing_lost_stub _ _ _ _ _ _ _ _ _ _ (tcp_history _ _ _ _ (tcp_at_history _ _ _ _ b (is_tnet _ _ _ _ (n_hist m0)))) SV0 S SE SL C) as (r & G & _). exists r. exact G.
  - intros m L. apply EM. lia.
  - left. exists m. split; [lia|]. exists (more ++ map it_msg (from_conn d r)). cbn beta in G. rewrite G, from_conn_app, map_app, E, app_assoc. reflexivity.
  - right. left. exists m. split; [lia|right; exact NR].
Qed.
Theorem replies_received a c b d n id K N : K <= N -> joined (qx_net (f N)) a c b d ->
  proxied n id a (rt_tcp b (streams_of (t K))) -> reads d (at_tcp b (streams_of (t K))) = [] ->
  (forall m, N <= m -> proxy_exists (t_rt (tn_node (qx_net (f m)) b)) n /\ proxy_connected (t_rt (tn_node (qx_net (f m)) b)) n) ->
  (forall m, N <= m -> ordinary_at a (streams_of (t m)) /\ never_cut (qx_net (f m)) (streams_of (t m))) ->
  proxy_emptied f t b d n N ->
  (exists m, N <= m /\ exists more, map it_msg (from_conn d (proxy_got n (rt_tcp b (streams_of (t m))))) =
    filter (of_id id) (accepted c (rt_tcp a (streams_of (t N)))) ++ more) \/
  (exists m, N <= m /\ (~ conn_runs (t_rt (tn_node (qx_net (f m)) a)) c \/ ~ conn_runs (t_rt (tn_node (qx_net (f m)) b)) d)) \/ unread_at f t b d.
Proof.
  intros LK J SV NO EX OC EM. destruct (replies_on a c b d n id K N LK J SV NO EX OC) as [(m0 & L0 & more & E)|D]; [|right; exact D].
  assert (SV0 : proxied n id a (rt_tcp b (streams_of (t m0)))).
  { destruct (rt_after b K m0 ltac:(lia)) as (tr & -> & _). destruct SV as [e I]. exists e. apply in_or_app. left. exact I. }
  destruct (drained (fun m => from_conn d (proxy_got n (rt_tcp b (streams_of (t m))))) (fun m => from_conn d (proxy_backlog (t_rt (tn_node (qx_net (f m)) b)) n))
    (fun m => ~ conn_runs (t_rt (tn_node (qx_net (f m)) b)) d) (from_conn d (proxy_got n (rt_tcp b (streams_of (t m0))) ++ proxy_backlog (t_rt (tn_node (qx_net (f m0)) b)) n)) m0) as [(m & L & r & G)|(m & L & NR)].
  - intros m L. destruct (n_runs_dec b d m) as [C|C]; [right|left; exact C].
    destruct (joined_opened _ _ _ _ _ _ _ _ (is_tnet _ _ _ _ (n_hist m)) (joined_on _ _ _ _ N m ltac:(lia) J)) as [_ OP].
    destruct (rt_after b m0 m L) as (tr & Et & S). unfold rt_tcp in Et, OP |- *. rewrite Et in OP |- *. destruct (EX m ltac:(lia)) as [SE SL].
    destruct (nothing_lost_proxy _ _ _ _ _ _ _ _ _ _ _ (tcp_history _ _ _ _ (tcp_at_history _ _ _ _ b (is_tnet _ _ _ _ (n_hist m0)))) SV0 OP S SE SL C) as (r & G & _). exists r. rewrite <- from_conn_app. exact G.
  - intros m L. apply EM. lia.
  - left. exists m. split; [lia|]. exists (more ++ map it_msg r). cbn beta in G. rewrite G, map_app, E, app_assoc. reflexivity.
  - right. left. exists m. split; [lia|right; exact NR].
Qed.
End Run.
End Locks.
