(** Theorems about systems that go on as long as there is something to do. *)
From Coq Require Import List NArith Bool PeanoNat Lia Wf_nat.
From Verif Require Import BytesModel MapModel EndpointProofs RuntimeModel RuntimeSpec RuntimeProofs RuntimeWorkTheorems NodeModel NodeSpec ExchangeSpec TcpNodeModel TcpNodeSpec TcpRestSpec
  TcpModel TcpSpec TcpNodeTheorems LexTheorems TcpNetModel TcpNetSpec TcpNetTheorems TcpNetRestTheorems FairSpec.
From Verif Require ExchangeRestTheorems TcpRestTheorems.
Import ListNotations.
Open Scope nat_scope.

(** [past] are the histories, [rest] what is to be reached; [mu] goes down with every step that does
    something, and never up. *)
Section Fair.
Context {A X M : Type} (go : A -> X -> A -> Prop) (can : A -> Prop) (does : A -> X -> A -> Prop).
Context (past rest : list X -> A -> Prop) (mu : list X -> A -> M) (less : M -> M -> Prop).
Context (wf : well_founded less).
Context (past_go : forall tr s x s', past tr s -> go s x s' -> past (tr ++ [x]) s').
Context (go_down : forall tr s x s', past tr s -> go s x s' -> mu (tr ++ [x]) s' = mu tr s \/ less (mu (tr ++ [x]) s') (mu tr s)).
Context (does_down : forall tr s x s', past tr s -> go s x s' -> does s x s' -> less (mu (tr ++ [x]) s') (mu tr s)).
Context (on : forall tr s, past tr s -> can s \/ rest tr s).

Lemma fair_past f t : fair_run go can does f t -> past (t 0) (f 0) -> forall n, past (t n) (f n).
Proof.
  intros R P n. induction n as [|n IH]; [exact P|]. destruct (goes_on _ _ _ _ _ R n) as [[-> ->]|(x & G & ->)]; [exact IH|]. eapply past_go; eassumption.
Qed.
Lemma fair_rest f t : fair_run go can does f t -> past (t 0) (f 0) -> forall k, exists n, k <= n /\ rest (t n) (f n).
Proof.
  intros R P k. pose proof (fair_past _ _ R P) as PN. remember (mu (t k) (f k)) as u eqn:U. revert k U.
  induction u as [u IH] using (well_founded_induction wf). intros k U.
  destruct (never_stops _ _ _ _ _ R k) as (m & L & [C|(x & T & G & D)]).
  { exists m. split; [exact L|]. destruct (on _ _ (PN m)) as [C'|Q]; [contradiction|exact Q]. }
  assert (W : forall d i, i + d = m -> k <= i -> mu (t i) (f i) = mu (t k) (f k) -> exists n, k <= n /\ rest (t n) (f n)).
  { induction d as [|d IHd]; intros i E KI MI.
    - assert (i = m) by lia. subst i. destruct (IH (mu (t (S m)) (f (S m)))) with (k := S m) as (n & L' & Q); [|reflexivity|exists n; split; [lia|exact Q]].
      rewrite U, <- MI, T. eapply does_down; [apply PN|exact G|exact D].
    - destruct (goes_on _ _ _ _ _ R i) as [[F F']|(y & Gy & F')].
      + apply (IHd (S i)); [lia|lia|congruence].
      + pose proof (go_down _ _ _ _ (PN i) Gy) as F. rewrite <- F' in F. destruct F as [F|F]; [apply (IHd (S i)); [lia|lia|congruence]|].
        destruct (IH (mu (t (S i)) (f (S i)))) with (k := S i) as (n & L' & Q); [rewrite U, <- MI; exact F|reflexivity|exists n; split; [lia|exact Q]]. }
  apply (W (m - k) k); [lia|lia|reflexivity].
Qed.
(** What every step keeps stays. *)
Lemma fair_keeps (P : list X -> A -> Prop) f t : fair_run go can does f t -> past (t 0) (f 0) -> (forall tr s x s', past tr s -> P tr s -> go s x s' -> P (tr ++ [x]) s') ->
  forall n, P (t n) (f n) -> forall m, n <= m -> P (t m) (f m).
Proof.
  intros R P0 K n Q m L. induction L as [|m L IH]; [exact Q|]. destruct (goes_on _ _ _ _ _ R m) as [[-> ->]|(x & G & ->)]; [exact IH|].
  eapply K; [exact (fair_past _ _ R P0 m)|exact IH|exact G].
Qed.
End Fair.

(** A finite run to where nothing can be done any more is the beginning of such a run. *)
Lemma fair_exists {A X} (go : A -> X -> A -> Prop) can does l : forall s t0 s', goes_to go s l s' -> ~ can s' ->
  exists f t, fair_run go can does f t /\ f 0 = s /\ t 0 = t0 /\ forall m, length l <= m -> f m = s' /\ t m = t0 ++ l.
Proof.
  induction l as [|x l IH]; intros s t0 s' G C; inversion G; subst.
  - exists (fun _ => s'), (fun _ => t0). split; [|rewrite app_nil_r; auto]. constructor; [intros n; left; auto|]. intros n. exists n. auto.
  - destruct (IH s1 (t0 ++ [x]) s' H4 C) as (f & t & R & F & T & E).
    exists (fun n => match n with 0 => s | S n => f n end), (fun n => match n with 0 => t0 | S n => t n end). split; [|split; [reflexivity|split; [reflexivity|]]].
    + constructor.
      * intros [|n]; [|apply (goes_on _ _ _ _ _ R)]. right. exists x. rewrite F, T. auto.
      * intros n. exists (S (n + length l)). split; [lia|]. left. rewrite (proj1 (E (n + length l) ltac:(lia))). exact C.
    + intros [|m] L; cbn in L; [lia|]. destruct (E m ltac:(lia)) as [-> ->]. rewrite <- app_assoc. auto.
Qed.

Section Locks.
Context (bk : iid -> N) (cbk : N -> N).

(** Once nothing is left to do, that stays so. *)
Ltac cases_in H :=
  repeat (match type of H with
  | context [match ?x with _ => _ end] =>
      lazymatch x with context [match _ with _ => _ end] => fail | _ => destruct x eqn:? end
  end; try discriminate H).
Lemma conn_gone s c : idle s -> idle (upd_conn c end_conn s).
Proof.
  intros [C S R SB PB CM LS]. constructor; try assumption.
  - intros d. specialize (R d). unfold waiting in *. cbn. destruct (Nat.eq_dec d c) as [->|N]; [|rewrite nth_upd_other by congruence; exact R].
    rewrite nth_upd_same. destruct (nth_error (r_conns s) c); reflexivity.
  - cbn. intros d x X. apply upd_is in X. destruct X as [[_ X]|(_ & y & _ & ->)]; [eapply CM; exact X|split; reflexivity].
Qed.
Lemma lsnr_gone s l : idle s -> idle (upd_lsnr l end_lsnr s).
Proof.
  intros [C S R SB PB CM LS]. constructor; try assumption.
  cbn. intros d x X. apply upd_is in X. destruct X as [[_ X]|(_ & y & _ & ->)]; [eapply LS; exact X|split; reflexivity].
Qed.
Lemma queue_shut s i j : match nth_error (r_ifaces (upd_iface i i_shut s)) j with Some y => i_queue y | None => [] end =
  match nth_error (r_ifaces s) j with Some y => i_queue y | None => [] end.
Proof.
  cbn. destruct (Nat.eq_dec j i) as [->|N]; [|rewrite nth_upd_other by exact N; reflexivity]. rewrite nth_upd_same. destruct (nth_error (r_ifaces s) i); reflexivity.
Qed.
Lemma stub_gone s n i : idle s -> idle (upd_iface i i_shut (upd_stub n end_stub s)).
Proof.
  intros [C S R SB PB CM LS]. constructor; try assumption.
  - intros k (t & X & P). cbn in X. apply upd_is in X. destruct X as [[_ X]|(_ & y & _ & ->)]; [apply (S k); exists t; auto|exact (P eq_refl)].
  - intros k (t & X & A). cbn in X. unfold stub_backlog. change (r_stubs (upd_iface i i_shut (upd_stub n end_stub s))) with (upd n end_stub (r_stubs s)).
    rewrite X. rewrite queue_shut. apply upd_is in X. destruct X as [[_ X]|(_ & y & _ & ->)]; [|discriminate A].
    specialize (SB k (ex_intro _ t (conj X A))). unfold stub_backlog in SB. rewrite X in SB. exact SB.
  - intros k E. specialize (PB k E). unfold proxy_backlog in *. change (r_proxies (upd_iface i i_shut (upd_stub n end_stub s))) with (r_proxies s).
    destruct (nth_error (r_proxies s) k); [|reflexivity]. rewrite queue_shut. exact PB.
Qed.
Lemma proxy_gone s n i : idle s -> idle (upd_iface i i_shut (upd_proxy n end_proxy s)).
Proof.
  intros [C S R SB PB CM LS]. constructor; try assumption.
  - intros k E. specialize (SB k E). unfold stub_backlog in *. change (r_stubs (upd_iface i i_shut (upd_proxy n end_proxy s))) with (r_stubs s).
    destruct (nth_error (r_stubs s) k); [|reflexivity]. rewrite queue_shut. exact SB.
  - intros k (t & X & A). cbn in X. unfold proxy_backlog. change (r_proxies (upd_iface i i_shut (upd_proxy n end_proxy s))) with (upd n end_proxy (r_proxies s)).
    rewrite X. rewrite queue_shut. apply upd_is in X. destruct X as [[_ X]|(_ & y & _ & ->)]; [|discriminate A].
    specialize (PB k (ex_intro _ t (conj X A))). unfold proxy_backlog in PB. rewrite X in PB. exact PB.
Qed.
Lemma idle_stays s e s' o : idle s -> brings e = None -> step bk cbk s e = Some (s', o) -> idle s' /\ (cooperative e -> o = OPending \/ o = OClosed).
Proof.
  intros I B ST. pose proof I as [[C CL] S R SB PB CM LS].
  destruct e; try discriminate B; cbn [RuntimeModel.step] in ST; unfold step_ep, step_take in ST; rewrite ?C, ?CL in ST; try discriminate ST; try (destruct k; discriminate ST).
  - (* EClose *) cases_in ST. injection ST as <- <-. split; [constructor; assumption || (split; assumption)|intros []].
  - (* EEnd *) cases_in ST. injection ST as <- <-. split; [apply conn_gone; exact I|intros []].
  - (* ERoute *) exfalso. destruct (nth_error (r_conns s) c) as [x|] eqn:X; [|discriminate ST]. destruct (c_alive x); [|discriminate ST].
    specialize (R c). unfold waiting in R. rewrite X in R. unfold step_route in ST. destruct (c_recv x) as [[|it q]|]; discriminate R || discriminate ST.
  - (* ESender *) exfalso. destruct (nth_error (r_conns s) c) as [x|] eqn:X; [|discriminate ST]. destruct (CM _ _ X) as [E1 E2]. rewrite E1, E2 in ST. destruct (c_alive x); discriminate ST.
  - (* ESocket *) exfalso. destruct (nth_error (r_conns s) c) as [x|] eqn:X; [|discriminate ST]. destruct (CM _ _ X) as [E1 E2]. rewrite E2 in ST. destruct (c_alive x); discriminate ST.
  - (* EUnowned *) cases_in ST. injection ST as <- <-. split; [apply conn_gone; exact I|intros []].
  - (* EAcceptEnd *) cases_in ST. injection ST as <- <-. split; [apply lsnr_gone; exact I|intros []].
  - (* EAcceptShare *) exfalso. destruct (nth_error (r_lsnrs s) l) as [x|] eqn:X; [|discriminate ST]. destruct (LS _ _ X) as [E1 E2]. rewrite E2 in ST. destruct (l_alive x); discriminate ST.
  - (* EListener *) exfalso. destruct (nth_error (r_lsnrs s) l) as [x|] eqn:X; [|discriminate ST]. destruct (LS _ _ X) as [E1 E2]. rewrite E1 in ST. destruct (l_alive x); discriminate ST.
  - (* EUnowned_listener *) cases_in ST. injection ST as <- <-. split; [apply lsnr_gone; exact I|intros []].
  - (* EStub *) exfalso. destruct (nth_error (r_stubs s) n) as [t|] eqn:X; [|discriminate ST]. destruct (st_alive t); [|discriminate ST].
    unfold step_stub in ST. destruct (st_pc t) eqn:P; [discriminate ST|..]; apply (S n); exists t; (split; [exact X|congruence]).
  - (* ECancel *) exfalso. destruct (nth_error (r_stubs s) n) as [t|] eqn:X; [|discriminate ST]. destruct (st_alive t); [|discriminate ST].
    destruct (st_pc t) eqn:P; [discriminate ST|..]; apply (S n); exists t; (split; [exact X|congruence]).
  - (* ERecvFrom *) destruct (nth_error (r_stubs s) n) as [t|] eqn:X; [|discriminate ST]. destruct (st_alive t) eqn:A; [|discriminate ST]. destruct (st_pc t); try discriminate ST.
    specialize (SB n (ex_intro _ t (conj X A))). unfold stub_backlog in SB. rewrite X in SB. unfold i_recv in ST.
    destruct (nth_error (r_ifaces s) (st_iface t)) as [y|]; [|discriminate ST]. rewrite SB in ST. destruct (iface_strong _ _); injection ST as <- <-; (split; [exact I|auto]).
  - (* EDropStub *) cases_in ST. injection ST as <- <-. split; [apply stub_gone; exact I|intros []].
  - (* EProxyRecv *) destruct (nth_error (r_proxies s) n) as [t|] eqn:X; [|discriminate ST]. destruct (px_alive t) eqn:A; [|discriminate ST].
    specialize (PB n (ex_intro _ t (conj X A))). unfold proxy_backlog in PB. rewrite X in PB. unfold i_recv in ST.
    destruct (nth_error (r_ifaces s) (px_iface t)) as [y|]; [|discriminate ST]. rewrite PB in ST. destruct (iface_strong _ _); injection ST as <- <-; (split; [exact I|auto]).
  - (* EDropProxy *) cases_in ST. injection ST as <- <-. split; [apply proxy_gone; exact I|intros []].
Qed.
Lemma idle_done s : idle s -> ~ rt_can bk cbk s.
Proof. intros I (e & s' & o & C & ST & N1 & N2). destruct (idle_stays _ _ _ _ I (ExchangeRestTheorems.coop_brings _ C) ST) as [_ K]. destruct (K C); contradiction. Qed.
Theorem rt_comes_to_rest dg f t : rt_fair bk cbk f t -> history bk cbk dg (t 0) (f 0) -> forall k, exists n, k <= n /\
  history bk cbk dg (t n) (f n) /\ ((forall m, n <= m -> idle (f m)) \/ exists c i, jammed bk (t n) (f n) c i).
Proof.
  intros R H k. assert (PG : forall tr s x s', history bk cbk dg tr s -> rt_goes bk cbk s x s' -> history bk cbk dg (tr ++ [x]) s').
  { intros tr s [e o] s' P [_ G]. eapply h_more; eassumption. }
  destruct (fair_rest (rt_goes bk cbk) (rt_can bk cbk) (fun _ p _ => works p = true) (history bk cbk dg) (fun tr s => idle s \/ exists c i, jammed bk tr s c i) (fun _ => left_to_do) lt lt_wf PG) with (f := f) (t := t) (k := k) as (n & L & Q);
    [| | |exact R|exact H|exists n; split; [exact L|]; split; [exact (fair_past _ _ _ (history bk cbk dg) PG _ _ R H n)|]; destruct Q as [Q|Q]; [left|right; exact Q];
     apply (fair_keeps _ _ _ (history bk cbk dg) PG (fun _ => idle) _ _ R H); [intros tr s [e o] s' _ J [B G]; exact (proj1 (idle_stays _ _ _ _ J B G))|exact Q]].
  - intros tr s [e o] s' P [B G]. cbn [fst snd] in *. pose proof (work_step _ _ _ _ _ _ G) as W. unfold works in W. cbn [fst snd] in W. rewrite B in W. destruct o; lia.
  - intros tr s [e o] s' P [B G] D. cbn [fst snd] in *. pose proof (work_step _ _ _ _ _ _ G) as W. rewrite D, B in W. lia.
  - intros tr s P. destruct (progress _ _ _ _ _ P) as [C|Q]; [left|right; exact Q]. destruct C as (e & s' & o & C & G & N1 & N2). exists e, s', o. auto.
Qed.
(** An endpoint over UDP at rest: nothing changes any more. *)
Lemma udp_done tr s e s' x : nhistory bk cbk tr s -> at_peace bk cbk s -> caught_up s -> settles e -> node_step bk cbk s e = Some (s', x) -> s' = s.
Proof.
  intros H PE CU Q ST. destruct (ExchangeRestTheorems.settle_less _ _ _ _ _ _ _ H Q ST) as [E|L]; [exact E|exfalso].
  destruct e as [e| | | |c|c os|l|c|l|]; try contradiction Q; cbn [settles] in Q; cbn [NodeModel.node_step] in ST.
  - destruct (internal e); [|discriminate]. destruct (step bk cbk (n_rt s) e) as [[r o]|] eqn:S; [|discriminate].
    pose proof (proj2 (idle_stays _ _ _ _ (nothing_to_do _ _ _ PE) (ExchangeRestTheorems.coop_brings _ Q) S) Q) as N. pose proof (ExchangeRestTheorems.no_news_same _ _ _ _ _ _ Q S N) as ->. rewrite Nat.ltb_irrefl in ST.
    assert (s' = s) as -> by (destruct N as [->| ->]; injection ST as <- <-; destruct s; reflexivity). exact (ExchangeRestTheorems.less_not _ L).
  - exact (nothing_arriving _ _ _ PE _ _ ST).
  - destruct (nth_error (n_chan s) c) as [k|] eqn:K; [|discriminate]. destruct (UdpModel.step (n_udp s) (UdpModel.ERecv k)) as [[u q]|] eqn:US; [|discriminate].
    assert (X : exists x, nth_error (r_conns (n_rt s)) c = Some x /\ c_alive x = true).
    { unfold answer, pair_step in ST. destruct q; try discriminate; (destruct (step bk cbk (n_rt s) _) as [[r o]|] eqn:S; [|discriminate]); cbn in S;
      (destruct (nth_error (r_conns (n_rt s)) c) as [y|]; [|discriminate]); (destruct (c_alive y) eqn:A; [|discriminate]); eauto. }
    destruct X as (y & Y & A). cbn in US. destruct (nth_error (UdpModel.u_chans (n_udp s)) k) as [ch|] eqn:C; [|discriminate].
    destruct (UdpModel.c_rx ch && _); [|discriminate]. pose proof (all_taken _ CU _ _ _ _ Y A K C) as E. rewrite (conns_open _ CU _ _ _ Y A K) in US. unfold UdpModel.chan_recv in US.
    destruct (Nat.ltb_spec (UdpModel.c_next ch + UdpModel.c_cap ch) (length (UdpModel.c_sent ch))); [lia|]. rewrite (proj2 (nth_error_None _ _)) in US by lia. cbn in US. injection US as <- <-. discriminate ST.
  - destruct (nth_error (r_conns (n_rt s)) c) as [y|] eqn:Y; [|discriminate]. destruct (nth_error (n_chan s) c); [|discriminate].
    destruct (all_sent _ (nothing_to_do _ _ _ PE) _ _ Y) as [_ O]. rewrite O in ST. discriminate.
  - destruct (nth_error (n_lst s) l) as [k|] eqn:K; [|discriminate]. destruct (UdpModel.step (n_udp s) (UdpModel.EAccept k)) as [[u q]|] eqn:US; [|discriminate].
    assert (X : exists x, nth_error (r_lsnrs (n_rt s)) l = Some x /\ l_alive x = true).
    { unfold answer, pair_step in ST. destruct q; try discriminate; (destruct (step bk cbk (n_rt s) _) as [[r o]|] eqn:S; [|discriminate]); cbn in S;
      (destruct (nth_error (r_lsnrs (n_rt s)) l) as [y|]; [|discriminate]); (destruct (l_alive y) eqn:A; [|discriminate]); eauto. }
    destruct X as (y & Y & A). cbn in US. destruct (nth_error (UdpModel.u_lsts (n_udp s)) k) as [z|] eqn:Z; [|discriminate]. destruct (UdpModel.l_rx z); [|discriminate].
    rewrite (all_let_in _ CU _ _ _ _ Y A K Z), (lsnrs_open _ CU _ _ _ Y A K) in US. injection US as <- <-. discriminate ST.
  - destruct (nth_error (r_conns (n_rt s)) c) as [y|] eqn:Y; [|discriminate]. destruct (nth_error (n_chan s) c) as [k|] eqn:K; [|discriminate].
    destruct (c_alive y) eqn:A; [discriminate|]. unfold socket_step in ST. cbn in ST. destruct (nth_error (UdpModel.u_chans (n_udp s)) k) as [ch|] eqn:C; [|discriminate].
    rewrite (no_receiver_left _ CU _ _ _ _ Y A K C) in ST. discriminate.
  - destruct (nth_error (r_lsnrs (n_rt s)) l) as [y|] eqn:Y; [|discriminate]. destruct (nth_error (n_lst s) l) as [k|] eqn:K; [|discriminate].
    destruct (l_alive y) eqn:A; [discriminate|]. unfold socket_step in ST. cbn in ST. destruct (nth_error (UdpModel.u_lsts (n_udp s)) k) as [z|] eqn:Z; [|discriminate].
    rewrite (no_listener_left _ CU _ _ _ _ Y A K Z) in ST. discriminate.
  - destruct (ep_strong (n_rt s)) eqn:ES; [discriminate|]. destruct (r_ep (n_rt s)); try discriminate. destruct (r_left (n_rt s)); [|discriminate].
    unfold socket_step in ST. cbn in ST. rewrite (no_socket_left _ CU ES) in ST. discriminate.
Qed.
(** All is read if nothing is there to read. *)
Lemma read_kept tr s e x : thistory bk cbk tr s -> all_read tr s -> tnode_step bk cbk s e = Some (s, x) -> all_read (tr ++ [(e, x)]) s.
Proof.
  intros H A ST c RN. destruct (reading _ _ _ _ H c) as (R1 & _ & _). rewrite (A c RN) in R1.
  destruct (reading _ _ _ _ (t_more _ _ _ _ _ _ _ H ST) c) as (R2 & _ & _). rewrite R2.
  replace (t_avail (k_in (lk s c))) with (@nil N); [rewrite app_nil_r; reflexivity|].
  destruct (t_avail (k_in (lk s c))); [reflexivity|]. apply (f_equal (@length _)) in R1. rewrite app_length in R1. cbn in R1. lia.
Qed.
(** At rest nothing changes any more. *)
Lemma tcp_done tr s e s' x : thistory bk cbk tr s -> idle (t_rt s) -> all_read tr s -> tcp_settles s e -> tnode_step bk cbk s e = Some (s', x) -> s' = s.
Proof.
  intros H I A Q ST. pose proof (links_length _ _ _ _ H) as LL.
  destruct (tnode_stepped _ _ _ _ _ _ ST) as
    [e r o n IN S N|c d k K F|c k K|c q d t k r o n K R S N|c q t k r o n K R S N|c q y k bs w z r o n Y K O W S N|c q y k bs w z r o n Y K O W S N|c q y k bs w z Y K O W];
    cbn [tcp_settles] in Q; try contradiction Q.
  - pose proof (proj2 (idle_stays _ _ _ _ I (ExchangeRestTheorems.coop_brings _ Q) S) Q) as B.
    pose proof (ExchangeRestTheorems.no_news_same _ _ _ _ _ _ Q S B) as ->. rewrite N, LL, Nat.sub_diag. cbn. rewrite app_nil_r. destruct s; reflexivity.
  - destruct (recv_one _ _ _ _ R) as (_ & AV & F).
    assert (RN : conn_runs (t_rt s) c).
    { cbn in S. unfold conn_runs. destruct (nth_error (r_conns (t_rt s)) c) as [y|]; [|discriminate]. destruct (c_alive y) eqn:E; [eauto|discriminate]. }
    destruct (reading _ _ _ _ H c) as (RD & _ & _). rewrite (A c RN) in RD. rewrite (lk_is _ _ _ K) in RD.
    assert (E : t_avail (k_in k) = []) by (destruct (t_avail (k_in k)); [reflexivity|]; apply (f_equal (@length _)) in RD; rewrite app_length in RD; cbn in RD; lia).
    rewrite AV in E. apply app_eq_nil in E. destruct E as [-> E]. cbn in AV. assert (t = k_in k) as -> by (destruct t, (k_in k); cbn in *; congruence). subst n.
    eapply TcpRestTheorems.empty_read; eassumption.
  - exfalso. destruct Q as ([J|[J J']] & RD); destruct q as [rd w]; cbn in J; subst rd; [discriminate R|].
    cbn in J'. destruct w as [m|]; [|congruence]. destruct (RD eq_refl) as (k' & K' & G). rewrite K in K'. injection K' as <-. cbn in R.
    destruct (t_avail (k_in k)); [|discriminate R]. destruct G as [G|G]; [congruence|]. rewrite G in R. discriminate R.
  - destruct (all_sent _ I _ _ Y). congruence.
  - destruct (all_sent _ I _ _ Y). congruence.
  - destruct (all_sent _ I _ _ Y). congruence.
Qed.
Lemma net_done tr w e w' x : tnet_history bk cbk tr w -> net_at_rest tr w -> net_settles w e -> tnet_step bk cbk w e = Some (w', x) -> same w w'.
Proof.
  intros H (U & AC & TO & ID) Q ST. pose proof (net_inv _ _ _ _ H) as V. destruct (net_stepped _ _ _ _ _ _ ST) as (a & f & y & s' & -> & E & NW & W).
  pose proof (tcp_at_history _ _ _ _ a H) as HA.
  assert (NS : forall ws, tn_wires w' = ws -> ws = tn_wires w -> s' = tn_node w a -> same w w').
  { intros ws W1 W2 S. split; [congruence|]. intros b. rewrite NW. unfold set_tnode. destruct (N.eqb_spec b a) as [->|]; congruence. }
  assert (FB : forall c k (d : list N), nth_error (t_links (tn_node w a)) c = Some k -> t_fin (k_in k) = false -> d = [] ->
    mkTN (t_rt (tn_node w a)) (upd c (k_with_in (mkT (t_avail (k_in k) ++ d) false)) (t_links (tn_node w a))) = tn_node w a).
  { intros c k d K FN ->. rewrite (upd_same _ _ _ _ K); [destruct (tn_node w a); reflexivity|]. rewrite app_nil_r. destruct k as [[av fn] ks]. cbn in *. subst fn. reflexivity. }
  assert (FE : forall c k, nth_error (t_links (tn_node w a)) c = Some k -> peer_closed c (at_tcp a tr) ->
    mkTN (t_rt (tn_node w a)) (upd c (k_with_in (mkT (t_avail (k_in k)) true)) (t_links (tn_node w a))) = tn_node w a).
  { intros c k K P. destruct (reading _ _ _ _ HA c) as (_ & FI & _). apply FI in P. rewrite (lk_is _ _ _ K) in P.
    rewrite (upd_same _ _ _ _ K); [destruct (tn_node w a); reflexivity|]. destruct k as [[av fn] ks]. cbn in *. subst fn. reflexivity. }
  remember (tn_wires w') as ws' eqn:WS.
  destruct W as [F|i l z Z T A Ee|i n z c Z T A Ee|i n z Z A Ee|i z c Z T A TH Dr Ee|i z c Z T A TH Dr Ee].
  - pose proof (step_settles _ _ _ _ _ _ _ _ ST Q F) as SE. destruct (ID a) as [IA RA]. pose proof (tcp_done _ _ _ _ _ HA IA RA SE E) as ->.
    eapply NS; [reflexivity| |reflexivity].
    assert (SP : match te_rt y with Some (_, OSpawned c b) => [mkWire a c b None [] []] | _ => [] end = []).
    { destruct (step_conns _ _ _ _ _ _ E) as [(g & b & X & K & _)|[X _]]; [lia|]. destruct (te_rt y) as [[g o]|]; [|reflexivity]. destruct o; try reflexivity. destruct (X _ _ _ eq_refl). }
    rewrite SP, app_nil_r. destruct f; try reflexivity. exfalso. cbn in E. destruct (nth_error (r_conns (t_rt (tn_node w a))) c) as [q|] eqn:X; [|discriminate].
    destruct (nth_error (t_links (tn_node w a)) c); [|discriminate]. destruct (all_sent _ IA _ _ X) as [_ O]. rewrite O in E. discriminate.
  - exfalso. subst f a. destruct (run_rt _ _ _ _ _ _ E) as (o & _ & S). cbn in S. destruct (nth_error (r_lsnrs (t_rt (tn_node w (w_to z)))) l) as [q|] eqn:QL; [|discriminate].
    rewrite (AC z (nth_error_In _ _ Z) T _ _ QL) in S. discriminate.
  - destruct (U z (nth_error_In _ _ Z)) as [TH BK]; [congruence|]. subst f. cbn in E. destruct (nth_error (t_links (tn_node w a)) c) as [k|] eqn:K; [|discriminate].
    destruct (t_fin (k_in k)) eqn:FN; [discriminate|]. injection E as E <-. rewrite TH in *. eapply NS; [reflexivity| |].
    + apply (upd_same _ _ _ _ Z). unfold w_with_there. rewrite skipn_nil, <- TH. destruct z; reflexivity.
    + rewrite <- E. apply FB; [exact K|exact FN|apply firstn_nil].
  - assert (BK : w_back z = []).
    { destruct (w_tc z) eqn:T; [apply (U z (nth_error_In _ _ Z)); congruence|]. pose proof (ni_flows _ _ V _ _ Z) as FL. unfold flows in FL. rewrite T in FL. apply FL. }
    subst f. cbn in E. destruct (nth_error (t_links (tn_node w a)) (w_fc z)) as [k|] eqn:K; [|discriminate].
    destruct (t_fin (k_in k)) eqn:FN; [discriminate|]. injection E as E <-. rewrite BK in *. eapply NS; [reflexivity| |].
    + apply (upd_same _ _ _ _ Z). unfold w_with_back. rewrite skipn_nil, <- BK. destruct z; reflexivity.
    + rewrite <- E. apply FB; [exact K|exact FN|apply firstn_nil].
  - subst f. cbn in E. destruct (nth_error (t_links (tn_node w a)) c) as [k|] eqn:K; [|discriminate]. injection E as E <-.
    eapply NS; [reflexivity|reflexivity|]. rewrite <- E. apply FE; [exact K|]. subst a. apply (TO (w_from z) (w_fc z)).
    + exists z. split; [eapply nth_error_In; exact Z|]. left. auto.
    + intros (q & X & LV). apply dropped_is in Dr. destruct Dr as (q' & X' & DD). congruence.
  - subst f. cbn in E. destruct (nth_error (t_links (tn_node w a)) (w_fc z)) as [k|] eqn:K; [|discriminate]. injection E as E <-.
    eapply NS; [reflexivity|reflexivity|]. rewrite <- E. apply FE; [exact K|]. subst a. apply (TO (w_to z) c).
    + exists z. split; [eapply nth_error_In; exact Z|]. right. auto.
    + intros (q & X & LV). apply dropped_is in Dr. destruct Dr as (q' & X' & DD). congruence.
Qed.
Theorem udp_comes_to_rest f t : udp_fair bk cbk f t -> nhistory bk cbk (t 0) (f 0) -> forall k, exists n, k <= n /\
  nhistory bk cbk (t n) (f n) /\ ((forall m, n <= m -> f m = f n /\ at_peace bk cbk (f m) /\ caught_up (f m)) \/ exists c i, jammed bk (runtime_trace (t n)) (n_rt (f n)) c i).
Proof.
  intros R H k. assert (PG : forall tr s x s', nhistory bk cbk tr s -> udp_goes bk cbk s x s' -> nhistory bk cbk (tr ++ [x]) s').
  { intros tr s x s' P (e & _ & G). eapply n_more; eassumption. }
  destruct (fair_rest (udp_goes bk cbk) (fun s => exists x s', udp_goes bk cbk s x s' /\ s' <> s) (fun s _ s' => s' <> s) (nhistory bk cbk) (fun tr s => (at_peace bk cbk s /\ caught_up s) \/ exists c i, jammed bk (runtime_trace tr) (n_rt s) c i)
    (fun _ s => s) _ ExchangeRestTheorems.less_wf PG) with (f := f) (t := t) (k := k) as (n & L & Q);
    [| | |exact R|exact H|exists n; split; [exact L|]; split; [exact (fair_past _ _ _ (nhistory bk cbk) PG _ _ R H n)|]; destruct Q as [Q|Q]; [left|right; exact Q];
     apply (fair_keeps _ _ _ (nhistory bk cbk) PG (fun _ s => s = f n /\ at_peace bk cbk s /\ caught_up s) _ _ R H); [intros tr s x s' P (E & J & K) (e & S & G)|split; [reflexivity|exact Q]];
     pose proof (udp_done _ _ _ _ _ P J K S G) as ->; auto].
  - intros tr s x s' P (e & S & G). exact (ExchangeRestTheorems.settle_less _ _ _ _ _ _ _ P S G).
  - intros tr s x s' P (e & S & G) D. destruct (ExchangeRestTheorems.settle_less _ _ _ _ _ _ _ P S G); [contradiction|assumption].
  - intros tr s P. destruct (ExchangeRestTheorems.step_on _ _ _ _ P) as [(e & s' & x & S & G & N)|Q]; [left|right; exact Q]. exists x, s'. split; [exists e; auto|exact N].
Qed.
Theorem tcp_comes_to_rest f t : tcp_fair bk cbk f t -> thistory bk cbk (t 0) (f 0) -> forall k, exists n, k <= n /\
  thistory bk cbk (t n) (f n) /\ ((forall m, n <= m -> f m = f n /\ idle (t_rt (f m)) /\ all_read (t m) (f m)) \/ exists c i, jammed bk (tcp_trace (t n)) (t_rt (f n)) c i).
Proof.
  intros R H k. assert (PG : forall tr s x s', thistory bk cbk tr s -> tcp_goes bk cbk s x s' -> thistory bk cbk (tr ++ [x]) s').
  { intros tr s [e x] s' P [_ G]. eapply t_more; eassumption. }
  destruct (fair_rest (tcp_goes bk cbk) (fun s => exists x s', tcp_goes bk cbk s x s' /\ s' <> s) (fun s _ s' => s' <> s) (thistory bk cbk) (fun tr s => (idle (t_rt s) /\ all_read tr s) \/ exists c i, jammed bk (tcp_trace tr) (t_rt s) c i)
    (fun _ s => s) _ TcpRestTheorems.less_wf PG) with (f := f) (t := t) (k := k) as (n & L & Q);
    [| | |exact R|exact H|exists n; split; [exact L|]; split; [exact (fair_past _ _ _ (thistory bk cbk) PG _ _ R H n)|]; destruct Q as [Q|Q]; [left|right; exact Q];
     apply (fair_keeps _ _ _ (thistory bk cbk) PG (fun tr s => s = f n /\ idle (t_rt s) /\ all_read tr s) _ _ R H); [intros tr s [e x] s' P (E & J & K) [S G]|split; [reflexivity|exact Q]];
     pose proof (tcp_done _ _ _ _ _ P J K S G) as D; cbn [fst snd] in *; subst s'; split; [exact E|]; split; [exact J|]; eapply read_kept; eassumption].
  - intros tr s [e x] s' P [S G]. exact (TcpRestTheorems.settle_less _ _ _ _ _ _ _ P S G).
  - intros tr s [e x] s' P [S G] D. destruct (TcpRestTheorems.settle_less _ _ _ _ _ _ _ P S G); [contradiction|assumption].
  - intros tr s P. destruct (TcpRestTheorems.step_on _ _ _ _ P) as [(e & s' & x & S & G & N)|Q]; [left|right; exact Q]. exists (e, x), s'. split; [split; assumption|exact N].
Qed.

Lemma same_measure L w w' : same w w' -> measure L w' = measure L w.
Proof.
  intros [W S]. assert (O : forall f, over L f w' = over L f w).
  { intros f. unfold over. induction L as [|a L IH]; [reflexivity|]. cbn in *. rewrite S, IH. reflexivity. }
  unfold measure. rewrite !O, W. reflexivity.
Qed.
Lemma same_refl w : same w w.
Proof. split; reflexivity. Qed.
Lemma rest_kept w0 tr w x w' : tnet_history bk cbk tr w -> net_at_rest tr w /\ same w0 w -> net_goes bk cbk w x w' -> net_at_rest (tr ++ [x]) w' /\ same w0 w'.
Proof.
  intros H [R S0] (e & Q & ST). pose proof (net_done _ _ _ _ _ H R Q ST) as [W S]. pose proof (tw_more _ _ _ _ _ _ _ H ST) as H'.
  split; [|destruct S0 as [W0 N0]; split; [congruence|intros b; rewrite S; apply N0]]. destruct R as (U & AC & TO & ID).
  split; [intros y I; rewrite W in I; exact (U y I)|]. split; [intros y I T l z Z; rewrite W in I; rewrite S in Z; exact (AC y I T l z Z)|]. split.
  - intros a c b d (y & I & J) N. rewrite W in I. rewrite S in N. destruct x as [a' p]. rewrite at_tcp_snoc. destruct (TO a c b d (ex_intro _ y (conj I J)) N) as [z K].
    exists z. apply in_app_iff. left. exact K.
  - intros a. rewrite S. destruct (ID a) as [I A]. split; [exact I|]. intros c RN.
    destruct (reading _ _ _ _ (tcp_at_history _ _ _ _ a H) c) as (R1 & _ & _). rewrite (A c RN) in R1.
    destruct (reading _ _ _ _ (tcp_at_history _ _ _ _ a H') c) as (R2 & _ & _). rewrite S in R2. rewrite R2.
    replace (t_avail (k_in (lk (tn_node w a) c))) with (@nil N); [rewrite app_nil_r; reflexivity|].
    destruct (t_avail (k_in (lk (tn_node w a) c))); [reflexivity|]. apply (f_equal (@length _)) in R1. rewrite app_length in R1. cbn in R1. lia.
Qed.
Theorem net_fair_rest f t : net_fair bk cbk f t -> tnet_history bk cbk (t 0) (f 0) -> forall k, exists n, k <= n /\
  tnet_history bk cbk (t n) (f n) /\ ((forall m, n <= m -> net_at_rest (t m) (f m) /\ ~ changed (f n) (f m)) \/ exists a c i, jammed bk (rt_tcp a (t n)) (t_rt (tn_node (f n) a)) c i).
Proof.
  intros R H k. set (L := nodup N.eq_dec (map fst (t 0))). assert (D : NoDup L) by apply NoDup_nodup.
  set (past := fun tr w => tnet_history bk cbk tr w /\ elsewhere L w).
  assert (P0 : past (t 0) (f 0)) by (split; [exact H|eapply first_places; exact H]).
  assert (PG : forall tr w x w', past tr w -> net_goes bk cbk w x w' -> past (tr ++ [x]) w').
  { intros tr w x w' [P EL] (e & S & G). split; [eapply tw_more; eassumption|]. exact (proj1 (net_less _ _ _ _ _ _ _ _ P D EL S G)). }
  destruct (fair_rest (net_goes bk cbk) (fun w => exists x w', net_goes bk cbk w x w' /\ changed w w') (fun w _ w' => changed w w') past (fun tr w => net_at_rest tr w \/ exists a c i, jammed bk (rt_tcp a tr) (t_rt (tn_node w a)) c i)
    (fun _ => measure L) _ lex_wf PG) with (f := f) (t := t) (k := k) as (n & LE & Q);
    [| | |exact R|exact P0|exists n; split; [exact LE|]; split; [exact (proj1 (fair_past _ _ _ past PG _ _ R P0 n))|]; destruct Q as [Q|Q]; [left; intros m ML|right; exact Q];
     destruct (fair_keeps _ _ _ past PG (fun tr w => net_at_rest tr w /\ same (f n) w) _ _ R P0 (fun tr w x w' P K G => rest_kept (f n) tr w x w' (proj1 P) K G) n (conj Q (same_refl _)) m ML) as [K1 K2];
     split; [exact K1|exact (same_not _ _ K2)]].
  - intros tr w x w' [P EL] (e & S & G). destruct (proj2 (net_less _ _ _ _ _ _ _ _ P D EL S G)) as [K|K]; [left; apply same_measure; exact K|right; exact K].
  - intros tr w x w' [P EL] (e & S & G) C. destruct (proj2 (net_less _ _ _ _ _ _ _ _ P D EL S G)) as [K|K]; [destruct (same_not _ _ K C)|exact K].
  - intros tr w [P EL]. destruct (net_on _ _ _ _ P) as [(e & w' & x & S & G & C)|Q]; [left|right; exact Q]. exists x, w'. split; [exists e; auto|exact C].
Qed.
Theorem net_delivered f t : net_fair bk cbk f t -> tnet_history bk cbk (t 0) (f 0) -> forall k, exists n, k <= n /\
  ((forall m, n <= m -> forall tr1 tr2 a c b d i id, t m = tr1 ++ tr2 ->
      ordinary_at a (t m) -> never_cut (f m) (t m) -> joined (f m) a c b d -> conn_runs (t_rt (tn_node (f m) a)) c -> conn_runs (t_rt (tn_node (f m) b)) d ->
      served i id (rt_tcp b tr1) -> reads d (at_tcp b tr1) = [] -> stub_exists (t_rt (tn_node (f m) b)) i -> stub_listening (t_rt (tn_node (f m) b)) i ->
      map it_msg (from_conn d (stub_got i (rt_tcp b (t m)))) = filter (of_id id) (accepted c (rt_tcp a (t m)))) \/
   exists a c i, jammed bk (rt_tcp a (t n)) (t_rt (tn_node (f n) a)) c i).
Proof.
  intros R H k. destruct (net_fair_rest _ _ R H k) as (n & L & HN & [Q|J]); exists n; (split; [exact L|]); [left|right; exact J].
  intros m ML tr1 tr2 a c b d i id E OR NC JO RA RB SV RD SE SL. destruct (Q m ML) as [AR _].
  assert (HM : tnet_history bk cbk (t m) (f m)).
  { refine (fair_past _ _ _ (tnet_history bk cbk) _ _ _ R H m). intros tr s x s' P (e & _ & G). eapply tw_more; eassumption. }
  rewrite E in *. eapply rest_all_got; eassumption.
Qed.

(** ** There are such runs *)
Theorem rt_run_exists s tr l s' : goes_to (rt_goes bk cbk) s l s' -> idle s' ->
  exists f t, rt_fair bk cbk f t /\ f 0 = s /\ t 0 = tr /\ forall m, length l <= m -> f m = s' /\ t m = tr ++ l.
Proof. intros G I. apply fair_exists; [exact G|apply idle_done; exact I]. Qed.
Theorem udp_run_exists s tr l s' : goes_to (udp_goes bk cbk) s l s' -> nhistory bk cbk (tr ++ l) s' -> at_peace bk cbk s' -> caught_up s' ->
  exists f t, udp_fair bk cbk f t /\ f 0 = s /\ t 0 = tr /\ forall m, length l <= m -> f m = s' /\ t m = tr ++ l.
Proof. intros G H P C. apply fair_exists; [exact G|]. intros (x & s'' & (e & Q & ST) & N). exact (N (udp_done _ _ _ _ _ H P C Q ST)). Qed.
Theorem tcp_run_exists s tr l s' : goes_to (tcp_goes bk cbk) s l s' -> thistory bk cbk (tr ++ l) s' -> idle (t_rt s') -> all_read (tr ++ l) s' ->
  exists f t, tcp_fair bk cbk f t /\ f 0 = s /\ t 0 = tr /\ forall m, length l <= m -> f m = s' /\ t m = tr ++ l.
Proof. intros G H I A. apply fair_exists; [exact G|]. intros (x & s'' & [Q ST] & N). exact (N (tcp_done _ _ _ _ _ H I A Q ST)). Qed.
Theorem net_run_exists w tr l w' : goes_to (net_goes bk cbk) w l w' -> tnet_history bk cbk (tr ++ l) w' -> net_at_rest (tr ++ l) w' ->
  exists f t, net_fair bk cbk f t /\ f 0 = w /\ t 0 = tr /\ forall m, length l <= m -> f m = w' /\ t m = tr ++ l.
Proof. intros G H A. apply fair_exists; [exact G|]. intros (x & w'' & (e & Q & ST) & N). exact (same_not _ _ (net_done _ _ _ _ _ H A Q ST) N). Qed.
Theorem net_still tr w e w' x : tnet_history bk cbk tr w -> net_at_rest tr w -> net_settles w e -> tnet_step bk cbk w e = Some (w', x) -> ~ changed w w'.
Proof. intros H A Q ST. exact (same_not _ _ (net_done _ _ _ _ _ H A Q ST)). Qed.
End Locks.
