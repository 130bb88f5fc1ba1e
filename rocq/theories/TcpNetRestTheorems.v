(** Endpoints over TCP and the streams between them come to rest, or one of the endpoints is jammed. *)
From Coq Require Import List NArith Bool PeanoNat Lia Wf_nat.
From Verif Require Import BytesModel WireSpec SomeipModel SomeipSpec MapModel EndpointProofs RuntimeModel RuntimeSpec RuntimeProofs RuntimeTheorems
  RuntimePacketTheorems RuntimeSendTheorems RuntimeProgressTheorems RuntimeWorkTheorems RuntimeAddrTheorems NodeProofs
  TcpModel TcpSpec TcpTheorems TcpNodeModel TcpNodeSpec TcpNodeTheorems TcpRestSpec TcpRestTheorems LexTheorems TcpNetModel TcpNetSpec TcpNetTheorems.
From Verif Require ExchangeRestTheorems.
Import ListNotations.
Open Scope nat_scope.

(** ** What is still to be sent by an endpoint *)
Definition spc_w (t : stub) : nat := pc_w (st_pc t).
Definition out_w (x : conn) : nat := 2 * length (c_cmds x) + match c_out x with Some _ => 1 | None => 0 end.
Definition to_send (s : rt) : nat := ep_w (r_ep s) + total spc_w (r_stubs s) + total out_w (r_conns s) + total left_w (r_left s).

Section Locks.
Context (bk : iid -> N) (cbk : N -> N).
Local Notation step := (step bk cbk).
Local Notation tnode_step := (tnode_step bk cbk).
Local Notation thistory := (thistory bk cbk).
Local Notation tnet_step := (tnet_step bk cbk).
Local Notation tnet_history := (tnet_history bk cbk).
Local Notation net_settling := (net_settling bk cbk).

Ltac cases_in H :=
  repeat (match type of H with
  | context [match ?x with _ => _ end] =>
      lazymatch x with context [match _ with _ => _ end] => fail | _ => destruct x eqn:? end
  end; try discriminate H).
Ltac step_cases H :=
  unfold RuntimeModel.step, step_ep, step_take, step_route, step_stub, i_recv, push_cmd in H; cases_in H;
  injection H as <- <-.
Ltac rcbn := unfold upd_conn, upd_iface, upd_lsnr, upd_stub, upd_proxy, spawn in *;
  cbn [r_open r_datagram r_ep r_listener r_imap r_cmap r_ifaces r_conns r_lsnrs r_stubs r_proxies r_left
       set_ep set_open set_listener set_imap set_cmap set_ifaces set_conns set_lsnrs set_stubs set_proxies set_left
       st_iface st_lst st_conns st_pc st_alive st_with_pc st_with_conns end_stub l_alive l_cmds l_local l_conns l_pc
       l_with_cmds l_with_local l_with_conns l_with_pc end_lsnr new_lsnr px_iface px_conn px_remote px_alive end_proxy
       c_addr c_alive c_cmds c_out c_local c_recv c_count c_with_cmds c_with_out c_with_local c_with_recv c_with_count new_conn end_conn] in *.

Ltac one_total :=
  match goal with
  | |- context [total ?w (?l ++ [?x])] => rewrite (total_snoc w l x)
  | |- context [total iface_w (upd ?n i_shut ?l)] => rewrite (total_upd_same iface_w n i_shut l shut_w)
  | H : nth_error ?l ?n = Some ?x |- context [total ?w (upd ?n ?f ?l)] =>
      let K := fresh "K" in pose proof (total_upd w n f l x H) as K;
      let v := fresh "v" in set (v := total w (upd n f l)) in *; clearbody v
  end.
Ltac hide := repeat match goal with
  | |- context [total ?w ?l] => let v := fresh "v" in set (v := total w l) in *; clearbody v
  end.
Ltac wcbn := unfold stub_w, conn_w, lsnr_w, proxy_w in *; rcbn; cbn [total left_w bool_w ep_w pc_w recv_w brings works fst snd length app] in *.
Ltac known := repeat match goal with
  | H : nth_error _ _ = _ |- _ => clear H
  | H : i_queue ?y = _ :: _ |- _ => apply take_w in H
  | K : context [iface_w (i_put ?it ?y)] |- _ => pose proof (put_w it y); let v := fresh "v" in set (v := iface_w (i_put it y)) in *; clearbody v
  end.
Ltac values := repeat match goal with
  | H : ?a = _ |- _ => lazymatch type of a with nat => fail | _ => rewrite H in *; clear H end
  end.
Lemma same_outs c f l : (forall x : conn, c_out (f x) = c_out x) -> map c_out (upd c f l) = map c_out l.
Proof. intros F. apply map_upd_id. intros x _. apply F. Qed.
Definition inward (e : event) : Prop := cooperative e \/ (exists c bs, e = EPacket c bs) \/ (exists c, e = EEnd c).
Lemma send_step s e o s' : step s e = Some (s', o) -> inward e ->
  to_send s' < to_send s \/ (to_send s' = to_send s /\ map c_out (r_conns s') = map c_out (r_conns s)).
Proof.
  intros ST W.
  destruct e; try (destruct W as [W|[(? & ? & W)|[? W]]]; first [contradiction W|discriminate W]);
  try (destruct ok; [|destruct W as [W|[(? & ? & W)|[? W]]]; first [contradiction W|discriminate W]]); clear W; step_cases ST;
  first
  [ right; split; [reflexivity|reflexivity]
  | left; unfold to_send; rcbn; repeat one_total;
    repeat match goal with H : nth_error (r_left _) _ = _ |- _ => rewrite (total_drop left_w _ _ _ H); clear H end; cbn [total left_w]; hide; known; wcbn; unfold spc_w, out_w in *; rcbn; values; wcbn;
    rewrite ?app_length in *; cbn [length] in *; lia
  | right; split; [unfold to_send; rcbn; rewrite total_upd_same by reflexivity; reflexivity|rcbn; apply same_outs; reflexivity]
  | idtac ].
  (* EEnd *)
  destruct (c_cmds c0) as [|q l] eqn:Q, (c_out c0) as [bs|] eqn:O.
  2:{ right. split.
      - unfold to_send. rcbn. pose proof (total_upd out_w c end_conn _ _ Heqo0) as K. unfold out_w in K at 2 4. rewrite Q, O in K. cbn in K. lia.
      - rcbn. rewrite (map_upd_id c_out); [reflexivity|]. intros x X. rewrite Heqo0 in X. injection X as <-. rewrite O. reflexivity. }
  all: left; unfold to_send; rcbn; pose proof (total_upd out_w c end_conn _ _ Heqo0) as K; unfold out_w in K at 2 4; rewrite Q, O in K; cbn in K; lia.
Qed.
Lemma socket_sends s c ok o s' : step s (ESocket c ok) = Some (s', o) -> to_send s' < to_send s.
Proof.
  intros ST. step_cases ST; unfold to_send; rcbn;
  [pose proof (total_upd out_w c (c_with_out None) _ _ Heqo0) as K|pose proof (total_upd out_w c end_conn _ _ Heqo0) as K];
  unfold out_w in K at 2 4; rewrite Heqo1 in K; cbn in K; lia.
Qed.

Definition unfin_w (k : link) : nat := if t_fin (k_in k) then 0 else 1.
Definition unfinished (s : tnode) : nat := total unfin_w (t_links s).
Lemma unsent_outs l1 l2 ks : map c_out l1 = map c_out l2 -> total unsent_w (combine l1 ks) = total unsent_w (combine l2 ks).
Proof.
  revert l2 ks. induction l1 as [|x l1 IH]; intros [|y l2] ks E; try discriminate E; [reflexivity|]. cbn in E. injection E as E1 E2.
  destruct ks as [|k ks]; [reflexivity|]. cbn. rewrite (IH _ _ E2). unfold unsent_w. cbn. rewrite E1. reflexivity.
Qed.
Lemma unsent_links l ks c f : (forall k, k_sent (f k) = k_sent k) -> total unsent_w (combine l (upd c f ks)) = total unsent_w (combine l ks).
Proof.
  intros F. revert c ks. induction l as [|x l IH]; intros c ks; [reflexivity|]. destruct ks as [|k ks]; [destruct c; reflexivity|].
  destruct c as [|c]; cbn; [unfold unsent_w; cbn; rewrite F; reflexivity|rewrite IH; reflexivity].
Qed.
Lemma unfin_upd ls c k f : nth_error ls c = Some k -> t_fin (k_in (f k)) = t_fin (k_in k) -> total unfin_w (upd c f ls) = total unfin_w ls.
Proof. intros K E. pose proof (total_upd unfin_w c f _ _ K) as T. unfold unfin_w in T at 2 4. rewrite E in T. lia. Qed.

(** ** What a step of an endpoint that is left to itself does *)
Lemma settle_more tr s e s' x : thistory tr s -> tcp_settles s e -> tnode_step s e = Some (s', x) ->
  (s' = s /\ te_out x = []) \/ to_send (t_rt s') < to_send (t_rt s) \/
  (to_send (t_rt s') = to_send (t_rt s) /\ nconns s' = nconns s /\
   (unsent s' < unsent s \/
    (unsent s' = unsent s /\ te_out x = [] /\ unfinished s' = unfinished s /\
     (unreads s' < unreads s \/ (unreads s' = unreads s /\ left_to_do (t_rt s') < left_to_do (t_rt s)))))).
Proof.
  intros H Q ST. pose proof (links_length _ _ _ _ H) as LL. pose proof (writing _ _ _ _ H) as WR.
  destruct (tnode_stepped _ _ _ _ _ _ ST) as
    [e r o n IN S N|c d k K F|c k K|c q d t k r o n K R S N|c q t k r o n K R S N|c q y k bs w z r o n Y K O W S N|c q y k bs w z r o n Y K O W S N|c q y k bs w z Y K O W];
    cbn [tcp_settles] in Q; try contradiction Q; cbn [t_rt te_out].
  - destruct (ExchangeRestTheorems.quiet_obs o) as [B|[N1 N2]].
    + left. split; [|reflexivity]. pose proof (ExchangeRestTheorems.no_news_same _ _ _ _ _ _ Q S B) as ->. rewrite N, LL, Nat.sub_diag. cbn. rewrite app_nil_r. destruct s; reflexivity.
    + right. destruct (send_step _ _ _ _ S (or_introl Q)) as [L|[E M]]; [left; exact L|right]. split; [exact E|].
      pose proof (f_equal (@length _) M) as ML. rewrite !map_length in ML. split; [exact ML|]. right.
      assert (N0 : n = 0) by lia. subst n. rewrite N0 in *. cbn. rewrite app_nil_r.
      split; [apply unsent_outs; exact M|]. split; [reflexivity|]. split; [reflexivity|]. right. split; [reflexivity|].
      exact (ExchangeRestTheorems.work_less _ _ _ _ _ _ (ExchangeRestTheorems.coop_brings _ Q) S N1 N2).
  - destruct (recv_one _ _ _ _ R) as (_ & A & F). destruct d as [|b d].
    + left. split; [|reflexivity]. cbn in A. assert (t = k_in k) as -> by (destruct t, (k_in k); cbn in *; congruence). subst n. eapply empty_read; eassumption.
    + right. destruct (send_step _ _ _ _ S (or_intror (or_introl (ex_intro _ _ (ex_intro _ _ eq_refl))))) as [L|[E M]]; [left; exact L|right].
      split; [exact E|]. pose proof (f_equal (@length _) M) as ML. rewrite !map_length in ML. split; [exact ML|]. right.
      assert (N0 : n = 0) by lia. subst n. rewrite N0. cbn [repeat]. rewrite app_nil_r. unfold unsent, unfinished, unreads. cbn [t_rt t_links].
      split; [rewrite unsent_links by reflexivity; apply unsent_outs; exact M|]. split; [reflexivity|]. split; [eapply unfin_upd; [exact K|exact F]|]. left.
      pose proof (total_upd unread_w c (k_with_in t) _ _ K) as T.
      unfold unread_w in T at 2 4. cbn in T. rewrite A in T. cbn in T. rewrite app_length in T. lia.
  - exfalso. destruct Q as ([J|[J J']] & RD); destruct q as [rd w]; cbn in J; subst rd; [discriminate R|].
    cbn in J'. destruct w as [m|]; [|congruence]. destruct (RD eq_refl) as (k' & K' & G). rewrite K in K'. injection K' as <-. cbn in R.
    destruct (t_avail (k_in k)); [|discriminate R]. destruct G as [G|G]; [congruence|]. rewrite G in R. discriminate R.
  - right. left. eapply socket_sends. exact S.
  - right. left. eapply socket_sends. exact S.
  - specialize (WR c). unfold wrote in WR. rewrite Y, O, (lk_is _ _ _ K) in WR.
    destruct (c_alive y); [|destruct WR; discriminate]. destruct WR as [LE _]. destruct (write_one _ _ _ _ _ _ LE W) as (LE' & _).
    destruct w as [|b w].
    + left. split; [|reflexivity]. rewrite (upd_same _ _ _ _ K); [destruct s; reflexivity|]. cbn. rewrite Nat.add_0_r. destruct k; reflexivity.
    + right. right. split; [reflexivity|]. split; [reflexivity|]. left. unfold unsent. cbn [t_rt t_links].
      pose proof (total_combine unsent_w _ _ c (k_with_sent (k_sent k + length (b :: w))) _ _ Y K) as T.
      unfold unsent_w in T at 2 4. cbn [fst snd k_sent k_with_sent] in T. rewrite O in T. cbn [length] in *. lia.
Qed.

(** ** A measure of the network *)
Definition over (L : list N) (f : tnode -> nat) (w : tnet) : nat := total (fun a => f (tn_node w a)) L.
Definition open_w (x : wire) : nat := match w_tc x with None => 1 | Some _ => 0 end.
Definition flight_w (x : wire) : nat := length (w_there x) + length (w_back x).
Definition measure (L : list N) (w : tnet) : list nat :=
  [over L (fun s => to_send (t_rt s)) w; total open_w (tn_wires w); over L unsent w; total flight_w (tn_wires w); over L unfinished w; over L unreads w;
   over L (fun s => left_to_do (t_rt s)) w].
Lemma over_set L f w w' a s' : NoDup L -> In a L -> tn_node w' = set_tnode a s' (tn_node w) -> over L f w' + f (tn_node w a) = over L f w + f s'.
Proof.
  intros D I E. unfold over. rewrite E. clear E. induction D as [|b L NI D IH]; [destruct I|]. cbn. unfold set_tnode at 1. destruct (N.eqb_spec b a) as [->|N].
  - assert (K : total (fun b => f (set_tnode a s' (tn_node w) b)) L = total (fun b => f (tn_node w b)) L); [|lia].
    clear -NI. induction L as [|c L IH]; [reflexivity|]. cbn. unfold set_tnode at 1. destruct (N.eqb_spec c a) as [->|]; [destruct NI; left; reflexivity|].
    rewrite IH; [reflexivity|]. intros I. apply NI. right. exact I.
  - destruct I as [->|I]; [congruence|]. specialize (IH I). lia.
Qed.
Lemma carry_open a c out ws : total open_w (map (carry a c out) ws) = total open_w ws.
Proof. induction ws as [|x ws IH]; [reflexivity|]. cbn. rewrite IH. unfold open_w. destruct (carry_frame a c out x) as (_ & _ & _ & ->). reflexivity. Qed.
Lemma carry_nothing a c x : carry a c [] x = x.
Proof.
  unfold carry. destruct (N.eqb (w_from x) a && (w_fc x =? c)); [unfold w_with_there; rewrite app_nil_r; destruct x; reflexivity|].
  destruct (w_tc x) as [d|] eqn:T; [|reflexivity]. destruct (N.eqb (w_to x) a && (d =? c)); [|reflexivity].
  unfold w_with_back. rewrite app_nil_r, T. destruct x; cbn in *; congruence.
Qed.
Lemma carry_none a c ws : map (carry a c []) ws = ws.
Proof. rewrite <- (map_id ws) at 2. apply map_ext. intros x. apply carry_nothing. Qed.
Lemma init_stuck e s' x : tcp_settles tnode_init e -> tnode_step tnode_init e = Some (s', x) -> False.
Proof.
  intros Q ST. destruct e as [e|c d|c|c r|c r]; try contradiction Q.
  - destruct e; try contradiction Q; cbn in ST; unfold tcp_answer in ST; cbn in ST; unfold step_ep, step_take in ST; cbn in ST;
    try (destruct ok; try contradiction Q);
    try match goal with n : nat |- _ => destruct n; discriminate ST end; try discriminate ST.
  - destruct c; discriminate ST.
  - destruct c; discriminate ST.
Qed.

Definition elsewhere (L : list N) (w : tnet) : Prop := forall b, ~ In b L -> tn_node w b = tnode_init.
Lemma where_it_is L w a : elsewhere L w -> tn_node w a <> tnode_init -> In a L.
Proof. intros E N. destruct (in_dec N.eq_dec a L) as [I|I]; [exact I|]. destruct (N (E a I)). Qed.

Lemma init_deaf e s' x : from_network e = true -> tnode_step tnode_init e = Some (s', x) -> False.
Proof.
  intros Q ST. destruct e as [e|c d|c|c r|c r]; try discriminate Q; [|destruct c; discriminate ST|destruct c; discriminate ST].
  destruct e; try discriminate Q; cbn in ST; unfold tcp_answer in ST; cbn in ST; match goal with n : nat |- _ => destruct n; discriminate ST end.
Qed.
Lemma step_settles w ev w' a e x : tnet_step w ev = Some (w', (a, (e, x))) -> net_settles w ev -> from_network e = false -> tcp_settles (tn_node w a) e.
Proof.
  intros ST Q F. destruct ev as [a' e'|a' l i|i n|i n|i|i]; unfold TcpNetModel.tnet_step in ST.
  - cbn in Q. destruct (from_network e'); [discriminate|]. destruct (tnode_step (tn_node w a') e') as [[s2 x2]|]; [|discriminate].
    injection ST as _ -> -> _. exact Q.
  - exfalso. destruct (nth_error (tn_wires w) i) as [z|]; [|discriminate]. destruct (w_tc z); [discriminate|]. destruct (N.eqb (w_to z) a'); [|discriminate].
    destruct (tnode_step _ _) as [[s2 x2]|]; [|discriminate]. injection ST as _ _ <- _. discriminate F.
  - exfalso. destruct (nth_error (tn_wires w) i) as [z|]; [|discriminate]. destruct (w_tc z); [|discriminate].
    destruct (tnode_step _ _) as [[s2 x2]|]; [|discriminate]. injection ST as _ _ <- _. discriminate F.
  - exfalso. destruct (nth_error (tn_wires w) i) as [z|]; [|discriminate].
    destruct (tnode_step _ _) as [[s2 x2]|]; [|discriminate]. injection ST as _ _ <- _. discriminate F.
  - exfalso. destruct (nth_error (tn_wires w) i) as [z|]; [|discriminate]. destruct (w_tc z); [|discriminate]. destruct (w_there z); [|discriminate].
    destruct (dropped_conn _ _); [|discriminate]. destruct (tnode_step _ _) as [[s2 x2]|]; [|discriminate]. injection ST as _ _ <- _. discriminate F.
  - exfalso. destruct (nth_error (tn_wires w) i) as [z|]; [|discriminate]. destruct (w_tc z); [|discriminate]. destruct (w_back z); [|discriminate].
    destruct (dropped_conn _ _); [|discriminate]. destruct (tnode_step _ _) as [[s2 x2]|]; [|discriminate]. injection ST as _ _ <- _. discriminate F.
Qed.
Definition same (w w' : tnet) : Prop := tn_wires w' = tn_wires w /\ forall b, tn_node w' b = tn_node w b.
Lemma same_not w w' : same w w' -> ~ changed w w'.
Proof. intros [W S] [C|[b C]]; [exact (C W)|exact (C (S b))]. Qed.
Lemma net_less tr w ev w' x L : tnet_history tr w -> NoDup L -> elsewhere L w -> net_settles w ev -> tnet_step w ev = Some (w', x) ->
  elsewhere L w' /\ (same w w' \/ lexl (measure L w') (measure L w)).
Proof.
  intros H D EL Q ST. pose proof (net_inv _ _ _ _ H) as V. destruct (net_stepped _ _ _ _ _ _ ST) as (a & e & y & s' & -> & E & NW & W).
  pose proof (tcp_at_history _ _ _ _ a H) as HA.
  assert (AI : In a L).
  { apply (where_it_is L w a EL). intros I. destruct (from_network e) eqn:F.
    - rewrite I in E. exact (init_deaf _ _ _ F E).
    - pose proof (step_settles _ _ _ _ _ _ ST Q F) as S. rewrite I in S, E. exact (init_stuck _ _ _ S E). }
  split; [intros b N; rewrite NW; unfold set_tnode; destruct (N.eqb_spec b a) as [->|]; [contradiction|apply EL; exact N]|].
  pose proof (fun f => over_set L f w w' a s' D AI NW) as OV.
  assert (NS : forall ws, tn_wires w' = ws -> ws = tn_wires w -> s' = tn_node w a -> same w w').
  { intros ws W1 W2 S. split; [congruence|]. intros b. rewrite NW. unfold set_tnode. destruct (N.eqb_spec b a) as [->|]; congruence. }
  assert (MV : forall c f k, nth_error (t_links (tn_node w a)) c = Some k -> s' = mkTN (t_rt (tn_node w a)) (upd c f (t_links (tn_node w a))) ->
    (forall k, k_sent (f k) = k_sent k) ->
    to_send (t_rt s') = to_send (t_rt (tn_node w a)) /\ unsent s' = unsent (tn_node w a) /\ unfinished s' + unfin_w k = unfinished (tn_node w a) + unfin_w (f k)).
  { intros c f k K -> F. cbn [t_rt]. split; [reflexivity|]. split; [apply unsent_links; exact F|]. apply total_upd. exact K. }
  pose proof (OV (fun s => to_send (t_rt s))) as O1. pose proof (OV unsent) as O2. pose proof (OV unfinished) as O3. pose proof (OV unreads) as O4.
  pose proof (OV (fun s => left_to_do (t_rt s))) as O5. cbn beta in *. clear OV.
  remember (tn_wires w') as ws' eqn:WS.
  destruct W as [F|i l z Z T A Ee|i n z c Z T A Ee|i n z Z A Ee|i z c Z T A TH Dr Ee|i z c Z T A TH Dr Ee].
  - pose proof (step_settles _ _ _ _ _ _ ST Q F) as SE.
    assert (SP : nconns s' = nconns (tn_node w a) -> match te_rt y with Some (_, OSpawned c b) => [mkWire a c b None [] []] | _ => [] end = []).
    { intros NC. destruct (step_conns _ _ _ _ _ _ E) as [(f & b & X & K & _)|[X _]]; [lia|]. destruct (te_rt y) as [[f o]|]; [|reflexivity].
      destruct o; try reflexivity. destruct (X _ _ _ eq_refl). }
    destruct (settle_more _ _ _ _ _ HA SE E) as [(-> & TO)|[LT|(EQ & NC & LT)]].
    + left. eapply NS; [reflexivity| |reflexivity]. rewrite (SP eq_refl), app_nil_r, TO. destruct e; try reflexivity. apply carry_none.
    + right. split; [reflexivity|]. unfold measure. rewrite <- WS. left. lia.
    + right. split; [reflexivity|]. unfold measure. rewrite <- WS, (SP NC), app_nil_r. right. split; [lia|]. right.
      split; [destruct e; try reflexivity; apply carry_open|]. destruct LT as [LT|(EU & TO & EF & LT)]; [left; lia|]. right. split; [lia|]. right.
      split; [rewrite TO; destruct e; try reflexivity; rewrite carry_none; reflexivity|]. right. split; [lia|]. destruct LT as [LT|[EL' LT]]; [left; lia|]. right. split; [lia|].
      left. lia.
  - right. split; [reflexivity|]. unfold measure. rewrite <- WS. subst e.
    destruct (run_rt _ _ _ _ _ _ E) as (o & X & S). cbn in S. unfold measure.
    assert (TS : to_send (t_rt s') = to_send (t_rt (tn_node w a)) /\ exists c b, o = OSpawned c b).
    { cbn in S. destruct (nth_error (r_lsnrs (t_rt (tn_node w a))) l) as [q|] eqn:QL; [|discriminate]. destruct (l_alive q); [|discriminate]. destruct (l_pc q); [|discriminate].
      injection S as <- <-. split; [|eauto]. unfold to_send. rcbn. rewrite total_snoc. cbn. lia. }
    destruct TS as [TS (c & b & ->)]. rewrite X. right. split; [lia|]. left.
    pose proof (total_upd open_w i (w_with_tc c) _ _ Z) as K. unfold open_w in K at 2 4. rewrite T in K. cbn in K. lia.
  - subst e. cbn in E. destruct (nth_error (t_links (tn_node w a)) c) as [k|] eqn:K; [|discriminate]. destruct (t_fin (k_in k)) eqn:FN; [discriminate|]. injection E as E <-.
    destruct (firstn n (w_there z)) as [|b0 d0] eqn:FI.
    + left. eapply NS; [reflexivity| |].
      * apply (upd_same _ _ _ _ Z). unfold w_with_there. assert (SK : skipn n (w_there z) = w_there z) by (rewrite <- (firstn_skipn n (w_there z)) at 2; rewrite FI; reflexivity).
        rewrite SK. destruct z; reflexivity.
      * rewrite <- E, (upd_same _ _ _ _ K); [destruct (tn_node w a); reflexivity|]. rewrite app_nil_r. destruct k as [[av fn] ks]. cbn in *. subst fn. reflexivity.
    + right. split; [reflexivity|]. unfold measure. rewrite <- WS. destruct (MV _ _ _ K (eq_sym E)) as (M1 & M2 & M3); [reflexivity|].
      right. split; [lia|]. right. split; [apply total_upd_same; reflexivity|]. right. split; [lia|]. left.
      pose proof (total_upd flight_w i (w_with_there (skipn n (w_there z))) _ _ Z) as T'. unfold flight_w in T' at 2 4. cbn in T'.
      pose proof (f_equal (@length _) (firstn_skipn n (w_there z))) as LN. rewrite FI, app_length in LN. cbn in LN. lia.
  - subst e. cbn in E. destruct (nth_error (t_links (tn_node w a)) (w_fc z)) as [k|] eqn:K; [|discriminate]. destruct (t_fin (k_in k)) eqn:FN; [discriminate|]. injection E as E <-.
    destruct (firstn n (w_back z)) as [|b0 d0] eqn:FI.
    + left. eapply NS; [reflexivity| |].
      * apply (upd_same _ _ _ _ Z). unfold w_with_back. assert (SK : skipn n (w_back z) = w_back z) by (rewrite <- (firstn_skipn n (w_back z)) at 2; rewrite FI; reflexivity).
        rewrite SK. destruct z; reflexivity.
      * rewrite <- E, (upd_same _ _ _ _ K); [destruct (tn_node w a); reflexivity|]. rewrite app_nil_r. destruct k as [[av fn] ks]. cbn in *. subst fn. reflexivity.
    + right. split; [reflexivity|]. unfold measure. rewrite <- WS. destruct (MV _ _ _ K (eq_sym E)) as (M1 & M2 & M3); [reflexivity|].
      right. split; [lia|]. right. split; [apply total_upd_same; reflexivity|]. right. split; [lia|]. left.
      pose proof (total_upd flight_w i (w_with_back (skipn n (w_back z))) _ _ Z) as T'. unfold flight_w in T' at 2 4. cbn in T'.
      pose proof (f_equal (@length _) (firstn_skipn n (w_back z))) as LN. rewrite FI, app_length in LN. cbn in LN. lia.
  - subst e. cbn in E. destruct (nth_error (t_links (tn_node w a)) c) as [k|] eqn:K; [|discriminate]. injection E as E <-.
    destruct (t_fin (k_in k)) eqn:FN.
    + left. eapply NS; [reflexivity|reflexivity|]. rewrite <- E, (upd_same _ _ _ _ K); [destruct (tn_node w a); reflexivity|].
      destruct k as [[av fn] ks]. cbn in *. subst fn. reflexivity.
    + right. split; [reflexivity|]. unfold measure. rewrite <- WS. destruct (MV _ _ _ K (eq_sym E)) as (M1 & M2 & M3); [reflexivity|].
      unfold unfin_w in M3. rewrite FN in M3. cbn in M3. right. split; [lia|]. right. split; [reflexivity|]. right. split; [lia|]. right. split; [reflexivity|]. left. lia.
  - subst e. cbn in E. destruct (nth_error (t_links (tn_node w a)) (w_fc z)) as [k|] eqn:K; [|discriminate]. injection E as E <-.
    destruct (t_fin (k_in k)) eqn:FN.
    + left. eapply NS; [reflexivity|reflexivity|]. rewrite <- E, (upd_same _ _ _ _ K); [destruct (tn_node w a); reflexivity|].
      destruct k as [[av fn] ks]. cbn in *. subst fn. reflexivity.
    + right. split; [reflexivity|]. unfold measure. rewrite <- WS. destruct (MV _ _ _ K (eq_sym E)) as (M1 & M2 & M3); [reflexivity|].
      unfold unfin_w in M3. rewrite FN in M3. cbn in M3. right. split; [lia|]. right. split; [reflexivity|]. right. split; [lia|]. right. split; [reflexivity|]. left. lia.
Qed.

(** ** The network stops *)
Lemma not_there b tr : ~ In b (map fst tr) -> at_tcp b tr = [].
Proof.
  intros NI. unfold at_tcp. induction tr as [|[a p] tr IH]; [reflexivity|]. cbn in *. destruct (N.eqb_spec a b) as [->|]; [destruct NI; left; reflexivity|]. apply IH. tauto.
Qed.
Lemma untouched tr w b : tnet_history tr w -> ~ In b (map fst tr) -> tn_node w b = tnode_init.
Proof.
  intros H NI. pose proof (tcp_at_history _ _ _ _ b H) as HB. rewrite (not_there _ _ NI) in HB.
  inversion HB as [E1 E2|? ? ? ? ? ? ? E1]; [reflexivity|]. destruct (app_cons_not_nil _ _ _ (eq_sym E1)).
Qed.
Lemma init_idle : idle (t_rt tnode_init).
Proof.
  constructor; cbn; try (intros [|n] ? E; discriminate E).
  - split; reflexivity.
  - intros n (t & T & _). destruct n; discriminate T.
  - intros [|c]; reflexivity.
  - intros [|n] (t & T & _); discriminate T.
  - intros [|n] (t & T & _); discriminate T.
Qed.
Lemma init_read tr : all_read tr tnode_init.
Proof. intros c (y & Y & _). destruct c; discriminate Y. Qed.
Lemma first_places tr w : tnet_history tr w -> elsewhere (nodup N.eq_dec (map fst tr)) w.
Proof. intros H b NI. rewrite nodup_In in NI. eapply untouched; eassumption. Qed.
Theorem net_stops (f : nat -> tnet) tr : tnet_history tr (f 0) ->
  ~ (forall n, changed (f n) (f (S n)) /\ exists e x, net_settles (f n) e /\ tnet_step (f n) e = Some (f (S n), x)).
Proof.
  intros H F. set (L := nodup N.eq_dec (map fst tr)). assert (D : NoDup L) by apply NoDup_nodup.
  assert (HN : forall n, (exists t, tnet_history t (f n)) /\ elsewhere L (f n)).
  { induction n as [|n [[t HT] EL]]; [split; [eauto|apply first_places; exact H]|]. destruct (F n) as (_ & e & x & Q & ST).
    destruct (net_less _ _ _ _ _ _ HT D EL Q ST) as [EL' _]. split; [exists (t ++ [x]); eapply tw_more; eassumption|exact EL']. }
  assert (G : forall m n, measure L (f n) = m -> False).
  { induction m as [m IH] using (well_founded_induction lex_wf). intros n <-. destruct (HN n) as [[t HT] EL]. destruct (F n) as (C & e & x & Q & ST).
    destruct (net_less _ _ _ _ _ _ HT D EL Q ST) as [_ [K|K]]; [exact (same_not _ _ K C)|]. exact (IH _ K _ eq_refl). }
  exact (G _ 0 eq_refl).
Qed.

Lemma set_other w a b s' : b <> a -> set_tnode a s' (tn_node w) b = tn_node w b.
Proof. intros N. unfold set_tnode. destruct (N.eqb_spec b a); congruence. Qed.
Lemma changed_dec_node tr w a : tnet_history tr w ->
  (exists ev w' x, net_settles w ev /\ tnet_step w ev = Some (w', x) /\ changed w w') \/
  (idle (t_rt (tn_node w a)) /\ all_read (at_tcp a tr) (tn_node w a)) \/ exists c n, jammed bk (rt_tcp a tr) (t_rt (tn_node w a)) c n.
Proof.
  intros H. destruct (step_on _ _ _ _ (tcp_at_history _ _ _ _ a H)) as [(e & s' & x & Q & ST & N)|K]; [|auto]. left.
  exists (WRun a e). assert (F : from_network e = false) by (destruct e as [[]| | | |]; try contradiction Q; reflexivity).
  cbn [TcpNetModel.tnet_step]. rewrite F, ST. eexists. eexists. split; [exact Q|]. split; [reflexivity|]. right. exists a. cbn. unfold set_tnode. rewrite N.eqb_refl. exact N.
Qed.
Lemma changed_dec_wires tr w : tnet_history tr w ->
  (exists ev w' x, net_settles w ev /\ tnet_step w ev = Some (w', x) /\ changed w w') \/ nothing_under_way w.
Proof.
  intros H. pose proof (net_inv _ _ _ _ H) as V.
  destruct (existsb (fun x => match w_tc x with Some _ => negb (flight_w x =? 0) | None => false end) (tn_wires w)) eqn:E.
  - left. apply existsb_exists in E. destruct E as (x & I & P). destruct (w_tc x) as [d|] eqn:T; [|discriminate]. apply negb_true_iff, Nat.eqb_neq in P.
    destruct (In_nth_error _ _ I) as [i X]. destruct (ni_fin _ _ V _ _ X) as [K1 K2].
    destruct (w_there x) as [|b0 d0] eqn:TH.
    + destruct (w_back x) as [|b1 d1] eqn:BK; [unfold flight_w in P; rewrite TH, BK in P; cbn in P; lia|].
      assert (LT : w_fc x < nconns (tn_node w (w_from x))) by (apply (ni_ends _ _ V); eapply ends_in; [exact I|apply fst_end]).
      unfold nconns in LT. apply nth_error_Some in LT. destruct (nth_error (r_conns (t_rt (tn_node w (w_from x)))) (w_fc x)) as [y|] eqn:Y; [|congruence].
      pose proof (has_link _ _ _ _ _ _ (tcp_at_history _ _ _ _ (w_from x) H) Y) as LK. destruct (reading _ _ _ _ (tcp_at_history _ _ _ _ (w_from x) H) (w_fc x)) as (_ & FI & _).
      exists (WBack i (length (w_back x))). cbn [TcpNetModel.tnet_step]. rewrite X. cbn [TcpNodeModel.tnode_step]. rewrite LK.
      destruct (t_fin (k_in (lk (tn_node w (w_from x)) (w_fc x)))); [destruct FI as [FI _]; destruct (K2 (FI eq_refl)) as (? & _ & B & _); congruence|].
      eexists. eexists. split; [exact Logic.I|]. split; [reflexivity|]. left. cbn. intros Z. apply (f_equal (fun l => nth_error l i)) in Z. rewrite nth_upd_same, X in Z. cbn in Z.
      injection Z as Z. apply (f_equal w_back) in Z. cbn in Z. rewrite skipn_all in Z. congruence.
    + assert (LT : d < nconns (tn_node w (w_to x))) by (apply (ni_ends _ _ V); eapply ends_in; [exact I|apply snd_end; exact T]).
      unfold nconns in LT. apply nth_error_Some in LT. destruct (nth_error (r_conns (t_rt (tn_node w (w_to x)))) d) as [y|] eqn:Y; [|congruence].
      pose proof (has_link _ _ _ _ _ _ (tcp_at_history _ _ _ _ (w_to x) H) Y) as LK. destruct (reading _ _ _ _ (tcp_at_history _ _ _ _ (w_to x) H) d) as (_ & FI & _).
      exists (WThere i (length (w_there x))). cbn [TcpNetModel.tnet_step]. rewrite X, T. cbn [TcpNodeModel.tnode_step]. rewrite LK.
      destruct (t_fin (k_in (lk (tn_node w (w_to x)) d))); [destruct FI as [FI _]; destruct (K1 _ T (FI eq_refl)) as [B _]; congruence|].
      eexists. eexists. split; [exact Logic.I|]. split; [reflexivity|]. left. cbn. intros Z. apply (f_equal (fun l => nth_error l i)) in Z. rewrite nth_upd_same, X in Z. cbn in Z.
      injection Z as Z. apply (f_equal w_there) in Z. cbn in Z. rewrite skipn_all in Z. congruence.
  - right. intros x I T. destruct (w_tc x) as [d|] eqn:Tx; [|congruence].
    assert (P : flight_w x = 0).
    { destruct (Nat.eqb_spec (flight_w x) 0) as [Z|Z]; [exact Z|exfalso]. assert (existsb (fun x => match w_tc x with Some _ => negb (flight_w x =? 0) | None => false end) (tn_wires w) = true); [|congruence].
      apply existsb_exists. exists x. split; [exact I|]. rewrite Tx. apply negb_true_iff, Nat.eqb_neq. exact Z. }
    unfold flight_w in P. split; apply length_zero_iff_nil; lia.
Qed.
Lemma some_or_all {A} (f : A -> bool) l : (exists i x, nth_error l i = Some x /\ f x = true) \/ forall x, In x l -> f x = false.
Proof.
  induction l as [|y l IH]; [right; intros x []|]. destruct (f y) eqn:E; [left; exists 0, y; auto|].
  destruct IH as [(i & x & X & F)|IH]; [left; exists (S i), x; auto|]. right. intros x [<-|I]; auto.
Qed.
(** The end of the stream, at an accepting end [b], [d] and at a connecting end. *)
Lemma told_there tr w i x d : tnet_history tr w -> nth_error (tn_wires w) i = Some x -> w_tc x = Some d -> w_there x = [] -> dropped_conn (tn_node w (w_from x)) (w_fc x) = true ->
  (exists ev w' y, net_settles w ev /\ tnet_step w ev = Some (w', y) /\ changed w w') \/ peer_closed d (at_tcp (w_to x) tr).
Proof.
  intros H X T TH Dr. pose proof (net_inv _ _ _ _ H) as V.
  assert (LT : d < nconns (tn_node w (w_to x))) by (apply (ni_ends _ _ V); eapply ends_in; [eapply nth_error_In; exact X|apply snd_end; exact T]).
  unfold nconns in LT. apply nth_error_Some in LT. destruct (nth_error (r_conns (t_rt (tn_node w (w_to x)))) d) as [y|] eqn:Y; [|congruence].
  pose proof (has_link _ _ _ _ _ _ (tcp_at_history _ _ _ _ (w_to x) H) Y) as LK. destruct (reading _ _ _ _ (tcp_at_history _ _ _ _ (w_to x) H) d) as (_ & FI & _).
  destruct (t_fin (k_in (lk (tn_node w (w_to x)) d))) eqn:FN; [right; apply FI; reflexivity|]. left.
  exists (WEndThere i). cbn [TcpNetModel.tnet_step]. rewrite X, T, TH, Dr. cbn [TcpNodeModel.tnode_step]. rewrite LK.
  eexists. eexists. split; [exact Logic.I|]. split; [reflexivity|]. right. exists (w_to x). cbn. unfold set_tnode. rewrite N.eqb_refl. intros Z.
  apply (f_equal (fun s => nth_error (t_links s) d)) in Z. cbn in Z. rewrite nth_upd_same, LK in Z. cbn in Z. injection Z as Z. apply (f_equal (fun k => t_fin (k_in k))) in Z. cbn in Z. congruence.
Qed.
Lemma told_back tr w i x d : tnet_history tr w -> nth_error (tn_wires w) i = Some x -> w_tc x = Some d -> w_back x = [] -> dropped_conn (tn_node w (w_to x)) d = true ->
  (exists ev w' y, net_settles w ev /\ tnet_step w ev = Some (w', y) /\ changed w w') \/ peer_closed (w_fc x) (at_tcp (w_from x) tr).
Proof.
  intros H X T TH Dr. pose proof (net_inv _ _ _ _ H) as V.
  assert (LT : w_fc x < nconns (tn_node w (w_from x))) by (apply (ni_ends _ _ V); eapply ends_in; [eapply nth_error_In; exact X|apply fst_end]).
  unfold nconns in LT. apply nth_error_Some in LT. destruct (nth_error (r_conns (t_rt (tn_node w (w_from x)))) (w_fc x)) as [y|] eqn:Y; [|congruence].
  pose proof (has_link _ _ _ _ _ _ (tcp_at_history _ _ _ _ (w_from x) H) Y) as LK. destruct (reading _ _ _ _ (tcp_at_history _ _ _ _ (w_from x) H) (w_fc x)) as (_ & FI & _).
  destruct (t_fin (k_in (lk (tn_node w (w_from x)) (w_fc x)))) eqn:FN; [right; apply FI; reflexivity|]. left.
  exists (WEndBack i). cbn [TcpNetModel.tnet_step]. rewrite X, T, TH, Dr. cbn [TcpNodeModel.tnode_step]. rewrite LK.
  eexists. eexists. split; [exact Logic.I|]. split; [reflexivity|]. right. exists (w_from x). cbn. unfold set_tnode. rewrite N.eqb_refl. intros Z.
  apply (f_equal (fun s => nth_error (t_links s) (w_fc x))) in Z. cbn in Z. rewrite nth_upd_same, LK in Z. cbn in Z. injection Z as Z. apply (f_equal (fun k => t_fin (k_in k))) in Z. cbn in Z. congruence.
Qed.
Definition told_w (w : tnet) (x : wire) : bool :=
  match w_tc x with
  | Some d => (dropped_conn (tn_node w (w_from x)) (w_fc x) && negb (t_fin (k_in (lk (tn_node w (w_to x)) d)))) ||
              (dropped_conn (tn_node w (w_to x)) d && negb (t_fin (k_in (lk (tn_node w (w_from x)) (w_fc x)))))
  | None => false
  end.
Lemma not_runs tr w a c b d : tnet_history tr w -> joined w a c b d -> ~ conn_runs (t_rt (tn_node w a)) c -> dropped_conn (tn_node w a) c = true.
Proof.
  intros H (x & I & J) N. pose proof (net_inv _ _ _ _ H) as V.
  assert (LT : c < nconns (tn_node w a)).
  { apply (ni_ends _ _ V). destruct J as [(<- & <- & <- & T)|(<- & <- & <- & T)]; (eapply ends_in; [exact I|]); [apply fst_end|apply snd_end; exact T]. }
  unfold nconns in LT. apply nth_error_Some in LT. unfold dropped_conn, conn_runs in *. destruct (nth_error (r_conns (t_rt (tn_node w a))) c) as [y|]; [|congruence].
  destruct (c_alive y) eqn:A; [|reflexivity]. exfalso. eauto.
Qed.
Lemma changed_dec_told tr w : tnet_history tr w -> nothing_under_way w ->
  (exists ev w' x, net_settles w ev /\ tnet_step w ev = Some (w', x) /\ changed w w') \/ all_told tr w.
Proof.
  intros H U. destruct (some_or_all (told_w w) (tn_wires w)) as [(i & x & X & F)|A].
  - left. unfold told_w in F. destruct (w_tc x) as [d|] eqn:T; [|discriminate]. destruct (U x (nth_error_In _ _ X)) as [TH BK]; [congruence|].
    destruct (reading _ _ _ _ (tcp_at_history _ _ _ _ (w_to x) H) d) as (_ & FI & _). destruct (reading _ _ _ _ (tcp_at_history _ _ _ _ (w_from x) H) (w_fc x)) as (_ & FI' & _).
    apply orb_true_iff in F. destruct F as [F|F]; apply andb_true_iff in F; destruct F as [D F]; apply negb_true_iff in F.
    + destruct (told_there _ _ _ _ _ H X T TH D) as [K|K]; [exact K|]. apply FI in K. congruence.
    + destruct (told_back _ _ _ _ _ H X T BK D) as [K|K]; [exact K|]. apply FI' in K. congruence.
  - right. intros a c b d J N. pose proof (not_runs _ _ _ _ _ _ H J N) as D. destruct J as (x & I & J). specialize (A x I). unfold told_w in A.
    destruct (reading _ _ _ _ (tcp_at_history _ _ _ _ b H) d) as (_ & FI & _). apply FI.
    destruct J as [(<- & <- & <- & T)|(<- & <- & <- & T)]; rewrite T, D in A; apply orb_false_iff in A; destruct A as [A1 A2]; cbn in A1, A2; apply negb_false_iff; assumption.
Qed.
Lemma changed_dec_accept tr w : tnet_history tr w -> (forall a, idle (t_rt (tn_node w a))) ->
  (exists ev w' x, net_settles w ev /\ tnet_step w ev = Some (w', x) /\ changed w w') \/ all_accepted w.
Proof.
  intros H ID. destruct (some_or_all (fun x => match w_tc x with None => existsb l_alive (r_lsnrs (t_rt (tn_node w (w_to x)))) | Some _ => false end) (tn_wires w)) as [(i & x & X & F)|A].
  - left. destruct (w_tc x) eqn:T; [discriminate|]. apply existsb_exists in F. destruct F as (y & I & LA). destruct (In_nth_error _ _ I) as [l Y].
    destruct (all_shared _ (ID (w_to x)) _ _ Y) as [_ PC]. exists (WAccept (w_to x) l i). cbn [TcpNetModel.tnet_step]. rewrite X, T, N.eqb_refl.
    cbn [TcpNodeModel.tnode_step tcp_internal]. unfold tcp_answer. cbn [step]. rewrite Y, LA, PC. eexists. eexists. split; [exact Logic.I|]. split; [reflexivity|].
    left. cbn [tn_wires te_rt]. intros Z. apply (f_equal (fun l => nth_error l i)) in Z. rewrite nth_upd_same, X in Z. cbn in Z. injection Z as Z. apply (f_equal w_tc) in Z. cbn in Z. congruence.
  - right. intros x I T l y Y. specialize (A x I). cbn beta in A. rewrite T in A. destruct (l_alive y) eqn:LA; [|reflexivity].
    assert (existsb l_alive (r_lsnrs (t_rt (tn_node w (w_to x)))) = true); [|congruence]. apply existsb_exists. exists y. split; [eapply nth_error_In; exact Y|exact LA].
Qed.
Lemma net_on tr w : tnet_history tr w ->
  (exists ev w' x, net_settles w ev /\ tnet_step w ev = Some (w', x) /\ changed w w') \/ net_at_rest tr w \/
  exists a c n, jammed bk (rt_tcp a tr) (t_rt (tn_node w a)) c n.
Proof.
  intros H. destruct (changed_dec_wires _ _ H) as [K|U]; [auto|].
  pose proof (first_places _ _ H) as EL. set (L := nodup N.eq_dec (map fst tr)) in *.
  assert (G : forall l, (exists ev w' x, net_settles w ev /\ tnet_step w ev = Some (w', x) /\ changed w w') \/
    (forall a, In a l -> idle (t_rt (tn_node w a)) /\ all_read (at_tcp a tr) (tn_node w a)) \/ exists a c n, jammed bk (rt_tcp a tr) (t_rt (tn_node w a)) c n).
  { induction l as [|a l IH]; [right; left; intros a []|]. destruct IH as [K|[K|K]]; [auto| |auto].
    destruct (changed_dec_node _ _ a H) as [J|[J|(c & n & J)]]; [auto| |right; right; eauto]. right. left. intros b [<-|I]; auto. }
  destruct (G L) as [K|[K|K]]; [auto| |auto].
  assert (ALL : forall a, idle (t_rt (tn_node w a)) /\ all_read (at_tcp a tr) (tn_node w a)).
  { intros a. destruct (in_dec N.eq_dec a L) as [I|I]; [exact (K a I)|]. rewrite (EL a I). split; [exact init_idle|apply init_read]. }
  destruct (changed_dec_accept _ _ H (fun a => proj1 (ALL a))) as [J|AC]; [auto|]. destruct (changed_dec_told _ _ H U) as [J|TO]; [auto|].
  right. left. split; [exact U|]. split; [exact AC|]. split; [exact TO|exact ALL].
Qed.
Theorem net_stopped tr w : tnet_history tr w -> (forall ev w' x, net_settles w ev -> tnet_step w ev = Some (w', x) -> ~ changed w w') ->
  net_at_rest tr w \/ exists a c n, jammed bk (rt_tcp a tr) (t_rt (tn_node w a)) c n.
Proof. intros H F. destruct (net_on _ _ H) as [(ev & w' & x & Q & ST & C)|K]; [|exact K]. exfalso. exact (F _ _ _ Q ST C). Qed.
Theorem net_comes_to_rest tr w : tnet_history tr w -> exists tr' w', net_settling w tr' w' /\ tnet_history (tr ++ tr') w' /\
  (net_at_rest (tr ++ tr') w' \/ exists a c n, jammed bk (rt_tcp a (tr ++ tr')) (t_rt (tn_node w' a)) c n).
Proof.
  intros H. pose proof (first_places _ _ H) as EL. assert (D : NoDup (nodup N.eq_dec (map fst tr))) by apply NoDup_nodup.
  set (L := nodup N.eq_dec (map fst tr)) in *. clearbody L. remember (measure L w) as m eqn:M. revert w tr H EL M.
  induction m as [m IH] using (well_founded_induction lex_wf). intros w tr H EL M.
  destruct (net_on _ _ H) as [(ev & w1 & x & Q & ST & C)|K].
  - destruct (net_less _ _ _ _ _ _ H D EL Q ST) as [EL' [K|K]]; [destruct (same_not _ _ K C)|]. subst m.
    destruct (IH _ K w1 (tr ++ [x])) as (tr' & w' & S & H' & R); [eapply tw_more; eassumption|exact EL'|reflexivity|].
    rewrite <- app_assoc in H', R. exists (x :: tr'), w'. split; [eapply ns_more; eassumption|]. auto.
  - exists [], w. rewrite app_nil_r. split; [constructor|]. auto.
Qed.
End Locks.
