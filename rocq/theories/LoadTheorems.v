(** Theorems about endpoints under load. *)
From Coq Require Import Permutation List NArith Bool PeanoNat Lia Wf_nat.
From Verif Require Import BytesModel SomeipModel MapModel RuntimeModel RuntimeSpec RuntimeProofs RuntimeTheorems RuntimeCallTheorems RuntimeProgressTheorems RuntimeWorkTheorems RuntimeAddrTheorems RuntimeSendTheorems
  ExchangeRestTheorems QueueModel QueueSpec QueueTheorems QueueProgressTheorems LoadSpec.
Import ListNotations.
Open Scope nat_scope.

Section Locks.
Context (bk : iid -> N) (cbk : N -> N) (dg : bool).
Notation history := (history bk cbk dg).
Notation step := (step bk cbk).
Notation steps := (steps bk cbk).
Notation qstep := (qstep bk cbk).
Notation qsteps := (qsteps bk cbk).
Notation qhistory := (qhistory bk cbk dg).
Notation qgoes := (qgoes bk cbk).
Notation can_act := (can_act bk cbk).

Ltac cases_in H :=
  repeat (match type of H with
  | context [match ?x with _ => _ end] =>
      lazymatch x with context [match _ with _ => _ end] => fail | _ => destruct x eqn:? end
  end; try discriminate H).
Ltac step_cases H :=
  unfold RuntimeModel.step, step_ep, step_take, step_route, step_stub, i_recv, push_cmd in H; cases_in H;
  injection H as <- <-.
Ltac rcbn := unfold upd_conn, upd_iface, upd_lsnr, upd_stub, upd_proxy, spawn in *;
  cbn [r_open r_datagram r_ep r_listener r_imap r_cmap r_ifaces r_conns r_lsnrs r_stubs r_proxies r_left
       set_ep set_open set_listener set_imap set_cmap set_ifaces set_conns set_lsnrs set_stubs set_proxies set_left
       st_iface st_lst st_conns st_pc st_alive st_with_pc st_with_conns end_stub l_alive l_cmds l_local l_conns l_pc
       l_with_cmds l_with_local l_with_conns l_with_pc end_lsnr new_lsnr px_iface px_conn px_remote px_alive end_proxy
       c_addr c_alive c_cmds c_out c_local c_recv c_count c_with_cmds c_with_out c_with_local c_with_recv c_with_count new_conn end_conn] in *.
Ltac nsplit := rcbn;
  repeat match goal with
  | H : nth_error (upd _ _ _) _ = Some _ |- _ => apply upd_is in H; destruct H as [[? H]|[? (? & ? & ?)]]; try subst
  | H : nth_error (_ ++ [_]) _ = Some _ |- _ => apply nth_snoc in H; destruct H as [H|[? ?]]; try subst
  end; rcbn.
Ltac same_nth :=
  repeat match goal with
  | H : nth_error ?l ?n = Some ?x, K : nth_error ?l ?n = Some ?y |- _ =>
      tryif constr_eq x y then fail else (assert (x = y) by congruence; subst y)
  end.

(** ** Steps that are not the endpoint task's *)
Definition not_ep (e : event) : Prop := match e with EServe _ | EProxy _ _ | EEp _ | ETake _ _ => False | _ => True end.
Lemma single q x q' o l : qgoes q x q' o l -> ~ acts_as TheEndpoint x ->
  (l = [] /\ q_rt q' = q_rt q) \/ exists e o', l = [(e, o')] /\ step (q_rt q) e = Some (q_rt q', o') /\ not_ep e.
Proof.
  intros G N. destruct G; cbn in N; try (destruct (N Logic.I)); try solve [left; split; reflexivity].
  - right. eexists _, _. split; [reflexivity|]. split; [eassumption|exact Logic.I].
  - right. eexists _, _. split; [reflexivity|]. split; [eassumption|exact Logic.I].
  - unfold dropped_answer in H0. destruct (drop_answer o) as [d|] eqn:D.
    + destruct H0 as (o' & S & ->). right. exists d, o'. split; [reflexivity|]. split; [exact S|]. destruct o; try discriminate D; injection D as <-; exact Logic.I.
    + destruct H0 as [-> ->]. left. split; reflexivity.
  - right. eexists _, _. split; [reflexivity|]. split; [eassumption|exact Logic.I].
  - right. eexists _, _. split; [reflexivity|]. split; [eassumption|exact Logic.I].
  - right. eexists _, _. split; [reflexivity|]. split; [eassumption|]. destruct e; try exact Logic.I; discriminate H.
Qed.
Lemma ep_still q x q' o l : qgoes q x q' o l -> ~ acts_as TheEndpoint x -> r_ep (q_rt q') = r_ep (q_rt q).
Proof.
  intros G N. destruct (single _ _ _ _ _ G N) as [[_ ->]|(e & o' & _ & S & NE)]; [reflexivity|]. eapply ep_keeps; [exact S|exact NE].
Qed.
Lemma reads_by q x q' o l e o' : qgoes q x q' o l -> match e with ERecvFrom _ | EProxyRecv _ => True | _ => False end -> In (e, o') l ->
  step (q_rt q) e = Some (q_rt q', o').
Proof.
  intros G R I. destruct G; cbn in I; try contradiction.
  - destruct I as [I|[]]. injection I as <- _. destruct R.
  - destruct I as [I|[]]. injection I as <- _. unfold begins in R. destruct (e_gone e0), to; destruct R.
  - destruct I as [I|[]]. injection I as <- _. unfold connects in H1. destruct (e_gone e0); [rewrite H1 in R; destruct R|]. destruct H1 as (n & _ & ->). destruct R.
  - destruct I as [I|[]]. injection I as <- _. destruct R.
  - destruct I as [I|I]; [injection I as <- _; destruct R|]. unfold dropped_answer in H4. destruct (drop_answer o) as [d|] eqn:D.
    + destruct H4 as (o2 & S & ->). destruct I as [I|[]]. injection I as <- _. destruct o; try discriminate D; injection D as <-; destruct R.
    + destruct H4 as [_ ->]. destruct I.
  - destruct I as [I|[]]. injection I as <- _. destruct R.
  - destruct I as [I|[]]. injection I as <- _. destruct R.
  - unfold dropped_answer in H0. destruct (drop_answer o) as [d|] eqn:D.
    + destruct H0 as (o2 & S & ->). destruct I as [I|[]]. injection I as <- _. destruct o; try discriminate D; injection D as <-; destruct R.
    + destruct H0 as [_ ->]. destruct I.
  - destruct I as [I|[]]. injection I as <- _. destruct R.
  - destruct I as [I|[]]. injection I as <- _. destruct R.
  - destruct I as [I|[]]. injection I as <- <-. exact H0.
Qed.

(** ** At most one holds a lock *)
Definition holds_id (s : rt) (b : N) (c : nat) : Prop := exists x, nth_error (r_conns s) c = Some x /\ recv_locks bk b x = true.
Definition holds_addr (s : rt) (b : N) (n : nat) : Prop := exists t, nth_error (r_stubs s) n = Some t /\ stub_locks cbk b t = true.
Lemma locked_is s id : locked bk s id = true <-> exists c, holds_id s (bk id) c.
Proof. unfold locked, holds_id. rewrite existsb_nth. split; intros (c & x & K); eauto. Qed.
Lemma clocked_is s a : clocked cbk s a = true <-> exists n, holds_addr s (cbk a) n.
Proof. unfold clocked, holds_addr. rewrite existsb_nth. split; intros (c & x & K); eauto. Qed.
(** Who holds a lock after a step held it before, or nobody did. *)
Lemma held_before s e s' o b c : step s e = Some (s', o) -> holds_id s' b c -> holds_id s b c \/ forall d, ~ holds_id s b d.
Proof.
  intros ST (x & X & K). unfold recv_locks in K.
  assert (OLD : forall z, nth_error (r_conns s) c = Some z -> c_recv z = c_recv x -> holds_id s b c).
  { intros z Z R. exists z. split; [exact Z|]. unfold recv_locks. rewrite R. exact K. }
  destruct e; step_cases ST; nsplit; try discriminate K; try solve [left; eapply OLD; [eassumption|reflexivity]].
  all: try match goal with D : nth_error (r_conns ?s) ?c = Some ?x, H : nth_error (r_conns ?s) ?c = Some ?y |- _ => assert (x = y) by congruence; subst y end.
  all: try solve [left; eapply OLD; [eassumption|rcbn; congruence]].
  all: try solve [left; eexists; split; [eassumption|]; unfold recv_locks; rcbn; destruct (c_recv _); [discriminate|exact K]].
  all: right; intros d HD; match goal with K : N.eqb _ _ = true |- _ => apply N.eqb_eq in K; rewrite <- K in HD end; match goal with L : locked bk _ _ = false |- _ => rewrite (proj2 (locked_is _ _) (ex_intro _ d HD)) in L; discriminate L end.
Qed.
Lemma cheld_before s e s' o b c : step s e = Some (s', o) -> holds_addr s' b c -> holds_addr s b c \/ forall d, ~ holds_addr s b d.
Proof.
  intros ST (x & X & K). unfold stub_locks in K.
  assert (OLD : forall z, nth_error (r_stubs s) c = Some z -> st_pc z = st_pc x -> holds_addr s b c).
  { intros z Z R. exists z. split; [exact Z|]. unfold stub_locks. rewrite R. exact K. }
  destruct e; step_cases ST; nsplit; try discriminate K; try solve [left; eapply OLD; [eassumption|reflexivity]].
  all: right; intros d HD; match goal with K : N.eqb _ _ = true |- _ => apply N.eqb_eq in K; rewrite <- K in HD end; match goal with L : clocked cbk _ _ = false |- _ => rewrite (proj2 (clocked_is _ _) (ex_intro _ d HD)) in L; discriminate L end.
Qed.
Lemma one_holder tr s : history tr s -> forall b c d, holds_id s b c -> holds_id s b d -> c = d.
Proof.
  induction 1 as [|tr s e s' o H IH ST]; intros b c d HC HD; [destruct HC as (x & X & _); destruct c; discriminate X|].
  destruct (held_before _ _ _ _ _ _ ST HC) as [K|K]; destruct (held_before _ _ _ _ _ _ ST HD) as [L|L]; [exact (IH _ _ _ K L)|destruct (L _ K)|destruct (K _ L)|].
  clear IH. destruct HC as (x & X & E), HD as (y & Y & F). unfold recv_locks in *.
  destruct (Nat.eq_dec c d) as [Q|Q]; [exact Q|exfalso].
  assert (OX : forall z, nth_error (r_conns s) c = Some z -> c_recv z = c_recv x -> False).
  { intros z Z R. apply (K c). exists z. split; [exact Z|]. unfold recv_locks. rewrite R. exact E. }
  assert (OY : forall z, nth_error (r_conns s) d = Some z -> c_recv z = c_recv y -> False).
  { intros z Z R. apply (K d). exists z. split; [exact Z|]. unfold recv_locks. rewrite R. exact F. }
  destruct e; step_cases ST; nsplit; try discriminate E; try discriminate F; try congruence;
    try solve [eapply OX; [eassumption|rcbn; congruence]]; try solve [eapply OY; [eassumption|rcbn; congruence]].
Qed.
Lemma one_cholder tr s : history tr s -> forall b c d, holds_addr s b c -> holds_addr s b d -> c = d.
Proof.
  induction 1 as [|tr s e s' o H IH ST]; intros b c d HC HD; [destruct HC as (x & X & _); destruct c; discriminate X|].
  destruct (cheld_before _ _ _ _ _ _ ST HC) as [K|K]; destruct (cheld_before _ _ _ _ _ _ ST HD) as [L|L]; [exact (IH _ _ _ K L)|destruct (L _ K)|destruct (K _ L)|].
  clear IH. destruct HC as (x & X & E), HD as (y & Y & F). unfold stub_locks in *.
  destruct (Nat.eq_dec c d) as [Q|Q]; [exact Q|exfalso].
  assert (OX : forall z, nth_error (r_stubs s) c = Some z -> st_pc z = st_pc x -> False).
  { intros z Z R. apply (K c). exists z. split; [exact Z|]. unfold stub_locks. rewrite R. exact E. }
  assert (OY : forall z, nth_error (r_stubs s) d = Some z -> st_pc z = st_pc y -> False).
  { intros z Z R. apply (K d). exists z. split; [exact Z|]. unfold stub_locks. rewrite R. exact F. }
  destruct e; step_cases ST; nsplit; try discriminate E; try discriminate F; try congruence;
    try solve [eapply OX; [eassumption|rcbn; congruence]]; try solve [eapply OY; [eassumption|rcbn; congruence]].
Qed.

Lemma keeps_hold s e s' o n u a c m w b : step s e = Some (s', o) -> nth_error (r_stubs s) n = Some u -> st_pc u = SHold a c m ->
  nth_error (r_stubs s') n = Some w -> stub_locks cbk b w = true -> st_pc w = SHold a c m.
Proof.
  intros S V PV W LW. unfold stub_locks in LW. destruct e; step_cases S; nsplit; same_nth; rcbn; try congruence; try discriminate LW.
Qed.
Lemma lets_go s ok s' o n u a c m w : step s (EStub n ok) = Some (s', o) -> nth_error (r_stubs s) n = Some u -> st_pc u = SHold a c m ->
  nth_error (r_stubs s') n = Some w -> st_pc w = SHold a c m -> False.
Proof. intros S V PV W PW. step_cases S; nsplit; same_nth; rcbn; congruence. Qed.
Lemma keeps_recv s e s' o c x i it todo x' b : step s e = Some (s', o) -> nth_error (r_conns s) c = Some x -> c_recv x = RHold i it todo ->
  nth_error (r_conns s') c = Some x' -> recv_locks bk b x' = true -> c_recv x' = RHold i it todo.
Proof.
  intros S V PV W LW. unfold recv_locks in LW. destruct e; step_cases S; nsplit; same_nth; rcbn; try congruence; try discriminate LW.
Qed.
Lemma routes_on s s' o c x i it todo x' : step s (ERoute c) = Some (s', o) -> nth_error (r_conns s) c = Some x -> c_recv x = RHold i it todo ->
  nth_error (r_conns s') c = Some x' -> c_recv x' = RHold i it todo -> False.
Proof. intros S V PV W PW. step_cases S; nsplit; same_nth; rcbn; congruence. Qed.
Lemma take_less y : length (i_queue (i_take y)) = Nat.pred (length (i_queue y)).
Proof. unfold i_queue, i_take. cbn [i_log i_next]. rewrite !skipn_length. lia. Qed.
Lemma reads_one s e s' o c i it todo : step s e = Some (s', o) -> not_ep e -> stall s c i it todo -> stall s' c i it todo -> ~ frees s i e.
Proof.
  intros S NP [_ (y & Y & RX & F)] [_ (y' & Y' & RX' & F')] K.
  destruct K; try destruct NP; step_cases S; rcbn; same_nth; subst; nsplit; same_nth; try congruence; rcbn; try discriminate RX'; try discriminate F;
    repeat match goal with E : Some _ = Some _ |- _ => injection E as ? end; subst; same_nth; try (rewrite take_less, F in F'; discriminate F');
    try match goal with Q : i_queue ?y = _, F : length (i_queue ?y) = _ |- _ => rewrite Q in F; discriminate F end; try congruence.
Qed.

(** ** A send goes on *)
Definition pcrank (p : spc) : nat := match p with SFree => 0 | SHold _ _ _ => 1 | SSend _ _ => 2 | SShare _ _ _ => 3 | SConnect _ _ => 4 | SCheck _ _ => 5 end.
Lemma stub_pc_is n s u : nth_error (r_stubs s) n = Some u -> stub_pc n s = st_pc u.
Proof. unfold stub_pc. intros ->. reflexivity. Qed.
Lemma pc_stub n s : stub_pc n s <> SFree -> exists u, nth_error (r_stubs s) n = Some u /\ st_pc u = stub_pc n s.
Proof. unfold stub_pc. destruct (nth_error (r_stubs s) n) as [u|]; [eauto|congruence]. Qed.
Lemma send_goes s ok s' o n : step s (EStub n ok) = Some (s', o) -> pcrank (stub_pc n s') < pcrank (stub_pc n s).
Proof.
  intros ST. cbn in ST. unfold stub_pc. destruct (nth_error (r_stubs s) n) as [u|] eqn:U; [|discriminate ST]. step_cases ST; rcbn; rewrite nth_upd_same, U; cbn; lia.
Qed.
Lemma rt_pc s e s' o n : step s e = Some (s', o) -> stub_pc n s <> SFree -> stub_pc n s' = stub_pc n s \/ pcrank (stub_pc n s') < pcrank (stub_pc n s).
Proof.
  intros ST N. destruct (pc_stub _ _ N) as (u & U & P). assert (RP : 0 < pcrank (stub_pc n s)) by (destruct (stub_pc n s); cbn; [congruence|lia..]).
  destruct (stub_after _ _ _ _ _ _ _ _ ST U) as (v & V & _ & K).
  destruct K as [->|(_ & [E|[(a & m & _ & E)|[(ok & -> & _)|(b & ->)]]])].
  - right. cbn in ST. rewrite U in ST. destruct (st_alive u); [|discriminate ST]. injection ST as <- _. unfold stub_pc at 1. rcbn. rewrite nth_upd_same, U. cbn. exact RP.
  - left. rewrite (stub_pc_is _ _ _ V), E. exact P.
  - congruence.
  - right. exact (send_goes _ _ _ _ _ ST).
  - right. cbn in ST. rewrite U in ST. destruct (st_alive u); [|discriminate ST]. destruct (st_pc u) eqn:Q; try discriminate ST; try destruct b; injection ST as <- _; unfold stub_pc at 1; rcbn; rewrite nth_upd_same, U; cbn; exact RP.
Qed.
(** What a step is for the runtime: nothing, one event, or two of which the second drops an answer. *)
Lemma shape q x q' o l : qgoes q x q' o l -> q_rt q' = q_rt q \/ (exists e o', step (q_rt q) e = Some (q_rt q', o')) \/
  exists ok s1 o1 d o2, step (q_rt q) (EEp ok) = Some (s1, o1) /\ drop_answer o1 = Some d /\ step s1 d = Some (q_rt q', o2).
Proof.
  intros G. destruct G; cbn [q_rt with_rt with_calls with_chan with_now with_over set_call unwatch] in *; try (left; reflexivity); try (right; left; eauto; fail).
  - unfold dropped_answer in H4. destruct (drop_answer o) as [d|] eqn:D; [right; right|right; left; destruct H4 as [-> _]; eauto].
    destruct H4 as (o2 & S & _). exists ok, s1, o, d, o2. auto.
  - unfold dropped_answer in H0. destruct (drop_answer o) as [d|] eqn:D; [right; left; destruct H0 as (o2 & S & _); eauto|left; destruct H0 as [-> _]; reflexivity].
Qed.
Lemma q_pc q x q' o l n : qgoes q x q' o l -> stub_pc n (q_rt q) <> SFree ->
  stub_pc n (q_rt q') = stub_pc n (q_rt q) \/ pcrank (stub_pc n (q_rt q')) < pcrank (stub_pc n (q_rt q)).
Proof.
  intros G N. destruct (shape _ _ _ _ _ G) as [->|[(e & o' & S)|(ok & s1 & o1 & d & o2 & S & _ & S2)]]; [left; reflexivity|exact (rt_pc _ _ _ _ _ S N)|].
  destruct (pc_stub _ _ N) as (u & U & P). destruct (stub_after _ _ _ _ _ _ _ _ S U) as (v & V & _ & [E|(_ & [E|[(a & m & E & _)|[(ok' & E & _)|(b & E)]]])]); try discriminate E.
  assert (Q : stub_pc n s1 = stub_pc n (q_rt q)) by (rewrite (stub_pc_is _ _ _ V), E; exact P). rewrite <- Q in N |- *. exact (rt_pc _ _ _ _ _ S2 N).
Qed.
Lemma drop_conns s o d s' o' : drop_answer o = Some d -> step s d = Some (s', o') -> r_conns s' = r_conns s.
Proof. intros D S. destruct o; try discriminate D; injection D as <-; step_cases S; reflexivity. Qed.
Lemma shape_l q x q' o l : qgoes q x q' o l -> (q_rt q' = q_rt q /\ l = []) \/ (exists e o', step (q_rt q) e = Some (q_rt q', o') /\ l = [(e, o')]) \/
  exists ok s1 o1 d o2, step (q_rt q) (EEp ok) = Some (s1, o1) /\ drop_answer o1 = Some d /\ step s1 d = Some (q_rt q', o2) /\ l = [(EEp ok, o1); (d, o2)].
Proof.
  intros G. destruct G; cbn [q_rt with_rt with_calls with_chan with_now with_over set_call unwatch] in *; try (left; split; reflexivity); try (right; left; eauto; fail).
  - unfold dropped_answer in H4. destruct (drop_answer o) as [d|] eqn:D; [right; right|right; left; destruct H4 as [-> ->]; eauto].
    destruct H4 as (o2 & S & ->). exists ok, s1, o, d, o2. auto.
  - unfold dropped_answer in H0. destruct (drop_answer o) as [d|] eqn:D; [right; left; destruct H0 as (o2 & S & ->); eauto|left; destruct H0 as [-> ->]; split; reflexivity].
Qed.
(** What a connection still has to write. *)
Definition out_w (c : nat) (s : rt) : nat :=
  match nth_error (r_conns s) c with Some x => match c_out x with Some _ => 0 | None => S (length (c_cmds x)) end | None => 0 end.
Definition to_write (s : rt) (c : nat) : Prop := exists x, nth_error (r_conns s) c = Some x /\ c_alive x = true /\ (c_out x <> None \/ c_cmds x <> []).
Lemma out_less s e s' o c : step s e = Some (s', o) -> to_write s c -> to_write s' c -> (forall ok bs, ~ (e = ESocket c ok /\ o = OSent bs)) ->
  out_w c s' <= out_w c s /\ (match e with ESender d | ESocket d _ => d = c | _ => False end -> out_w c s' < out_w c s).
Proof.
  intros ST (x & X & A & C) (x' & X' & A' & C') NS. unfold out_w. rewrite X, X'.
  destruct e; step_cases ST; nsplit; try discriminate A'; try congruence;
    same_nth; rcbn.
  all: try match goal with NS : forall ok bs, ~ (ESocket _ _ = _ /\ OSent _ = _) |- _ => destruct (NS _ _ (conj eq_refl eq_refl)) end.
  all: repeat match goal with E : c_cmds _ = _ |- _ => rewrite E in * | E : c_out _ = _ |- _ => rewrite E in * end; cbn [length].
  all: try (destruct (c_out x) as [bs|] eqn:O; rcbn).
  all: try match goal with L : (length (c_cmds ?x) <? 1) = true, C : _ \/ c_cmds ?x <> [] |- _ => apply Nat.ltb_lt in L; destruct C as [C|C]; [congruence|destruct (c_cmds x); [congruence|cbn in L; lia]] end.
  all: split; [try lia|try (intros K; try contradiction K; try subst; try congruence; lia)].
  all: try (apply nth_error_None in X; apply nth_error_Some in X'; lia).
  all: try (exfalso; destruct C' as [C'|C']; congruence).
  all: match goal with |- context [c_out ?y] => destruct (c_out y) eqn:O; [reflexivity|] end.
  all: match goal with L : (length (c_cmds ?x) <? 1) = true |- _ => apply Nat.ltb_lt in L; destruct C as [C|C]; [congruence|destruct (c_cmds x); [congruence|cbn in L; lia]] end.
Qed.
(** What routing does to what waits at a connection. *)
Definition recv_w (c : nat) (s : rt) : nat :=
  match nth_error (r_conns s) c with Some x => match c_recv x with RWait todo => 2 * length todo | RHold _ _ todo => S (2 * length todo) end | None => 0 end.
Lemma route_on s s' o c it : step s (ERoute c) = Some (s', o) -> In it (waiting s c) ->
  o = ORouted it \/ o = ODropped it \/ (In it (waiting s' c) /\ recv_w c s' < recv_w c s).
Proof.
  intros S I. cbn in S. unfold waiting, recv_w in *. destruct (nth_error (r_conns s) c) as [x|] eqn:X; [|contradiction I]. destruct (c_alive x); [|discriminate S]. unfold step_route in S.
  destruct (c_recv x) as [[|k todo]|i k todo] eqn:E; [contradiction I| |].
  - destruct (locked bk s _); [discriminate S|]. destruct (map_get _ _ _) as [i|]; [destruct (iface_strong s i)|]; injection S as <- <-; unfold upd_conn; cbn [r_conns set_conns set_imap]; rewrite nth_upd_same, X; cbn.
    + right. right. split; [exact I|lia].
    + destruct I as [->|I]; [right; left; reflexivity|right; right; split; [exact I|lia]].
    + destruct I as [->|I]; [right; left; reflexivity|right; right; split; [exact I|lia]].
  - destruct (nth_error (r_ifaces s) i) as [y|]; [|discriminate S]. destruct (i_rx y); [destruct (length (i_queue y) <? 16); [|discriminate S]|]; injection S as <- <-; unfold upd_conn, upd_iface; cbn [r_conns set_conns set_imap set_ifaces]; rewrite nth_upd_same, X; cbn.
    + destruct I as [->|I]; [left; reflexivity|right; right; split; [exact I|lia]].
    + destruct I as [->|I]; [right; left; reflexivity|right; right; split; [exact I|lia]].
Qed.
Lemma route_less s s' o c it : step s (ERoute c) = Some (s', o) -> In it (waiting s c) -> recv_w c s' < recv_w c s.
Proof.
  intros S I. cbn in S. unfold waiting, recv_w in *. destruct (nth_error (r_conns s) c) as [x|] eqn:X; [|contradiction I]. destruct (c_alive x); [|discriminate S]. unfold step_route in S.
  destruct (c_recv x) as [[|k todo]|i k todo] eqn:E; [contradiction I| |].
  - destruct (locked bk s _); [discriminate S|]. destruct (map_get _ _ _) as [i|]; [destruct (iface_strong s i)|]; injection S as <- <-; unfold upd_conn; cbn [r_conns set_conns set_imap]; rewrite nth_upd_same, X; cbn; lia.
  - destruct (nth_error (r_ifaces s) i) as [y|]; [|discriminate S]. destruct (i_rx y); [destruct (length (i_queue y) <? 16); [|discriminate S]|]; injection S as <- <-; unfold upd_conn, upd_iface; cbn [r_conns set_conns set_imap set_ifaces]; rewrite nth_upd_same, X; cbn; lia.
Qed.
(** A receiver that waits for a packet waits until one comes, or the connection ends. *)
Lemma wait_stays s e s' o c x x' : step s e = Some (s', o) -> nth_error (r_conns s) c = Some x -> c_recv x = RWait [] -> (forall bs, e <> EPacket c bs) ->
  nth_error (r_conns s') c = Some x' -> c_recv x' = RWait [].
Proof.
  intros ST X W NP X'. destruct e; step_cases ST; nsplit; try congruence; same_nth; rcbn; try congruence; try reflexivity.
  all: try match goal with E : c_recv ?y = _, K : c_recv ?y = _ |- _ => rewrite E in K; discriminate K end.
  all: try (exfalso; eapply NP; reflexivity).
Qed.
Lemma ran_before s e s' o c x : step s e = Some (s', o) -> nth_error (r_conns s) c = Some x -> conn_runs s' c -> c_alive x = true.
Proof.
  intros S X (x' & X' & A'). destruct (conn_after _ _ _ _ _ _ _ _ S X) as (y & Y & [D|[(D & _)|[->|(bs & -> & _)]]]); [congruence|congruence| |].
  - cbn in S. rewrite X in S. destruct (c_alive x); [reflexivity|discriminate S].
  - cbn in S. rewrite X in S. destruct (c_alive x); [reflexivity|discriminate S].
Qed.
Lemma recv_kept s e s' o c x : step s e = Some (s', o) -> nth_error (r_conns s) c = Some x -> conn_runs s' c -> c_recv x <> RWait [] -> e <> ERoute c ->
  exists x', nth_error (r_conns s') c = Some x' /\ c_recv x' = c_recv x.
Proof.
  intros S X (x' & X' & A') W NR. destruct (conn_after _ _ _ _ _ _ _ _ S X) as (y & Y & [D|[(_ & D & _)|[E|(bs & _ & E)]]]); [congruence|eauto|congruence|congruence].
Qed.
Lemma ep_new s ok s1 o1 d : step s (EEp ok) = Some (s1, o1) -> drop_answer o1 = Some d -> d = EDropStub (length (r_stubs s)) \/ d = EDropProxy (length (r_proxies s)).
Proof. intros S D. step_cases S; try discriminate D; injection D as <-; auto. Qed.
Lemma ep_takes s ok s' o ow id i : r_ep s = EpTake ow id i -> step s (EEp ok) = Some (s', o) -> r_ep s' = EpWait.
Proof.
  intros E S. cbn -[Nat.ltb] in S. unfold step_ep in S. rewrite E in S. destruct ow as [k|k a]; cbn -[Nat.ltb] in S.
  - destruct (nth_error (r_lsnrs s) k) as [y|]; [|discriminate S]. destruct (l_alive y); [destruct (_ <? _); [|discriminate S]|]; injection S as <- _; reflexivity.
  - destruct (nth_error (r_conns s) k) as [y|]; [|discriminate S]. destruct (c_alive y); [destruct (_ <? _); [|discriminate S]|]; injection S as <- _; reflexivity.
Qed.
(** The same for a step of the endpoint. *)
Lemma q_conn q x q' o l c y : qgoes q x q' o l -> nth_error (r_conns (q_rt q)) c = Some y -> exists y', nth_error (r_conns (q_rt q')) c = Some y'.
Proof.
  intros G Y. destruct (shape _ _ _ _ _ G) as [->|[(e & o' & S)|(ok & s1 & o1 & d & o2 & S & D & S2)]]; [eauto|exact (conn_kept _ _ _ _ _ _ _ _ S Y)|].
  rewrite (drop_conns _ _ _ _ _ D S2). exact (conn_kept _ _ _ _ _ _ _ _ S Y).
Qed.
Lemma q_ran q x q' o l c y : qgoes q x q' o l -> nth_error (r_conns (q_rt q)) c = Some y -> conn_runs (q_rt q') c -> c_alive y = true.
Proof.
  intros G Y RU. destruct (shape _ _ _ _ _ G) as [E|[(e & o' & S)|(ok & s1 & o1 & d & o2 & S & D & S2)]].
  - destruct RU as (z & Z & A). rewrite E in Z. congruence.
  - exact (ran_before _ _ _ _ _ _ S Y RU).
  - apply (ran_before _ _ _ _ _ _ S Y). unfold conn_runs in *. rewrite <- (drop_conns _ _ _ _ _ D S2). exact RU.
Qed.
Lemma q_recv q x q' o l c y : qgoes q x q' o l -> nth_error (r_conns (q_rt q)) c = Some y -> conn_runs (q_rt q') c -> c_recv y <> RWait [] -> ~ acts_as (Receiver c) x ->
  exists y', nth_error (r_conns (q_rt q')) c = Some y' /\ c_recv y' = c_recv y.
Proof.
  intros G Y RU W NA. destruct (shape_l _ _ _ _ _ G) as [[-> _]|[(e & o' & S & EL)|(ok & s1 & o1 & d & o2 & S & D & S2 & _)]]; [eauto| |].
  - apply (recv_kept _ _ _ _ _ _ S Y RU W). intros ->. apply NA. clear - G EL. destruct G; try discriminate EL; try (injection EL as E _; subst; try discriminate E; try exact eq_refl; fail).
    all: try (injection EL as E _; unfold begins in E; destruct (e_gone e); [discriminate E|destruct to; discriminate E]).
    + injection EL as E _. subst b. unfold connects in *. destruct (e_gone e); [discriminate H1|]. destruct H1 as (n & _ & E). discriminate E.
    + unfold dropped_answer in *. destruct (drop_answer o) as [d|] eqn:D; [destruct H0 as (? & _ & ->)|destruct H0 as [_ ->]]; [|discriminate EL]. injection EL as -> _. destruct o; discriminate D.
  - rewrite (drop_conns _ _ _ _ _ D S2). apply (recv_kept _ _ _ _ _ _ S Y); [|exact W|discriminate]. unfold conn_runs in *. rewrite <- (drop_conns _ _ _ _ _ D S2). exact RU.
Qed.
Lemma q_held q x q' o l b c : qgoes q x q' o l -> holds_id (q_rt q') b c -> holds_id (q_rt q) b c \/ forall d, ~ holds_id (q_rt q) b d.
Proof.
  intros G K. destruct (shape _ _ _ _ _ G) as [E|[(e & o' & S)|(ok & s1 & o1 & d & o2 & S & D & S2)]]; [left; rewrite <- E; exact K|exact (held_before _ _ _ _ _ _ S K)|].
  apply (held_before _ _ _ _ _ _ S). unfold holds_id in *. rewrite <- (drop_conns _ _ _ _ _ D S2). exact K.
Qed.
(** Where the command of a send is among those the endpoint task has and gets. *)
Definition ahead (n k : nat) (q : qst) : Prop := exists pre e post, now_list q ++ q_chan q = pre ++ e :: post /\ waits (FSend n) e = true /\ length pre = k.
Lemma ahead_step q x q' o l n k : qgoes q x q' o l -> (exists a m, stub_pc n (q_rt q) = SConnect a m) -> ahead n k q ->
  pcrank (stub_pc n (q_rt q')) < 4 \/ match o with QDone _ _ _ => exists k', k = S k' /\ ahead n k' q' | _ => ahead n k q' end.
Proof.
  intros G (a & m & PC) (pre & e & post & E & W & L).
  assert (LOSE : forall g, g <> FSend n -> ahead n k (unwatch g q)).
  { intros g NG. exists (map (lose g) pre), e, (map (lose g) post). split; [|split; [exact W|rewrite map_length; exact L]].
    assert (LE : lose g e = e).
    { unfold lose. destruct (waits g e) eqn:WG; [|reflexivity]. unfold waits in W, WG. apply andb_true_iff in W, WG. destruct W as [_ W], WG as [_ WG]. apply qfrom_is in W, WG. congruence. }
    rewrite <- LE at 1. change (lose g e :: map (lose g) post) with (map (lose g) (e :: post)). rewrite <- map_app, <- E, map_app. f_equal. unfold now_list, unwatch. cbn. destruct (q_now q); reflexivity. }
  assert (DONE : forall e0, q_now q = Some e0 -> (pre = [] -> e0 = e -> pcrank (stub_pc n (q_rt q')) < 4) -> q_chan q' = q_chan q -> q_now q' = None ->
    pcrank (stub_pc n (q_rt q')) < 4 \/ exists k', k = S k' /\ ahead n k' q').
  { intros e0 N F C N'. unfold now_list in E. rewrite N in E. destruct pre as [|p0 pre]; cbn in E; injection E as E0 E1; [left; auto|]. right. exists (length pre). split; [symmetry; exact L|].
    exists pre, e, post. unfold now_list. rewrite N', C. auto. }
  destruct G; cbn [q_rt with_rt with_calls with_chan with_now with_over set_call unwatch] in *.
  - right. exists pre, e, post. auto.
  - right. exists pre, e, (post ++ [mkE (FCall t) (KCall id to) false]). split; [|auto]. cbn. unfold now_list in *. cbn. rewrite app_assoc, E, <- app_assoc. reflexivity.
  - right. exists pre, e, (post ++ [mkE (FSend n0) (KConnect a0) false]). split; [|auto]. cbn. unfold now_list in *. cbn. rewrite app_assoc, E, <- app_assoc. reflexivity.
  - right. exists pre, e, post. auto.
  - right. exists pre, e, post. auto.
  - right. exists pre, e, post. split; [|auto]. unfold now_list in *. cbn. rewrite H0, H1 in E. exact E.
  - right. exists pre, e, post. split; [|auto]. unfold now_list in *. cbn. rewrite H0, H1 in E. exact E.
  - apply (DONE e0); [assumption| |reflexivity|reflexivity]. intros _ ->. unfold waits in W. apply andb_true_iff in W. destruct W as [W1 W2]. apply qfrom_is in W2. apply negb_true_iff in W1.
    unfold connects in H1. rewrite W1 in H1. destruct H1 as (n' & F & ->). assert (n' = n) by congruence. subst n'. pose proof (send_goes _ _ _ _ _ H2) as K. rewrite PC in K. exact K.
  - right. exists pre, e, post. auto.
  - apply (DONE e0); [assumption| |reflexivity|reflexivity]. intros _ ->. unfold waits in W. rewrite H3 in W. discriminate W.
  - apply (DONE e0); [assumption| |reflexivity|reflexivity]. intros _ ->. unfold waits in W. rewrite H4 in W. apply andb_true_iff in W. destruct W as [_ W]. discriminate W.
  - right. exists pre, e, post. auto.
  - right. exists pre, e, post. auto.
  - right. apply (LOSE (FCall t)). discriminate.
  - right. apply (LOSE (FCall t)). discriminate.
  - right. exists pre, e, post. auto.
  - destruct (Nat.eq_dec n0 n) as [->|D]; [|right; apply (LOSE (FSend n0)); congruence]. left.
    unfold stub_pc in PC. destruct (nth_error (r_stubs (q_rt q)) n) as [u|] eqn:U; [|discriminate PC].
    cbn in H. rewrite U, PC in H. destruct (st_alive u); [|discriminate H]. assert (K : stub_pc n s' = SFree); [|rewrite K; cbn; lia].
    destruct (in_channel (FSend n) q); injection H as <- _; unfold stub_pc; rcbn; rewrite nth_upd_same, U; reflexivity.
  - right. exists pre, e, post. auto.
  - right. exists pre, e, post. auto.
  - right. exists pre, e, post. auto.
Qed.

(** How far the endpoint task is from the end of a call. *)
Definition stage (s : rt) : nat := match r_ep s with EpWait => 0 | EpCheck _ _ => 4 | EpReady _ _ => 3 | EpShare _ _ => 2 | EpTake _ _ _ => 1 end.

(** ** Runs *)
Section Run.
Context (f : nat -> qst) (t : nat -> list qlog) (R : load_run bk cbk f t) (H0 : qhistory (t 0) (f 0)).

Lemma hist n : qhistory (t n) (f n).
Proof.
  induction n as [|n IH]; [exact H0|]. destruct (lr_goes _ _ _ _ R n) as [[-> ->]|(x & o & l & S & ->)]; [exact IH|]. econstructor; eassumption.
Qed.
Lemma rhist n : history (rt_trace (t n)) (q_rt (f n)).
Proof. exact (refines _ _ _ _ _ (hist n)). Qed.
Lemma inv n : qinv (t n) (f n).
Proof. exact (invariant _ _ _ _ _ (hist n)). Qed.
Lemma took_step m p : t (S m) = t m ++ [p] -> qstep (f m) (fst (fst p)) = Some (f (S m), snd (fst p), snd p).
Proof.
  intros E. destruct (lr_goes _ _ _ _ R m) as [[_ E']|(x & o & l & S & E')].
  - rewrite E in E'. exfalso. apply (f_equal (@length _)) in E'. rewrite app_length in E'. cbn in E'. lia.
  - rewrite E in E'. apply app_inj_tail in E'. destruct E' as [_ ->]. exact S.
Qed.
Lemma goes m : (f (S m) = f m /\ t (S m) = t m) \/ exists x o l, qgoes (f m) x (f (S m)) o l /\ t (S m) = t m ++ [(x, o, l)].
Proof. destruct (lr_goes _ _ _ _ R m) as [K|(x & o & l & S & E)]; [left; exact K|right]. exists x, o, l. split; [apply qstepped; exact S|exact E]. Qed.
(** What is true from now on. *)
Lemma persists (P : qst -> Prop) n : P (f n) ->
  (forall m x o l, n <= m -> P (f m) -> t (S m) = t m ++ [(x, o, l)] -> qgoes (f m) x (f (S m)) o l -> P (f (S m))) -> forall m, n <= m -> P (f m).
Proof.
  intros B ST m L. induction L as [|m L IH]; [exact B|]. destruct (goes m) as [[-> _]|(x & o & l & G & E)]; [exact IH|]. exact (ST _ _ _ _ L IH E G).
Qed.
Lemma after n m : n <= m -> exists tr, t m = t n ++ tr /\ qsteps (f n) tr (f m).
Proof.
  intros L. induction L as [|m L (tr & E & S)]; [exists []; rewrite app_nil_r; split; [reflexivity|constructor]|].
  destruct (lr_goes _ _ _ _ R m) as [[-> ->]|(x & o & l & ST & ->)]; [eauto|]. exists (tr ++ [(x, o, l)]). rewrite E, app_assoc. split; [reflexivity|].
  clear E. induction S as [q|q y o' l' q1 tr q2 S1 S2 IH]; [econstructor; [exact ST|constructor]|]. cbn. econstructor; [exact S1|]. exact (IH ST).
Qed.
Lemma silent k n : (forall m, n <= m -> ~ can_act k (f m)) -> forall m x o l, n <= m -> t (S m) = t m ++ [(x, o, l)] -> ~ acts_as k x.
Proof.
  intros N m x o l L E A. apply (N m L). exists x, (f (S m), o, l). split; [exact A|]. exact (took_step _ _ E).
Qed.
(** Nobody goes on for ever on what gets less. *)
Lemma descent k (w : qst -> nat) n : (forall m, n <= m -> can_act k (f m)) ->
  (forall m x o l, n <= m -> t (S m) = t m ++ [(x, o, l)] -> qgoes (f m) x (f (S m)) o l -> w (f (S m)) <= w (f m) /\ (acts_as k x -> w (f (S m)) < w (f m))) -> False.
Proof.
  remember (w (f n)) as j eqn:J. revert n J. induction j as [j IH] using lt_wf_ind. intros n -> C D.
  destruct (lr_fair _ _ _ _ R k n) as (m & L & [(x & o & l & A & E)|N]); [|exact (N m (le_n _) (C m L))].
  assert (W : w (f m) <= w (f n)).
  { clear E A. induction L as [|m L IHm]; [reflexivity|]. destruct (goes m) as [[-> _]|(y & o' & l' & G & E)]; [exact IHm|]. destruct (D _ _ _ _ L E G). lia. }
  pose proof (qstepped _ _ _ _ _ _ _ (took_step _ _ E)) as G. cbn in G. destruct (D _ _ _ _ L E G) as [_ D']. specialize (D' A).
  apply (IH (w (f (S m))) ltac:(lia) (S m) eq_refl); intros; [apply C; lia|apply (D m0 x0 o0 l0); try assumption; lia].
Qed.

(** ** A connection whose command channel is full *)
Definition conn_full (s : rt) (c : nat) : Prop := exists x, nth_error (r_conns s) c = Some x /\ c_alive x = true /\ c_cmds x <> [].
Definition conn_w (c : nat) (s : rt) : nat := match nth_error (r_conns s) c with Some x => 2 * length (c_cmds x) + match c_out x with Some _ => 1 | None => 0 end | None => 0 end.
Lemma conn_less s e s' o c : step s e = Some (s', o) -> conn_full s c -> conn_full s' c ->
  conn_w c s' <= conn_w c s /\ (match e with ESender d | ESocket d _ => d = c | _ => False end -> conn_w c s' < conn_w c s).
Proof.
  intros ST (x & X & A & C) (x' & X' & A' & C'). unfold conn_w. rewrite X, X'.
  destruct e; step_cases ST; nsplit; try discriminate A'; try congruence;
    same_nth; rcbn.
  all: try match goal with L : (length (c_cmds ?x) <? 1) = true, C : c_cmds ?x <> [] |- _ => apply Nat.ltb_lt in L; destruct (c_cmds x); [congruence|cbn in L; lia] end.
  all: repeat match goal with E : c_cmds _ = _ |- _ => rewrite E | E : c_out _ = _ |- _ => rewrite E end; cbn [length].
  all: split; [try lia|try (intros K; try contradiction K; try subst; try congruence; lia)].
  all: try (apply nth_error_None in X; apply nth_error_Some in X'; lia).
Qed.

(** ** The endpoint task is stuck *)
Section Stuck.
Context (N0 : nat) (NE : forall m, N0 <= m -> ~ can_act TheEndpoint (f m)).
Lemma one_step m x o l : N0 <= m -> t (S m) = t m ++ [(x, o, l)] -> qgoes (f m) x (f (S m)) o l ->
  (q_rt (f (Datatypes.S m)) = q_rt (f m) /\ forall e, x <> QRun e) \/ exists e o', step (q_rt (f m)) e = Some (q_rt (f (Datatypes.S m)), o') /\ not_ep e /\ forall e', x = QRun e' -> e' = e.
Proof.
  intros L E G. destruct (single _ _ _ _ _ G (silent _ _ NE _ _ _ _ L E)) as [[-> E']|(e & o' & -> & S & NP)].
  - left. split; [exact E'|]. intros e ->. inversion G.
  - right. exists e, o'. split; [exact S|]. split; [exact NP|]. intros e' ->. inversion G. reflexivity.
Qed.
Lemma ep_fixed m : N0 <= m -> r_ep (q_rt (f m)) = r_ep (q_rt (f N0)).
Proof.
  apply (persists (fun q => r_ep (q_rt q) = r_ep (q_rt (f N0))) N0 eq_refl). intros m' x o l L E T G. rewrite <- E. eapply ep_still; [exact G|]. exact (silent _ _ NE _ _ _ _ L T).
Qed.
Lemma ep_blocked m : N0 <= m -> step (q_rt (f m)) (EEp true) = None.
Proof.
  intros L. destruct (step (q_rt (f m)) (EEp true)) as [[s' o]|] eqn:S; [|reflexivity]. exfalso. apply (NE m L).
  destruct (busy_task _ _ _ _ _ _ _ _ (hist m) S) as (r & Q). exists (QGo true), r. split; [exact Logic.I|exact Q].
Qed.
Lemma full_ends c N : N0 <= N -> (forall m, N <= m -> conn_full (q_rt (f m)) c) -> False.
Proof.
  intros LN F. apply (descent (Sender c) (fun q => conn_w c (q_rt q)) N).
  - intros m L. destruct (F m L) as (x & X & A & C). destruct (c_out x) as [bs|] eqn:O.
    + eexists (QRun (ESocket c true)), _. split; [reflexivity|]. cbn. unfold at_rt. cbn. cbn in X. rewrite X, A, O. reflexivity.
    + destruct (c_cmds x) as [|[m'|id i] q] eqn:Q; [congruence| |]; eexists (QRun (ESender c)), _; (split; [reflexivity|]); cbn; unfold at_rt; cbn; cbn in X; rewrite X, A, O, Q; reflexivity.
  - intros m x o l L E G. destruct (one_step _ _ _ _ (Nat.le_trans _ _ _ LN L) E G) as [[S NR]|(e & o' & S & NP & X)].
    + cbn in S. rewrite S. split; [reflexivity|]. intros A. destruct x; try contradiction A. destruct (NR e eq_refl).
    + destruct (conn_less _ _ _ _ c S (F m L) (F (Datatypes.S m) ltac:(lia))) as [W1 W2]. split; [exact W1|]. intros A. apply W2. destruct x; try contradiction A.
      rewrite <- (X _ eq_refl). destruct e0; try contradiction A; exact A.
Qed.
(** It is not because of a listener or a connection that has no room for the new interface, ... *)
Definition lsnr_w (l : nat) (s : rt) : nat := match nth_error (r_lsnrs s) l with Some x => length (l_cmds x) | None => 0 end.
Lemma lsnr_less s e s' o l : step s e = Some (s', o) -> not_ep e -> l < length (r_lsnrs s) ->
  lsnr_w l s' <= lsnr_w l s /\ (e = EListener l -> lsnr_w l s' < lsnr_w l s).
Proof.
  intros ST NP B. apply nth_error_Some in B. destruct (nth_error (r_lsnrs s) l) as [y|] eqn:Y; [clear B|congruence]. unfold lsnr_w. rewrite Y.
  destruct e; try destruct NP; step_cases ST; rcbn; rewrite ?Y; try solve [split; [lia|discriminate]].
  all: match goal with |- context [nth_error (upd ?d ?h ?ls) ?l] => destruct (Nat.eq_dec d l) as [->|D];
    [rewrite nth_upd_same, Y|rewrite nth_upd_other, Y by congruence; split; [lia|congruence]] end; same_nth; rcbn.
  all: try solve [split; [cbn; lia|discriminate]].
  all: match goal with Q : l_cmds _ = _ :: _ |- _ => rewrite Q end; cbn; split; [lia|intros _; lia].
Qed.
Lemma not_taking ow id i : r_ep (q_rt (f N0)) <> EpTake ow id i.
Proof.
  intros E. destruct ow as [l|c a].
  - assert (X : forall m, N0 <= m -> exists x, nth_error (r_lsnrs (q_rt (f m))) l = Some x /\ l_alive x = true /\ 8 <= length (l_cmds x)).
    { intros m L. pose proof (ep_fixed m L) as EM. rewrite E in EM. destruct (t_there _ (tidy _ _ _ _ _ (rhist m))) as (_ & _ & T). specialize (T _ _ _ EM).
      apply nth_error_Some in T. destruct (nth_error (r_lsnrs (q_rt (f m))) l) as [x|] eqn:X; [|congruence]. exists x. split; [reflexivity|].
      pose proof (ep_blocked m L) as B. cbn -[Nat.ltb] in B. unfold step_ep in B. rewrite EM in B. cbn -[Nat.ltb] in X. rewrite X in B.
      destruct (l_alive x); [|discriminate B]. destruct (length (l_cmds x) <? 8) eqn:Q; [discriminate B|]. apply Nat.ltb_ge in Q. auto. }
    apply (descent (Listening l) (fun q => lsnr_w l (q_rt q)) N0).
    + intros m L. destruct (X m L) as (x & Y & A & Q). destruct (l_cmds x) as [|[id' i'] q] eqn:C; [cbn in Q; lia|].
      eexists (QRun (EListener l)), _. split; [reflexivity|]. cbn. unfold at_rt. cbn. cbn in Y. rewrite Y, A, C. reflexivity.
    + intros m x o l' L T G. destruct (X m L) as (y & Y & _ & _). assert (LL : l < length (r_lsnrs (q_rt (f m)))) by (apply nth_error_Some; congruence).
      destruct (one_step _ _ _ _ L T G) as [[S NR]|(e & o' & S & NP & XE)].
      * cbn in S. rewrite S. split; [reflexivity|]. intros A. destruct x; try contradiction A. destruct (NR e eq_refl).
      * destruct (lsnr_less _ _ _ _ l S NP LL) as [W1 W2]. split; [exact W1|]. intros A. apply W2. destruct x; try contradiction A.
        rewrite <- (XE _ eq_refl). destruct e0; try contradiction A. cbn in A. congruence.
  - apply (full_ends c N0 (le_n _)). intros m L. pose proof (ep_fixed m L) as EM. rewrite E in EM.
    destruct (ptr_there _ _ _ _ _ _ _ (rhist m) (p_eptake _ _ _ _ _ EM)) as (x & X). exists x. split; [exact X|].
    pose proof (ep_blocked m L) as B. cbn -[Nat.ltb] in B. unfold step_ep in B. rewrite EM in B. cbn -[Nat.ltb] in X. rewrite X in B.
    destruct (c_alive x); [|discriminate B]. destruct (length (c_cmds x) <? 1) eqn:Q; [discriminate B|]. apply Nat.ltb_ge in Q. split; [reflexivity|].
    intros Z. rewrite Z in Q. cbn in Q. lia.
Qed.
(** ... nor because of a stub that holds the address of the connection that is looked for. *)
Lemma not_looking id k : r_ep (q_rt (f N0)) <> EpReady id k.
Proof.
  intros E. destruct k as [a|]; [|pose proof (ep_blocked N0 (le_n _)) as B; cbn in B; unfold step_ep in B; rewrite E in B; destruct (live_lsnr _); discriminate B].
  assert (K : forall m, N0 <= m -> exists n, holds_addr (q_rt (f m)) (cbk a) n).
  { intros m L. apply clocked_is. pose proof (ep_fixed m L) as EM. rewrite E in EM. pose proof (ep_blocked m L) as B. cbn in B. unfold step_ep in B. rewrite EM in B.
    cbn. destruct (clocked cbk (q_rt (f m)) a); [reflexivity|]. destruct (live_conn _ _); discriminate B. }
  destruct (K N0 (le_n _)) as (n & KN).
  assert (HN : forall m, N0 <= m -> holds_addr (q_rt (f m)) (cbk a) n).
  { apply (persists (fun q => holds_addr (q_rt q) (cbk a) n) N0 KN). intros m x o l L HM T G.
    destruct (one_step _ _ _ _ L T G) as [[S _]|(e & o' & S & _)]; [cbn in S; rewrite S; exact HM|].
    destruct (K (Datatypes.S m) ltac:(lia)) as (n' & K'). destruct (cheld_before _ _ _ _ _ _ S K') as [J|J]; [|destruct (J _ HM)].
    rewrite <- (one_cholder _ _ (rhist m) _ _ _ J HM). exact K'. }
  clear K KN. destruct (HN N0 (le_n _)) as (u & U & LK). unfold stub_locks in LK. destruct (st_pc u) as [| | | | |a' c mm] eqn:P; try discriminate LK.
  assert (HP : forall m, N0 <= m -> exists u, nth_error (r_stubs (q_rt (f m))) n = Some u /\ st_pc u = SHold a' c mm).
  { apply (persists (fun q => exists u, nth_error (r_stubs (q_rt q)) n = Some u /\ st_pc u = SHold a' c mm) N0); [eauto|]. intros m x o l L (v & V & PV) T G.
    destruct (one_step _ _ _ _ L T G) as [[S _]|(e & o' & S & _)]; [cbn in S; rewrite S; eauto|].
    destruct (HN (Datatypes.S m) ltac:(lia)) as (w & W & LW). exists w. split; [exact W|]. exact (keeps_hold _ _ _ _ _ _ _ _ _ _ _ S V PV W LW). }
  assert (AL : forall m u', N0 <= m -> nth_error (r_stubs (q_rt (f m))) n = Some u' -> st_pc u' = SHold a' c mm -> st_alive u' = true).
  { intros m u' L U' P'. destruct (st_alive u') eqn:A; [reflexivity|]. rewrite (t_stub _ (tidy _ _ _ _ _ (rhist m)) _ _ U' A) in P'. discriminate P'. }
  destruct (lr_fair _ _ _ _ R (Sending n) N0) as (m & L & [(x & o & l & A & T)|NS]).
  - pose proof (took_step _ _ T) as S. cbn in S. destruct x as [|[u'|n0]| | | | | | |[]]; try contradiction A; cbn in A; subst n0.
    { destruct (HP m L) as (v & V & PV). cbn in S. rewrite V, PV in S. destruct (st_alive v); discriminate S. }
    destruct (one_step _ _ _ _ L T (qstepped _ _ _ _ _ _ _ S)) as [[_ X]|(e & o' & ST & _ & X)]; [exact (X _ eq_refl)|]. specialize (X _ eq_refl). subst e.
    destruct (HP m L) as (v & V & PV). destruct (HP (Datatypes.S m) ltac:(lia)) as (w & W & PW). exact (lets_go _ _ _ _ _ _ _ _ _ _ ST V PV W PW).
  - apply (full_ends c m L). intros m' L'. assert (L2 : N0 <= m') by lia. destruct (HP m' L2) as (v & V & PV). pose proof (AL _ _ L2 V PV) as A.
    destruct (ptr_there _ _ _ _ _ _ _ (rhist m') (p_hold _ _ _ _ _ _ V PV)) as (x & X). exists x. split; [exact X|].
    specialize (NS m' L'). assert (B : step (q_rt (f m')) (EStub n true) = None).
    { destruct (step (q_rt (f m')) (EStub n true)) as [[s' o]|] eqn:S; [|reflexivity]. destruct NS. eexists (QRun (EStub n true)), _. split; [reflexivity|].
      cbn [QueueModel.qstep elsewhere]. unfold stub_pc. cbn in V. rewrite V, PV. cbn [is_connecting negb]. unfold at_rt. cbn in S |- *. rewrite S. reflexivity. }
    cbn -[Nat.ltb] in B, V, X. rewrite V, A in B. unfold step_stub in B. rewrite PV in B. unfold push_cmd in B. rewrite X in B.
    destruct (c_alive x); [|discriminate B]. destruct (length (c_cmds x) <? 1) eqn:Q; [discriminate B|]. apply Nat.ltb_ge in Q. split; [reflexivity|].
    intros Z. rewrite Z in Q. cbn in Q. lia.
Qed.

(** ** A connection that waits for ever waits for somebody who never reads *)
Lemma stall_unread c i it todo N : N0 <= N -> (forall m, N <= m -> stall (q_rt (f m)) c i it todo) -> left_unread f t.
Proof.
  intros LN F. destruct (sl_full _ _ _ _ _ (F N (le_n _))) as (y & Y & RX & _).
  destruct (always_read _ _ _ _ _ (rhist N) i) as [(k & K)|(ow & id & E)]; [exists y; auto| |].
  2: { cbn in E. destruct (not_taking ow id i). rewrite <- (ep_fixed N LN). exact E. }
  remember true as b eqn:AL in K. destruct K as [n u U EU|n p P EP]; subst i.
  - cbn in U. rewrite nth_error_map in U. destruct (nth_error (r_stubs (q_rt (f N))) n) as [st|] eqn:U'; [|discriminate U]. injection U as <-. rename U' into U. cbn in AL, F, Y. rename AL into A.
    exists N, c, n. left.
    assert (G : forall m, N <= m -> (exists v, nth_error (r_stubs (q_rt (f m))) n = Some v /\ st_alive v = true /\ st_iface v = st_iface st) /\
      exists more, t m = t N ++ more /\ forall o, ~ In (ERecvFrom n, o) (rt_trace more)).
    { intros m L. induction L as [|m L IH]; [split; [eauto|exists []; rewrite app_nil_r; split; [reflexivity|intros o []]]|].
      destruct IH as [(v & V & AV & IV) (more & TM & NM)]. destruct (goes m) as [[E1 E2]|(x & o & l & G & T)]; [rewrite E1, E2; split; eauto|].
      assert (NF : forall e o', step (q_rt (f m)) e = Some (q_rt (f (Datatypes.S m)), o') -> not_ep e -> ~ frees (q_rt (f m)) (st_iface st) e).
      { intros e o' S NP. eapply reads_one; [exact S|exact NP|apply F; exact L|apply F; lia]. }
      split.
      - destruct (one_step _ _ _ _ (Nat.le_trans _ _ _ LN L) T G) as [[S _]|(e & o' & S & NP & _)]; [rewrite S; eauto|].
        destruct (stub_after _ _ _ _ _ _ _ _ S V) as (w & W & IW & [->|[AW _]]); [|exists w; repeat split; congruence].
        destruct (NF _ _ S NP). rewrite <- IV. eapply fr_drop; [exact V|reflexivity].
      - exists (more ++ [(x, o, l)]). rewrite T, TM, app_assoc. split; [reflexivity|]. intros o1 I. unfold rt_trace in I. rewrite flat_map_app in I. apply in_app_iff in I.
        destruct I as [I|I]; [exact (NM _ I)|]. cbn in I. rewrite app_nil_r in I. assert (S : step (q_rt (f m)) (ERecvFrom n) = Some (q_rt (f (Datatypes.S m)), o1)) by (eapply reads_by; [exact G|exact Logic.I|exact I]).
        refine (NF _ _ S Logic.I _). destruct (st_pc v) eqn:PC; [rewrite <- IV; eapply fr_recv; [exact V|reflexivity|exact PC]|..]; exfalso; cbn in S; rewrite V, AV, PC in S; discriminate S. }
    intros m L. destruct (G m L) as [(v & V & AV & IV) TM]. split; [|exact TM]. apply (stalled_stub_is _ _ _ _ _ _ _ (rhist m)). exists v, it, todo. rewrite IV. auto.
  - rename p into st. cbn in P. exists N, c, n. right.
    assert (G : forall m, N <= m -> (exists v, nth_error (r_proxies (q_rt (f m))) n = Some v /\ px_alive v = true /\ px_iface v = px_iface st) /\
      exists more, t m = t N ++ more /\ forall o, ~ In (EProxyRecv n, o) (rt_trace more)).
    { intros m L. induction L as [|m L IH]; [split; [eauto|exists []; rewrite app_nil_r; split; [reflexivity|intros o []]]|].
      destruct IH as [(v & V & AV & IV) (more & TM & NM)]. destruct (goes m) as [[E1 E2]|(x & o & l & G & T)]; [rewrite E1, E2; split; eauto|].
      assert (NF : forall e o', step (q_rt (f m)) e = Some (q_rt (f (Datatypes.S m)), o') -> not_ep e -> ~ frees (q_rt (f m)) (px_iface st) e).
      { intros e o' S NP. eapply reads_one; [exact S|exact NP|apply F; exact L|apply F; lia]. }
      split.
      - destruct (one_step _ _ _ _ (Nat.le_trans _ _ _ LN L) T G) as [[S _]|(e & o' & S & NP & _)]; [rewrite S; eauto|].
        destruct (proxy_after _ _ _ _ _ _ _ _ S V) as (w & W & IW & [->|AW]); [|exists w; repeat split; congruence].
        destruct (NF _ _ S NP). rewrite <- IV. eapply fr_pdrop; [exact V|reflexivity].
      - exists (more ++ [(x, o, l)]). rewrite T, TM, app_assoc. split; [reflexivity|]. intros o1 I. unfold rt_trace in I. rewrite flat_map_app in I. apply in_app_iff in I.
        destruct I as [I|I]; [exact (NM _ I)|]. cbn in I. rewrite app_nil_r in I. assert (S : step (q_rt (f m)) (EProxyRecv n) = Some (q_rt (f (Datatypes.S m)), o1)) by (eapply reads_by; [exact G|exact Logic.I|exact I]).
        refine (NF _ _ S Logic.I _). rewrite <- IV. eapply fr_precv; [exact V|reflexivity]. }
    intros m L. destruct (G m L) as [(v & V & AV & IV) TM]. split; [|exact TM]. apply (stalled_proxy_is _ _ _ _ _ _ _ (rhist m)). exists v, it, todo. rewrite IV. auto.
Qed.
Lemma hold_unread c i it todo : (forall m, N0 <= m -> exists x, nth_error (r_conns (q_rt (f m))) c = Some x /\ c_recv x = RHold i it todo) -> left_unread f t.
Proof.
  intros F. destruct (lr_fair _ _ _ _ R (Receiver c) N0) as (m & L & [(x & o & l & A & T)|NS]).
  - exfalso. pose proof (took_step _ _ T) as S. cbn in S. destruct x as [| | | | | | | |[]]; try contradiction A. cbn in A. subst c0.
    destruct (one_step _ _ _ _ L T (qstepped _ _ _ _ _ _ _ S)) as [[_ X]|(e & o' & ST & _ & X)]; [exact (X _ eq_refl)|]. specialize (X _ eq_refl). subst e.
    destruct (F m L) as (v & V & PV). destruct (F (Datatypes.S m) ltac:(lia)) as (w & W & PW). exact (routes_on _ _ _ _ _ _ _ _ _ ST V PV W PW).
  - apply (stall_unread c i it todo m L). intros m' L'. destruct (F m' ltac:(lia)) as (x & X & RV). specialize (NS m' L').
    assert (A : c_alive x = true).
    { destruct (c_alive x) eqn:A; [reflexivity|]. destruct (t_conn _ (tidy _ _ _ _ _ (rhist m')) _ _ X A) as (_ & _ & Q). rewrite RV in Q. discriminate Q. }
    assert (B : step (q_rt (f m')) (ERoute c) = None).
    { destruct (step (q_rt (f m')) (ERoute c)) as [[s' o]|] eqn:S; [|reflexivity]. destruct NS. eexists (QRun (ERoute c)), _. split; [reflexivity|].
      cbn [QueueModel.qstep elsewhere]. unfold at_rt. rewrite S. reflexivity. }
    pose proof (history_inv _ _ _ _ _ (rhist m')) as V.
    assert (ID : idof (view (q_rt (f m'))) i = Some (iid_of (it_msg it))) by exact (v_ids _ _ (in1 _ _ _ V) _ _ (held_recv _ _ _ _ _ _ _ (nth_vc _ _ _ X) RV eq_refl)).
    destruct (nth_error (r_ifaces (q_rt (f m'))) i) as [y|] eqn:Y; [|unfold idof in ID; cbn in ID; rewrite Y in ID; discriminate].
    constructor; [exists x; auto|]. exists y. split; [exact Y|]. cbn -[Nat.ltb] in B. rewrite X, A in B. unfold step_route in B. rewrite RV, Y in B.
    destruct (i_rx y); [|discriminate B]. destruct (length (i_queue y) <? 16) eqn:Q; [discriminate B|]. apply Nat.ltb_ge in Q. split; [reflexivity|].
    assert (K := v_cap _ _ (in5 _ _ _ V) _ _ Y). revert Q. unfold i_queue. rewrite skipn_length. intros Q. lia.
Qed.
Lemma locked_unread id : (forall m, N0 <= m -> locked bk (q_rt (f m)) id = true) -> left_unread f t.
Proof.
  intros K. assert (K' : forall m, N0 <= m -> exists c, holds_id (q_rt (f m)) (bk id) c) by (intros m L; apply locked_is; exact (K m L)). clear K. rename K' into K.
  destruct (K N0 (le_n _)) as (c & KC).
  assert (HN : forall m, N0 <= m -> holds_id (q_rt (f m)) (bk id) c).
  { apply (persists (fun q => holds_id (q_rt q) (bk id) c) N0 KC). intros m x o l L HM T G.
    destruct (one_step _ _ _ _ L T G) as [[S _]|(e & o' & S & _)]; [cbn beta; rewrite S; exact HM|].
    destruct (K (Datatypes.S m) ltac:(lia)) as (n' & K'). destruct (held_before _ _ _ _ _ _ S K') as [J|J]; [|destruct (J _ HM)].
    rewrite <- (one_holder _ _ (rhist m) _ _ _ J HM). exact K'. }
  clear K. destruct KC as (x & X & LK). pose proof LK as LK'. unfold recv_locks in LK'. destruct (c_recv x) as [|i it todo] eqn:P; [discriminate LK'|].
  apply (hold_unread c i it todo). apply (persists (fun q => exists x, nth_error (r_conns (q_rt q)) c = Some x /\ c_recv x = RHold i it todo) N0); [eauto|].
  intros m y o l L (v & V & PV) T G. destruct (one_step _ _ _ _ L T G) as [[S _]|(e & o' & S & _)]; [cbn beta; rewrite S; eauto|].
  destruct (HN (Datatypes.S m) ltac:(lia)) as (w & W & LW). exists w. split; [exact W|]. exact (keeps_recv _ _ _ _ _ _ _ _ _ _ _ S V PV W LW).
Qed.
Lemma stuck : q_chan (f N0) <> [] \/ q_now (f N0) <> None -> left_unread f t.
Proof.
  intros WK. destruct (r_ep (q_rt (f N0))) as [|id k|id k|ow id|ow id i] eqn:E.
  - exfalso. destruct (idle_ep _ _ _ _ _ (hist N0) E WK) as (x & r & XX & S). apply (NE N0 (le_n _)). exists x, r. split; [|exact S]. destruct XX as [-> | ->]; exact Logic.I.
  - apply (locked_unread id). intros m L. pose proof (ep_fixed m L) as EM. rewrite E in EM. pose proof (ep_blocked m L) as B. cbn in B. unfold step_ep in B. rewrite EM in B.
    destruct (locked bk (q_rt (f m)) id); [reflexivity|]. destruct (live_iface _ _); discriminate B.
  - destruct (not_looking _ _ E).
  - apply (locked_unread id). intros m L. pose proof (ep_fixed m L) as EM. rewrite E in EM. pose proof (ep_blocked m L) as B. cbn in B. unfold step_ep in B. rewrite EM in B.
    destruct (locked bk (q_rt (f m)) id); [reflexivity|discriminate B].
  - destruct (not_taking _ _ _ E).
Qed.
End Stuck.

(** ** The endpoint task finishes one command after the other *)
Definition work (q : qst) : Prop := q_chan q <> [] \/ q_now q <> None.
Definition rank (q : qst) : nat :=
  match q_now q with
  | None => 6
  | Some e => match e_cmd e with KConnect _ => 1 | KCall _ _ => S (stage (q_rt q)) end
  end.
Lemma closer q x q' o l : qgoes q x q' o l -> work q ->
  (exists w c o', o = QDone w c o') \/ (work q' /\ rank q' <= rank q /\ (acts_as TheEndpoint x -> rank q' < rank q)).
Proof.
  intros G W.
  assert (KEEP : ~ acts_as TheEndpoint x -> (q_chan q <> [] -> q_chan q' <> []) -> option_map e_cmd (q_now q') = option_map e_cmd (q_now q) ->
    work q' /\ rank q' <= rank q /\ (acts_as TheEndpoint x -> rank q' < rank q)).
  { intros NA C E. pose proof (ep_still _ _ _ _ _ G NA) as EP. split.
    - destruct W as [W|W]; [left; exact (C W)|right]. destruct (q_now q); [|congruence]. destruct (q_now q'); discriminate.
    - split; [|intros A; destruct (NA A)]. unfold rank, stage. rewrite EP. destruct (q_now q), (q_now q'); try discriminate E; [|reflexivity]. injection E as ->. reflexivity. }
  destruct G; try (left; eauto; fail); right; try (apply KEEP; [intros []|intros N; exact N|reflexivity]; fail).
  - apply KEEP; [intros []|intros _ E; destruct (app_cons_not_nil _ _ _ (eq_sym E))|reflexivity].
  - apply KEEP; [intros []|intros _ E; destruct (app_cons_not_nil _ _ _ (eq_sym E))|reflexivity].
  - split; [right; discriminate|]. unfold rank. cbn. rewrite H1, H3. split; [lia|intros _; lia].
  - split; [right; discriminate|]. unfold rank. cbn. rewrite H1, H3. unfold stage. destruct (r_ep s'); split; try lia; intros _; lia.
  - split; [right; cbn; congruence|]. unfold rank. cbn [q_now with_rt]. rewrite H, H1. cbn [q_rt with_rt].
    assert (stage s' < stage (q_rt q)); [|split; [lia|intros _; lia]]. clear -H2 H3. unfold stage. cbn in H2. unfold step_ep, push_cmd in H2.
    destruct (r_ep (q_rt q)) as [|? ?|? [?|]|? ?|[?|? ?] ? ?] eqn:E; try discriminate H2; cases_in H2; injection H2 as <- <-; try discriminate H3; cbn; lia.
  - apply KEEP; [intros []| |unfold unwatch; cbn; destruct (q_now q) as [e|]; [cbn; unfold lose; destruct (waits _ e); reflexivity|reflexivity]].
    cbn. intros N E. apply map_eq_nil in E. exact (N E).
  - apply KEEP; [intros []| |unfold unwatch; cbn; destruct (q_now q) as [e|]; [cbn; unfold lose; destruct (waits _ e); reflexivity|reflexivity]].
    cbn. intros N E. apply map_eq_nil in E. exact (N E).
  - apply KEEP; [intros []| |unfold unwatch; cbn; destruct (q_now q) as [e|]; [cbn; unfold lose; destruct (waits _ e); reflexivity|reflexivity]].
    cbn. intros N E. apply map_eq_nil in E. exact (N E).
Qed.
Lemma fin_grows n m : n <= m -> length (finished (t n)) <= length (finished (t m)).
Proof. intros L. destruct (after n m L) as (tr & -> & _). unfold finished. rewrite flat_map_app, app_length. lia. Qed.
Lemma along n m : n <= m -> work (f n) -> length (finished (t n)) < length (finished (t m)) \/ (work (f m) /\ rank (f m) <= rank (f n)).
Proof.
  intros L W. induction L as [|m L IH]; [right; split; [exact W|reflexivity]|]. pose proof (fin_grows m (S m) ltac:(lia)) as FG. destruct IH as [IH|[WM RM]]; [left; lia|].
  destruct (goes m) as [[-> ->]|(x & o & l & G & T)]; [right; auto|]. destruct (closer _ _ _ _ _ G WM) as [(w & c & o' & ->)|(W' & R' & _)].
  - left. pose proof (fin_grows n m L). rewrite T. unfold finished in *. rewrite flat_map_app, app_length. cbn. lia.
  - right. split; [exact W'|lia].
Qed.
Lemma next_done n : work (f n) -> (exists m, n <= m /\ length (finished (t n)) < length (finished (t m))) \/ left_unread f t.
Proof.
  remember (rank (f n)) as j eqn:J. revert n J. induction j as [j IH] using lt_wf_ind. intros n -> W.
  destruct (lr_fair _ _ _ _ R TheEndpoint n) as (m & L & K). destruct (along n m L W) as [F|[WM RM]]; [left; eauto|]. destruct K as [(x & o & l & A & T)|NE].
  - pose proof (qstepped _ _ _ _ _ _ _ (took_step _ _ T)) as G. cbn in G. destruct (closer _ _ _ _ _ G WM) as [(w & c & o' & ->)|(W' & _ & R')].
    + left. exists (S m). split; [lia|]. pose proof (fin_grows n m L). rewrite T. unfold finished in *. rewrite flat_map_app, app_length. cbn. lia.
    + specialize (R' A). destruct (IH (rank (f (S m))) ltac:(lia) (S m) eq_refl W') as [(m' & L' & F)|U]; [left; exists m'|right; exact U].
      pose proof (fin_grows n (S m) ltac:(lia)). split; lia.
  - right. exact (stuck m NE WM).
Qed.

(** ** Lives go on *)
Lemma stays u n m k : n <= m -> In k (life u (t n)) -> In k (life u (t m)).
Proof. intros L I. destruct (after n m L) as (tr & -> & _). unfold life. rewrite flat_map_app. apply in_app_iff. left. exact I. Qed.
Lemma lives_at u n : lives (f n) u (life u (t n)).
Proof. exact (v_call _ _ (inv n) u). Qed.
Lemma done_dec l : (exists o, In (MDone o) l) \/ forall o, ~ In (MDone o) l.
Proof.
  induction l as [|k l [(o & I)|N]]; [right; intros o []|left; exists o; right; exact I|].
  destruct k; try (right; intros o' [E|E]; [discriminate E|exact (N _ E)]). left. exists o. left. reflexivity.
Qed.
Lemma mine_cons g l e r : mine g l = e :: r -> l <> [].
Proof. intros E ->. discriminate E. Qed.
Lemma in_work u n : In MEntered (life u (t n)) -> (exists o, In (MDone o) (life u (t n))) \/ work (f n).
Proof.
  intros I. pose proof (lives_at u n) as L. unfold lives in L. remember (life u (t n)) as l eqn:EL. clear EL.
  inversion L; subst; cbn in I; try (exfalso; intuition discriminate).
  all: try (left; eexists; cbn; eauto 10; fail).
  all: right; unfold work.
  all: try (left; eapply mine_cons; symmetry; eassumption).
  all: right; intros E; unfold now_list in *; rewrite E in *; discriminate.
Qed.
Lemma finish_more u k n : In MEntered (life u (t n)) ->
  (exists m, n <= m /\ ((exists o, In (MDone o) (life u (t m))) \/ length (finished (t n)) + k <= length (finished (t m)))) \/ left_unread f t.
Proof.
  intros I. induction k as [|k [(m & L & [D|F])|U]]; [left; exists n; split; [lia|right; lia]|left; eauto| |right; exact U].
  destruct (in_work u m (stays _ _ _ _ L I)) as [D|W]; [left; eauto|]. destruct (next_done m W) as [(m' & L' & F')|U]; [left; exists m'; split; [lia|right; lia]|right; exact U].
Qed.
Lemma entered_done u n : In MEntered (life u (t n)) -> (exists m, n <= m /\ exists o, In (MDone o) (life u (t m))) \/ left_unread f t.
Proof.
  intros I. destruct (finish_more u 9 n I) as [(m & L & [D|F])|U]; [left; eauto| |right; exact U]. left. exists m. split; [exact L|].
  destruct (done_dec (life u (t m))) as [D|N]; [exact D|exfalso]. destruct (after n m L) as (tr & E & S). rewrite E in N, F.
  pose proof (bypass _ _ _ _ _ _ _ _ (hist n) S I N) as B. unfold finished in *. rewrite flat_map_app, app_length in F. lia.
Qed.
Lemma new_or u n id to : In (MMade id to) (life u (t n)) ->
  (nth_error (q_calls (f n)) u = Some (mkK id to CNew) /\ life u (t n) = [MMade id to]) \/ In MEntered (life u (t n)) \/ In MDropped (life u (t n)).
Proof.
  intros I. pose proof (lives_at u n) as L. unfold lives in L. remember (life u (t n)) as l eqn:EL. clear EL.
  inversion L; subst; cbn in I |- *; try contradiction; auto 10.
  - destruct I as [E|[]]. injection E as -> ->. left. split; reflexivity.
  - unfold whole_life in *. repeat match goal with D : _ \/ _ |- _ => destruct D as [D|D] end; subst; cbn; auto 10.
Qed.
Lemma chan_bound n : length (q_chan (f n)) <= 8.
Proof. destruct (order _ _ _ _ _ (hist n)) as (_ & _ & C). exact C. Qed.
Lemma took_one n m : n <= m -> length (taken (t n)) < length (taken (t m)) -> exists j, n <= j /\ length (q_chan (f (S j))) < 8.
Proof.
  intros L. induction L as [|m L IH]; intros F; [lia|]. destruct (Nat.lt_ge_cases (length (taken (t n))) (length (taken (t m)))) as [F'|F']; [exact (IH F')|].
  destruct (goes m) as [[_ E]|(x & o & l & G & T)]; [rewrite E in F; lia|]. rewrite T in F. unfold taken in F. rewrite flat_map_app, app_length in F. fold (taken (t m)) (taken (t n)) in F.
  exists m. split; [exact L|]. pose proof (chan_bound m) as C. destruct G; cbn in F; try lia; cbn; rewrite H2 in C; cbn in C; lia.
Qed.
Lemma enters u n id to : In (MMade id to) (life u (t n)) ->
  (exists m, n <= m /\ (In MEntered (life u (t m)) \/ In MDropped (life u (t m)))) \/ left_unread f t.
Proof.
  intros I0. destruct (lr_fair _ _ _ _ R (Caller u) n) as (m & L & K). pose proof (stays _ _ _ _ L I0) as I. destruct (new_or _ _ _ _ I) as [[C LF]|D]; [|left; eauto].
  destruct K as [(x & o & l & A & T)|NC].
  - left. exists (S m). split; [lia|]. destruct (new_or u (S m) id to) as [[C' _]|D]; [apply (stays _ m); [lia|exact I]| |exact D].
    pose proof (qstepped _ _ _ _ _ _ _ (took_step _ _ T)) as G. cbn in G. remember (f (S m)) as q' eqn:Q'. clear Q'. exfalso.
    destruct G; cbn in A; try contradiction A; try subst t0; try congruence; cbn [set_call with_calls with_chan q_calls] in C'; rewrite nth_upd_same, C in C'; discriminate C'.
  - assert (CAN : forall m', m <= m' -> In MEntered (life u (t m')) \/ In MDropped (life u (t m')) \/ 8 <= length (q_chan (f m'))).
    { intros m' L'. destruct (new_or u m' id to (stays _ _ _ _ L' I)) as [[C' _]|[D|D]]; auto. right. right. destruct (Nat.lt_ge_cases (length (q_chan (f m'))) 8) as [Q|Q]; [exfalso|exact Q].
      apply (NC m' L'). apply Nat.ltb_lt in Q. destruct (q_over (f m')) eqn:O; eexists (QEnter (FCall u)), _; (split; [reflexivity|]); cbn -[Nat.ltb]; rewrite C'; cbn -[Nat.ltb]; rewrite O, ?Q; reflexivity. }
    assert (WK : forall m', m <= m' -> (In MEntered (life u (t m')) \/ In MDropped (life u (t m'))) \/ work (f m')).
    { intros m' L'. destruct (CAN m' L') as [D|[D|Q]]; auto. right. left. intros E. rewrite E in Q. cbn in Q. lia. }
    destruct (WK m (le_n _)) as [D|W]; [left; eauto|]. destruct (next_done m W) as [(m1 & L1 & F1)|U]; [|right; exact U].
    destruct (WK m1 L1) as [D|W1]; [left; exists m1; split; [lia|exact D]|]. destruct (next_done m1 W1) as [(m2 & L2 & F2)|U]; [|right; exact U].
    destruct (in_order _ _ _ _ _ (hist m)) as (now & rest & _ & E1 & B1 & _). destruct (in_order _ _ _ _ _ (hist m2)) as (now2 & rest2 & _ & E2 & _ & _).
    destruct (took_one m m2 ltac:(lia)) as (j & LJ & Q); [rewrite E1, E2, !app_length; lia|]. left. exists (S j). split; [lia|].
    destruct (CAN (S j) ltac:(lia)) as [D|[D|Q']]; [left; exact D|right; exact D|lia].
Qed.
Lemma answer_or u n id to o : In (MMade id to) (life u (t n)) -> In (MDone o) (life u (t n)) ->
  nth_error (q_calls (f n)) u = Some (mkK id to (CAnswered o)) \/ In MDropped (life u (t n)) \/ (In (MReturned o) (life u (t n)) /\ fits id to o).
Proof.
  intros I D. pose proof (lives_at u n) as L. unfold lives in L. remember (life u (t n)) as l eqn:EL. clear EL.
  inversion L; subst; cbn in I, D |- *; try contradiction; try (exfalso; intuition discriminate); auto 10.
  - assert (id0 = id /\ to0 = to /\ o0 = o) as (-> & -> & ->) by (intuition congruence). left. reflexivity.
  - unfold whole_life in *. repeat match goal with E : _ \/ _ |- _ => destruct E as [E|E] end; subst; cbn in *; try discriminate; try contradiction; auto 10.
    assert (id0 = id /\ to0 = to /\ o0 = o) as (-> & -> & ->) by (clear -I D; intuition congruence). auto 10.
Qed.
Theorem returns u n id to : In (MMade id to) (life u (t n)) ->
  (exists m, n <= m /\ (In MDropped (life u (t m)) \/ exists o, In (MReturned o) (life u (t m)) /\ fits id to o)) \/ left_unread f t.
Proof.
  intros I0. destruct (enters _ _ _ _ I0) as [(m & L & [E|D])|U]; [|left; eauto|right; exact U].
  destruct (entered_done _ _ E) as [(m1 & L1 & o & D)|U]; [|right; exact U]. left.
  destruct (lr_fair _ _ _ _ R (Caller u) m1) as (m2 & L2 & K).
  assert (I : forall m', m2 <= m' -> In (MMade id to) (life u (t m'))) by (intros m' L'; exact (stays u n m' _ ltac:(lia) I0)).
  assert (D' : forall m', m2 <= m' -> In (MDone o) (life u (t m'))) by (intros m' L'; exact (stays u m1 m' _ ltac:(lia) D)).
  assert (AN : forall m', m2 <= m' -> nth_error (q_calls (f m')) u = Some (mkK id to (CAnswered o)) \/
    exists m, n <= m /\ (In MDropped (life u (t m)) \/ exists o, In (MReturned o) (life u (t m)) /\ fits id to o)).
  { intros m' L'. destruct (answer_or _ _ _ _ _ (I m' L') (D' m' L')) as [C|[C|[C F]]]; [left; exact C|right; exists m'; split; [lia|left; exact C]|right; exists m'; split; [lia|right; eauto]]. }
  destruct (AN m2 (le_n _)) as [C|X]; [|exact X]. destruct K as [(x & o' & l & A & T)|NC].
  - destruct (AN (S m2) ltac:(lia)) as [C'|X]; [exfalso|exact X]. pose proof (qstepped _ _ _ _ _ _ _ (took_step _ _ T)) as G. cbn in G. remember (f (S m2)) as q' eqn:Q'. clear Q'.
    destruct G; cbn in A; try contradiction A; try subst t0; try congruence. cbn [set_call with_calls q_calls] in C'. rewrite nth_upd_same, C in C'. discriminate C'.
  - exfalso. apply (NC m2 (le_n _)). eexists (QReturn u), _. split; [reflexivity|]. cbn. rewrite C. reflexivity.
Qed.

(** ** What gets less, until something happens *)
Lemma descent_or k (w : qst -> nat) (P : Prop) n : (forall m, n <= m -> P \/ can_act k (f m)) ->
  (forall m x o l, n <= m -> t (S m) = t m ++ [(x, o, l)] -> qgoes (f m) x (f (S m)) o l -> P \/ (w (f (S m)) <= w (f m) /\ (acts_as k x -> w (f (S m)) < w (f m)))) -> P.
Proof.
  remember (w (f n)) as j eqn:J. revert n J. induction j as [j IH] using lt_wf_ind. intros n -> C D.
  destruct (lr_fair _ _ _ _ R k n) as (m & L & [(x & o & l & A & E)|N]); [|destruct (C m L) as [K|K]; [exact K|destruct (N m (le_n _) K)]].
  assert (W : P \/ w (f m) <= w (f n)).
  { clear E A. induction L as [|m L IHm]; [right; reflexivity|]. destruct IHm as [K|IHm]; [left; exact K|]. destruct (goes m) as [[-> _]|(y & o' & l' & G & E)]; [right; exact IHm|].
    destruct (D _ _ _ _ L E G) as [K|[K _]]; [left; exact K|right; lia]. }
  destruct W as [K|W]; [exact K|]. pose proof (qstepped _ _ _ _ _ _ _ (took_step _ _ E)) as G. cbn in G. destruct (D _ _ _ _ L E G) as [K|[_ D']]; [exact K|]. specialize (D' A).
  apply (IH (w (f (S m))) ltac:(lia) (S m) eq_refl); intros; [apply C; lia|apply (D m0 x0 o0 l0); try assumption; lia].
Qed.
Lemma q_conn_less q x q' o l c : qgoes q x q' o l -> conn_full (q_rt q) c -> conn_full (q_rt q') c ->
  conn_w c (q_rt q') <= conn_w c (q_rt q) /\ (acts_as (Sender c) x -> conn_w c (q_rt q') < conn_w c (q_rt q)).
Proof.
  intros G F F'. split.
  - destruct (shape _ _ _ _ _ G) as [->|[(e & o' & S)|(ok & s1 & o1 & d & o2 & S & D & S2)]]; [reflexivity|exact (proj1 (conn_less _ _ _ _ _ S F F'))|].
    pose proof (drop_conns _ _ _ _ _ D S2) as E. assert (F1 : conn_full s1 c) by (unfold conn_full in *; rewrite <- E; exact F').
    replace (conn_w c (q_rt q')) with (conn_w c s1) by (unfold conn_w; rewrite E; reflexivity). exact (proj1 (conn_less _ _ _ _ _ S F F1)).
  - intros A. destruct G; try contradiction A. cbn in A. eapply conn_less; [exact H1|exact F|exact F'|]. destruct e; try contradiction A; exact A.
Qed.
(** A connection has room for what is sent again and again. *)
Lemma full_or c (P : Prop) N : (forall m, N <= m -> P \/ conn_full (q_rt (f m)) c) -> P.
Proof.
  intros F. apply (descent_or (Sender c) (fun q => conn_w c (q_rt q)) P N).
  - intros m L. destruct (F m L) as [K|(x & X & A & C)]; [left; exact K|right]. destruct (c_out x) as [bs|] eqn:O.
    + eexists (QRun (ESocket c true)), _. split; [reflexivity|]. cbn. unfold at_rt. cbn. cbn in X. rewrite X, A, O. reflexivity.
    + destruct (c_cmds x) as [|[m'|id i] q] eqn:Q; [congruence| |]; eexists (QRun (ESender c)), _; (split; [reflexivity|]); cbn; unfold at_rt; cbn; cbn in X; rewrite X, A, O, Q; reflexivity.
  - intros m x o l L E G. destruct (F m L) as [K|F1]; [left; exact K|]. destruct (F (S m) ltac:(lia)) as [K|F2]; [left; exact K|right]. exact (q_conn_less _ _ _ _ _ _ G F1 F2).
Qed.
Theorem room c x N : nth_error (r_conns (q_rt (f N))) c = Some x ->
  exists m y, N <= m /\ nth_error (r_conns (q_rt (f m))) c = Some y /\ (c_alive y = false \/ c_cmds y = []).
Proof.
  intros X. apply (full_or c _ N). intros m L.
  assert (Y : exists y, nth_error (r_conns (q_rt (f m))) c = Some y).
  { induction L as [|m L (y & Y)]; [eauto|]. destruct (goes m) as [[-> _]|(z & o & l & G & _)]; [eauto|].
    destruct (shape _ _ _ _ _ G) as [->|[(e & o' & S)|(ok & s1 & o1 & d & o2 & S & D & S2)]]; [eauto|exact (conn_kept _ _ _ _ _ _ _ _ S Y)|].
    rewrite (drop_conns _ _ _ _ _ D S2). exact (conn_kept _ _ _ _ _ _ _ _ S Y). }
  destruct Y as (y & Y). destruct (c_alive y) eqn:A; [|left; exists m, y; auto]. destruct (c_cmds y) eqn:C; [left; exists m, y; auto|right]. exists y. split; [exact Y|]. split; [exact A|congruence].
Qed.

(** Whoever holds an address lets go of it. *)
Lemma q_cheld q x q' o l b n' : qgoes q x q' o l -> holds_addr (q_rt q') b n' -> holds_addr (q_rt q) b n' \/ forall d, ~ holds_addr (q_rt q) b d.
Proof.
  intros G K. destruct (shape _ _ _ _ _ G) as [E|[(e & o' & S)|(ok & s1 & o1 & d & o2 & S & _ & S2)]]; [left; rewrite <- E; exact K|exact (cheld_before _ _ _ _ _ _ S K)|].
  destruct (cheld_before _ _ _ _ _ _ S2 K) as [J|J]; [exact (cheld_before _ _ _ _ _ _ S J)|right]. intros i (u & U & LU). apply (J i).
  destruct (stub_after _ _ _ _ _ _ _ _ S U) as (v & V & _ & [E|(_ & [E|[(a & m & E & _)|[(ok' & E & _)|(c & E)]]])]); try discriminate E. exists v. split; [exact V|]. unfold stub_locks in *. rewrite E. exact LU.
Qed.
Lemma took_send n m x o l : acts_as (Sending n) x -> t (S m) = t m ++ [(x, o, l)] ->
  (x = QEnter (FSend n) /\ exists a p, stub_pc n (q_rt (f m)) = SConnect a p) \/
  ((forall a p, stub_pc n (q_rt (f m)) <> SConnect a p) /\ pcrank (stub_pc n (q_rt (f (S m)))) < pcrank (stub_pc n (q_rt (f m)))).
Proof.
  intros A T. pose proof (took_step _ _ T) as S. cbn in S. destruct x as [|[u'|n0]| | | | | | |[]]; try contradiction A; cbn in A; subst n0.
  - left. split; [reflexivity|]. cbn in S. unfold stub_pc. destruct (nth_error (r_stubs (q_rt (f m))) n) as [u|]; [|discriminate S].
    destruct (st_alive u); [|discriminate S]. destruct (st_pc u); try discriminate S. eauto.
  - right. apply qstepped in S. inversion S; subst. split; [|eapply send_goes; eassumption]. intros a p E. match goal with W : elsewhere _ _ = true |- _ => cbn in W; rewrite E in W; discriminate W end.
Qed.
Lemma stub_can n m : stub_pc n (q_rt (f m)) <> SFree -> (forall a p, stub_pc n (q_rt (f m)) <> SConnect a p) -> step (q_rt (f m)) (EStub n true) <> None -> can_act (Sending n) (f m).
Proof.
  intros B NC S. destruct (step (q_rt (f m)) (EStub n true)) as [[s' o]|] eqn:E; [|congruence]. eexists (QRun (EStub n true)), _. split; [reflexivity|].
  cbn [QueueModel.qstep elsewhere]. assert (K : is_connecting (stub_pc n (q_rt (f m))) = false) by (destruct (stub_pc n (q_rt (f m))) eqn:P; try reflexivity; destruct (NC _ _ eq_refl)).
  rewrite K. cbn [negb]. unfold at_rt. rewrite E. reflexivity.
Qed.
Lemma alive_at n m u : nth_error (r_stubs (q_rt (f m))) n = Some u -> st_pc u <> SFree -> st_alive u = true.
Proof. intros U P. destruct (st_alive u) eqn:A; [reflexivity|]. destruct (P (t_stub _ (tidy _ _ _ _ _ (rhist m)) _ _ U A)). Qed.
Lemma held_or n a c p (P : Prop) N : (forall m, N <= m -> P \/ stub_pc n (q_rt (f m)) = SHold a c p) -> P.
Proof.
  intros F. destruct (lr_fair _ _ _ _ R (Sending n) N) as (m & L & [(x & o & l & A & T)|NS]).
  - destruct (F m L) as [K|E]; [exact K|]. destruct (F (S m) ltac:(lia)) as [K|E']; [exact K|exfalso].
    destruct (took_send _ _ _ _ _ A T) as [[_ (a' & p' & E2)]|[_ D]]; [congruence|rewrite E, E' in D; lia].
  - apply (full_or c P m). intros m' L'. destruct (F m' ltac:(lia)) as [K|E]; [left; exact K|right].
    assert (B : stub_pc n (q_rt (f m')) <> SFree) by (rewrite E; discriminate). destruct (pc_stub _ _ B) as (u & U & PU). rewrite E in PU.
    destruct (ptr_there _ _ _ _ _ _ _ (rhist m') (p_hold _ _ _ _ _ _ U PU)) as (x & X). exists x. split; [exact X|].
    assert (S : step (q_rt (f m')) (EStub n true) = None).
    { destruct (step (q_rt (f m')) (EStub n true)) as [r|] eqn:S; [|reflexivity]. destruct (NS m' L'). apply stub_can; [exact B|rewrite E; discriminate|congruence]. }
    cbn -[Nat.ltb] in S, X. rewrite U, (alive_at _ _ _ U) in S by (rewrite PU; discriminate). unfold step_stub in S. rewrite PU in S. unfold push_cmd in S. rewrite X in S.
    destruct (c_alive x); [|discriminate S]. destruct (length (c_cmds x) <? 1) eqn:Q; [discriminate S|]. apply Nat.ltb_ge in Q. split; [reflexivity|].
    intros Z. rewrite Z in Q. cbn in Q. lia.
Qed.
Lemma lock_or a (P : Prop) N : (forall m, N <= m -> P \/ clocked cbk (q_rt (f m)) a = true) -> P.
Proof.
  intros F. assert (K : forall m, N <= m -> P \/ exists n, holds_addr (q_rt (f m)) (cbk a) n) by (intros m L; destruct (F m L) as [K|K]; [left; exact K|right; apply clocked_is; exact K]).
  destruct (K N (le_n _)) as [J|(n & KN)]; [exact J|].
  assert (HN : forall m, N <= m -> P \/ holds_addr (q_rt (f m)) (cbk a) n).
  { intros m L. induction L as [|m L [J|HM]]; [right; exact KN|left; exact J|]. destruct (goes m) as [[-> _]|(x & o & l & G & _)]; [right; exact HM|].
    destruct (K (S m) ltac:(lia)) as [J|(n' & K')]; [left; exact J|right]. destruct (q_cheld _ _ _ _ _ _ _ G K') as [J|J]; [|destruct (J _ HM)].
    rewrite <- (one_cholder _ _ (rhist m) _ _ _ J HM). exact K'. }
  clear K. assert (PC : forall m, holds_addr (q_rt (f m)) (cbk a) n -> pcrank (stub_pc n (q_rt (f m))) = 1).
  { intros m (u & U & LU). rewrite (stub_pc_is _ _ _ U). unfold stub_locks in LU. destruct (st_pc u); try discriminate LU. reflexivity. }
  pose proof (PC N KN) as PN. destruct (stub_pc n (q_rt (f N))) as [| | | | |a' c p] eqn:E; try discriminate PN.
  apply (held_or n a' c p P N). intros m L. induction L as [|m L [J|IH]]; [right; exact E|left; exact J|].
  destruct (goes m) as [[-> _]|(x & o & l & G & _)]; [right; exact IH|]. destruct (HN (S m) ltac:(lia)) as [J|HS]; [left; exact J|right].
  destruct (q_pc _ _ _ _ _ n G) as [D|D]; [rewrite IH; discriminate|congruence|]. rewrite (PC _ HS), IH in D. cbn in D. lia.
Qed.

(** ** Sends end *)
Section Send.
Context (n : nat).
Notation pc m := (stub_pc n (q_rt (f m))).
Notation lower N := (exists m, N <= m /\ pcrank (pc m) < pcrank (pc N)).
Lemma same_or N m : N <= m -> pc N <> SFree -> lower N \/ pc m = pc N.
Proof.
  intros L B. induction L as [|m L [K|IH]]; [right; reflexivity|left; exact K|]. destruct (goes m) as [[-> _]|(x & o & l & G & _)]; [right; exact IH|].
  destruct (q_pc _ _ _ _ _ n G) as [K|K]; [rewrite IH; exact B|right; congruence|left; exists (S m); split; [lia|congruence]].
Qed.
(** It looks for its connection. *)
Lemma looks N a : (match pc N with SCheck b _ | SShare b _ _ | SSend b _ => b = a | _ => False end) -> lower N.
Proof.
  intros B. assert (NF : pc N <> SFree) by (intros E; rewrite E in B; exact B).
  assert (NC : forall a' p, pc N <> SConnect a' p) by (intros a' p E; rewrite E in B; exact B).
  destruct (lr_fair _ _ _ _ R (Sending n) N) as (m & L & K). destruct (same_or N m L NF) as [D|E]; [exact D|]. destruct K as [(x & o & l & A & T)|NS].
  - destruct (took_send _ _ _ _ _ A T) as [[_ (a' & p' & E2)]|[_ D]]; [destruct (NC a' p'); congruence|]. exists (S m). split; [lia|congruence].
  - apply (lock_or a _ m). intros m' L'. destruct (same_or N m' ltac:(lia) NF) as [D|E']; [left; exact D|right].
    destruct (clocked cbk (q_rt (f m')) a) eqn:C; [reflexivity|exfalso]. apply (NS m' L'). apply stub_can; [congruence|intros a' p EE; apply (NC a' p); congruence|].
    assert (BF : pc m' <> SFree) by congruence. destruct (pc_stub _ _ BF) as (u & U & PU). cbn. rewrite U, (alive_at _ _ _ U) by congruence. unfold step_stub. rewrite PU, E'.
    destruct (pc N) eqn:PN; try contradiction B; subst a; rewrite C.
    + destruct (live_conn _ _); [discriminate|]. destruct (ep_strong _); discriminate.
    + discriminate.
    + destruct (map_get _ _ _); [|discriminate]. destruct (conn_strong _ _); discriminate.
Qed.
(** It asked the endpoint task for one. *)
Lemma asked k N M a p : pc N = SConnect a p -> N <= M -> ahead n k (f M) -> lower N \/ left_unread f t.
Proof.
  intros PN. assert (NF : pc N <> SFree) by congruence. revert M. induction k as [k IH] using lt_wf_ind. intros M LM AH.
  assert (W : work (f M)).
  { destruct AH as (pre & e & post & E & _). destruct (q_now (f M)) eqn:NOW; [right; rewrite NOW; discriminate|left]. unfold now_list in E. rewrite NOW in E. cbn in E. rewrite E. destruct pre; discriminate. }
  destruct (next_done M W) as [(m & L & FM)|U]; [|right; exact U].
  assert (WALK : forall m', M <= m' -> lower N \/ exists k', ahead n k' (f m') /\ k' + length (finished (t m')) = k + length (finished (t M))).
  { intros m' L'. induction L' as [|m' L' [D|(k' & A & E)]]; [right; eauto|left; exact D|]. destruct (goes m') as [[-> ->]|(x & o & l & G & T)]; [right; eauto|].
    destruct (same_or N m' ltac:(lia) NF) as [D|PM]; [left; exact D|]. destruct (ahead_step _ _ _ _ _ n k' G) as [D|D]; [exists a, p; congruence|exact A| |].
    - left. exists (S m'). split; [lia|]. rewrite PN. exact D.
    - right. rewrite T. unfold finished in *. rewrite flat_map_app, app_length. destruct o; cbn; try (exists k'; split; [exact D|lia]). destruct D as (k2 & -> & D). exists k2. split; [exact D|lia]. }
  destruct (WALK m L) as [D|(k' & A & E)]; [left; exact D|]. apply (IH k' ltac:(lia) m ltac:(lia) A).
Qed.
Lemma asks N a p : pc N = SConnect a p -> lower N \/ left_unread f t.
Proof.
  intros PN. assert (NF : pc N <> SFree) by congruence.
  assert (INC : forall m, N <= m -> in_channel (FSend n) (f m) = true -> lower N \/ left_unread f t).
  { intros m L I. assert (X : exists k, ahead n k (f m)); [|destruct X as [k X]; exact (asked k N m a p PN L X)]. unfold in_channel in I.
    assert (J : existsb (waits (FSend n)) (now_list (f m) ++ q_chan (f m)) = true).
    { rewrite existsb_app. unfold now_list. apply orb_true_iff in I. destruct I as [I|I]; [rewrite I; apply orb_true_r|]. destruct (q_now (f m)); [|discriminate I]. cbn. rewrite I. reflexivity. }
    apply existsb_exists in J. destruct J as (e & IN & W). apply in_split in IN. destruct IN as (pre & post & E). exists (length pre), pre, e, post. auto. }
  destruct (lr_fair _ _ _ _ R (Sending n) N) as (m & L & K). destruct (same_or N m L NF) as [D|E]; [left; exact D|]. destruct K as [(x & o & l & A & T)|NS].
  - destruct (took_send _ _ _ _ _ A T) as [[-> _]|[NC _]]; [|destruct (NC a p); congruence]. apply (INC (S m) ltac:(lia)).
    pose proof (qstepped _ _ _ _ _ _ _ (took_step _ _ T)) as G. cbn in G. pose proof (not_refused _ _ _ _ _ _ _ _ (inv m) G) as NR. remember (f (S m)) as q' eqn:Q'. clear Q'.
    inversion G; subst; try congruence. unfold in_channel. cbn. rewrite existsb_app. cbn. unfold waits at 2. cbn. rewrite Nat.eqb_refl. cbn. rewrite orb_true_r. reflexivity.
  - assert (CAN : forall m', m <= m' -> (lower N \/ left_unread f t) \/ 8 <= length (q_chan (f m'))).
    { intros m' L'. destruct (same_or N m' ltac:(lia) NF) as [D|E']; [left; left; exact D|]. destruct (in_channel (FSend n) (f m')) eqn:I; [left; exact (INC m' ltac:(lia) I)|right].
      destruct (Nat.lt_ge_cases (length (q_chan (f m'))) 8) as [Q|Q]; [exfalso|exact Q]. apply (NS m' L'). apply Nat.ltb_lt in Q.
      assert (BF : pc m' <> SFree) by congruence. destruct (pc_stub _ _ BF) as (u & U & PU). pose proof (alive_at _ _ _ U ltac:(congruence)) as AL.
      assert (O : q_over (f m') = false).
      { destruct (q_over (f m')) eqn:O; [|reflexivity]. destruct (v_over _ _ (inv m') O) as (_ & _ & (S & _)). unfold ep_strong in S. apply orb_false_iff in S. destruct S as [_ S].
        pose proof (existsb_at _ _ _ _ S U) as K. cbn in K. rewrite PU, E', PN, AL in K. discriminate K. }
      eexists (QEnter (FSend n)), _. split; [reflexivity|]. cbn -[Nat.ltb]. rewrite U, AL, PU, E', PN, I, O, Q. reflexivity. }
    assert (WK : forall m', m <= m' -> (lower N \/ left_unread f t) \/ work (f m')).
    { intros m' L'. destruct (CAN m' L') as [D|Q]; [left; exact D|]. right. left. intros Z. rewrite Z in Q. cbn in Q. lia. }
    destruct (WK m (le_n _)) as [D|W]; [exact D|]. destruct (next_done m W) as [(m1 & L1 & F1)|U]; [|right; exact U].
    destruct (WK m1 L1) as [D|W1]; [exact D|]. destruct (next_done m1 W1) as [(m2 & L2 & F2)|U]; [|right; exact U].
    destruct (in_order _ _ _ _ _ (hist m)) as (now & rest & _ & E1 & B1 & _). destruct (in_order _ _ _ _ _ (hist m2)) as (now2 & rest2 & _ & E2 & _ & _).
    destruct (took_one m m2 ltac:(lia)) as (j & LJ & Q); [rewrite E1, E2, !app_length; lia|].
    destruct (CAN (S j) ltac:(lia)) as [D|Q']; [exact D|lia].
Qed.
Lemma goes_lower N : pc N <> SFree -> lower N \/ left_unread f t.
Proof.
  intros NF. destruct (pc N) as [|a p|a p|a c p|a p|a c p] eqn:E; [congruence| | | | |].
  - left. rewrite <- E. apply (looks N a). rewrite E. reflexivity.
  - rewrite <- E. exact (asks N a p E).
  - left. rewrite <- E. apply (looks N a). rewrite E. reflexivity.
  - left. rewrite <- E. apply (looks N a). rewrite E. reflexivity.
  - left. rewrite <- E. apply (held_or n a c p _ N). intros m L. rewrite <- E. apply same_or; [exact L|congruence].
Qed.
Lemma freed N : (exists m, N <= m /\ pc m = SFree) \/ left_unread f t.
Proof.
  remember (pcrank (pc N)) as j eqn:J. revert N J. induction j as [j IH] using lt_wf_ind. intros N ->.
  assert (D : pc N = SFree \/ pc N <> SFree) by (destruct (pc N); [left; reflexivity|right; discriminate..]). destruct D as [D|D]; [left; eauto|].
  destruct (goes_lower N D) as [(m & L & K)|U]; [|right; exact U]. destruct (IH _ K m eq_refl) as [(m' & L' & E)|U]; [left; exists m'; split; [lia|exact E]|right; exact U].
Qed.
Theorem sends_end N : (exists m, N <= m /\ ~ busy (q_rt (f m)) n) \/ left_unread f t.
Proof.
  destruct (freed N) as [(m & L & E)|U]; [left|right; exact U]. exists m. split; [exact L|]. intros (u & U & P). rewrite (stub_pc_is _ _ _ U) in E. exact (P E).
Qed.
End Send.

(** ** What was accepted is written *)
Lemma trace_on n m : n <= m -> exists more, rt_trace (t m) = rt_trace (t n) ++ more.
Proof. intros L. destruct (after n m L) as (tr & E & _). exists (rt_trace tr). rewrite E. unfold rt_trace. apply flat_map_app. Qed.
Lemma runs_dec c m : conn_runs (q_rt (f m)) c \/ ~ conn_runs (q_rt (f m)) c.
Proof.
  unfold conn_runs. destruct (nth_error (r_conns (q_rt (f m))) c) as [x|]; [|right; intros (y & Y & _); discriminate Y].
  destruct (c_alive x) eqn:A; [left; eauto|right; intros (y & Y & B); congruence].
Qed.
Notation nsent c m := (length (sent c (rt_trace (t m)))).
Notation nacc c m := (length (accepted c (rt_trace (t m)))).
Lemma sent_grows c n m : n <= m -> nsent c n <= nsent c m.
Proof. intros L. destruct (trace_on n m L) as [more ->]. unfold sent. rewrite flat_map_app, app_length. lia. Qed.
Lemma acc_grows c n m : n <= m -> nacc c n <= nacc c m.
Proof. intros L. destruct (trace_on n m L) as [more ->]. unfold accepted. rewrite flat_map_app, app_length. lia. Qed.
Lemma pending c m : conn_runs (q_rt (f m)) c -> nsent c m < nacc c m -> to_write (q_rt (f m)) c.
Proof.
  intros (x & X & A) L. exists x. split; [exact X|]. split; [exact A|]. pose proof (fates _ _ _ _ _ (rhist m) c) as F. rewrite X in F. cbn in F. rewrite A in F. destruct F as (F & _).
  apply (f_equal (@length _)) in F. rewrite map_length, !app_length in F. destruct (c_out x); [left; discriminate|right]. intros Q. rewrite Q in F. cbn in F. lia.
Qed.
Lemma one_more c N M : N <= M -> nsent c M < nacc c N -> exists m, M <= m /\ (~ conn_runs (q_rt (f m)) c \/ nsent c M < nsent c m).
Proof.
  intros LN LA. set (P := exists m, M <= m /\ (~ conn_runs (q_rt (f m)) c \/ nsent c M < nsent c m)).
  assert (ST : forall m, M <= m -> P \/ (to_write (q_rt (f m)) c /\ nsent c m = nsent c M)).
  { intros m L. destruct (runs_dec c m) as [RU|NR]; [|left; exists m; auto]. destruct (Nat.lt_ge_cases (nsent c M) (nsent c m)) as [G|G]; [left; exists m; auto|right].
    pose proof (sent_grows c M m L). pose proof (acc_grows c N m ltac:(lia)). split; [apply pending; [exact RU|lia]|lia]. }
  apply (descent_or (Sender c) (fun q => out_w c (q_rt q)) P M).
  - intros m L. destruct (ST m L) as [K|[(x & X & A & C) _]]; [left; exact K|right]. destruct (c_out x) as [bs|] eqn:O.
    + eexists (QRun (ESocket c true)), _. split; [reflexivity|]. cbn. unfold at_rt. cbn. cbn in X. rewrite X, A, O. reflexivity.
    + destruct (c_cmds x) as [|[m'|id i] q] eqn:Q; [destruct C; congruence| |]; eexists (QRun (ESender c)), _; (split; [reflexivity|]); cbn; unfold at_rt; cbn; cbn in X; rewrite X, A, O, Q; reflexivity.
  - intros m x o l L E G. destruct (ST m L) as [K|[W1 S1]]; [left; exact K|]. destruct (ST (S m) ltac:(lia)) as [K|[W2 S2]]; [left; exact K|right].
    assert (NS : forall ok bs, ~ In (ESocket c ok, OSent bs) l).
    { intros ok bs I. assert (LT : nsent c m < nsent c (S m)); [|lia]. assert (ET : rt_trace (t (S m)) = rt_trace (t m) ++ l) by (rewrite E; unfold rt_trace; rewrite flat_map_app; cbn; rewrite app_nil_r; reflexivity).
      assert (ES : sent c (rt_trace (t m) ++ l) = sent c (rt_trace (t m)) ++ sent c l) by apply flat_map_app. rewrite ET, ES, app_length.
      assert (B : In bs (sent c l)) by (apply in_flat_map; exists (ESocket c ok, OSent bs); split; [exact I|rewrite Nat.eqb_refl; left; reflexivity]).
      destruct (sent c l); [contradiction B|cbn; lia]. }
    split.
    + destruct (shape_l _ _ _ _ _ G) as [[-> _]|[(e & o' & S & ->)|(ok & s1 & o1 & d & o2 & S & D & S2' & ->)]]; [reflexivity| |].
      * apply (out_less _ _ _ _ _ S W1 W2). intros ok bs [-> ->]. apply (NS ok bs). left. reflexivity.
      * pose proof (drop_conns _ _ _ _ _ D S2') as EC. assert (F1 : to_write s1 c) by (unfold to_write in *; rewrite <- EC; exact W2).
        replace (out_w c (q_rt (f (Datatypes.S m)))) with (out_w c s1) by (unfold out_w; rewrite EC; reflexivity). apply (out_less _ _ _ _ _ S W1 F1). intros ok' bs [K _]. discriminate K.
    + intros A. remember (f (S m)) as q' eqn:Q'. destruct G; try contradiction A. cbn in A. eapply out_less; [exact H1|exact W1|exact W2| |destruct e; try contradiction A; exact A].
      intros ok bs [-> ->]. apply (NS ok bs). left. reflexivity.
Qed.
Theorem written c N : exists m, N <= m /\ (~ conn_runs (q_rt (f m)) c \/ exists rest, sent c (rt_trace (t m)) = map encode (accepted c (rt_trace (t N))) ++ rest).
Proof.
  assert (K : forall k M, N <= M -> nacc c N - nsent c M = k -> exists m, M <= m /\ (~ conn_runs (q_rt (f m)) c \/ nacc c N <= nsent c m)).
  { intros k. induction k as [k IH] using lt_wf_ind. intros M L E. destruct (Nat.lt_ge_cases (nsent c M) (nacc c N)) as [G|G]; [|exists M; split; [lia|right; exact G]].
    destruct (one_more c N M L G) as (m & LM & [NR|D]); [exists m; auto|]. destruct (IH (nacc c N - nsent c m) ltac:(lia) m ltac:(lia) eq_refl) as (m' & L' & C). exists m'. split; [lia|exact C]. }
  destruct (K _ N (le_n _) eq_refl) as (m & L & [NR|G]); exists m; (split; [exact L|]); [left; exact NR|right].
  destruct (trace_on N m L) as [more E]. destruct (fifo_sends _ _ _ _ _ c (rhist m)) as (lost & F & _). rewrite E in F at 1. unfold accepted in F at 1. rewrite flat_map_app, map_app in F. fold (accepted c (rt_trace (t N))) in F.
  remember (sent c (rt_trace (t m))) as S eqn:ES. exists (skipn (nacc c N) S). rewrite <- (firstn_skipn (nacc c N) S) at 1. f_equal.
  apply (f_equal (firstn (nacc c N))) in F. rewrite !firstn_app, map_length, Nat.sub_diag in F. cbn [firstn] in F. rewrite app_nil_r in F.
  rewrite (firstn_all2 (map _ _)) in F by (rewrite map_length; reflexivity). rewrite F. replace (nacc c N - length S) with 0 by lia. cbn [firstn]. rewrite app_nil_r. reflexivity.
Qed.

(** ** What arrived is routed *)
Section Routed.
Context (b B0 : nat).
Notation runs m := (conn_runs (q_rt (f m)) b).
Notation ends := (exists m, B0 <= m /\ ~ runs m).
Notation concl := (ends \/ left_unread_while f t b).
Lemma b_there M m : M <= m -> runs M -> exists y, nth_error (r_conns (q_rt (f m))) b = Some y.
Proof.
  intros L (y & Y & _). induction L as [|m L (z & Z)]; [eauto|]. destruct (goes m) as [[-> _]|(x & o & l & G & _)]; [eauto|]. exact (q_conn _ _ _ _ _ _ _ G Z).
Qed.
Lemma ran M m : M <= m -> runs M -> runs (S m) -> runs m.
Proof.
  intros L RM RS. destruct (b_there M m L RM) as (y & Y). destruct (goes m) as [[E _]|(x & o & l & G & _)]; [rewrite E in RS; exact RS|]. exists y. split; [exact Y|]. exact (q_ran _ _ _ _ _ _ _ G Y RS).
Qed.
(** Somebody has the queue, or the endpoint task is about to hand it over. *)
Lemma to_handed c i it todo M : (forall m, M <= m -> runs m -> stall (q_rt (f m)) c i it todo) -> B0 <= M -> runs M ->
  ends \/ exists m, M <= m /\ runs m /\ forall ow id, r_ep (q_rt (f m)) <> EpTake ow id i.
Proof.
  intros F LB RM. assert (DEC : forall m, (forall ow id, r_ep (q_rt (f m)) <> EpTake ow id i) \/ exists ow id, r_ep (q_rt (f m)) = EpTake ow id i).
  { intros m. destruct (r_ep (q_rt (f m))) as [| | | |ow id j]; try (left; intros; discriminate). destruct (Nat.eq_dec j i) as [->|D]; [right; eauto|left; intros ow' id' K; congruence]. }
  destruct (lr_fair _ _ _ _ R TheEndpoint M) as (m & L & K). destruct (runs_dec b m) as [RU|NR]; [|left; eexists; split; [|eassumption]; lia]. destruct (DEC m) as [D|(ow & id & E)]; [right; exists m; auto|].
  destruct K as [(x & o & l & A & T)|NS]; [|exfalso; exact (not_taking m NS _ _ _ E)].
  destruct (runs_dec b (S m)) as [RS|NR]; [|left; eexists; split; [|eassumption]; lia]. right. exists (S m). split; [lia|]. split; [exact RS|]. intros ow' id' E'.
  pose proof (qstepped _ _ _ _ _ _ _ (took_step _ _ T)) as G. cbn in G. pose proof (v_ep _ _ (inv m)) as EP. unfold ep_with in EP.
  destruct (q_now (f m)) as [e|] eqn:NOW; [|congruence]. destruct (e_cmd e) as [a|id2 to2] eqn:KE; [congruence|].
  remember (f (S m)) as q' eqn:Q'. clear Q' T F. destruct G; try contradiction A; try congruence; assert (e0 = e) by congruence; subst e0; try congruence;
    cbn [q_rt with_rt with_calls with_chan with_now with_over set_call unwatch] in E'.
  all: match goal with S : step _ (EEp _) = Some _ |- _ => pose proof (ep_takes _ _ _ _ _ _ _ E S) as E1 end; try congruence.
  match goal with K : dropped_answer _ _ _ _ _ _ |- _ => unfold dropped_answer in K; rename K into D6 end.
  destruct (drop_answer o) as [d|] eqn:D; [destruct D6 as (o' & S & _)|destruct D6 as [-> _]; congruence].
  destruct o; try discriminate D; injection D as <-; step_cases S; cbn in E'; congruence.
Qed.
Lemma stub_on q x q' o l n v : qgoes q x q' o l -> nth_error (r_stubs (q_rt q)) n = Some v -> (forall o', step (q_rt q) (EDropStub n) <> Some (q_rt q', o')) ->
  exists w, nth_error (r_stubs (q_rt q')) n = Some w /\ st_alive w = st_alive v /\ st_iface w = st_iface v.
Proof.
  intros G V ND. destruct (shape _ _ _ _ _ G) as [->|[(e & o' & S)|(ok & s1 & o1 & d & o2 & S & D & S2)]]; [eauto| |].
  - destruct (stub_after _ _ _ _ _ _ _ _ S V) as (w & W & IW & [->|[AW _]]); [destruct (ND _ S)|eauto].
  - destruct (stub_after _ _ _ _ _ _ _ _ S V) as (w & W & IW & [E|[AW _]]); [discriminate E|]. destruct (stub_after _ _ _ _ _ _ _ _ S2 W) as (z & Z & IZ & [->|[AZ _]]); [exfalso|exists z; repeat split; congruence].
    assert (L : n < length (r_stubs (q_rt q))) by (apply nth_error_Some; congruence). destruct (ep_new _ _ _ _ _ S D) as [E|E]; [injection E as E; lia|discriminate E].
Qed.
Lemma proxy_on q x q' o l n v : qgoes q x q' o l -> nth_error (r_proxies (q_rt q)) n = Some v -> (forall o', step (q_rt q) (EDropProxy n) <> Some (q_rt q', o')) ->
  exists w, nth_error (r_proxies (q_rt q')) n = Some w /\ px_alive w = px_alive v /\ px_iface w = px_iface v.
Proof.
  intros G V ND. destruct (shape _ _ _ _ _ G) as [->|[(e & o' & S)|(ok & s1 & o1 & d & o2 & S & D & S2)]]; [eauto| |].
  - destruct (proxy_after _ _ _ _ _ _ _ _ S V) as (w & W & IW & [->|AW]); [destruct (ND _ S)|eauto].
  - destruct (proxy_after _ _ _ _ _ _ _ _ S V) as (w & W & IW & [E|AW]); [discriminate E|]. destruct (proxy_after _ _ _ _ _ _ _ _ S2 W) as (z & Z & IZ & [->|AZ]); [exfalso|exists z; repeat split; congruence].
    assert (L : n < length (r_proxies (q_rt q))) by (apply nth_error_Some; congruence). destruct (ep_new _ _ _ _ _ S D) as [E|E]; [discriminate E|injection E as E; lia].
Qed.
Lemma handed c i it todo N : (forall m, N <= m -> runs m -> stall (q_rt (f m)) c i it todo) -> runs N -> (forall ow id, r_ep (q_rt (f N)) <> EpTake ow id i) -> left_unread_while f t b.
Proof.
  intros F RN NT. destruct (sl_full _ _ _ _ _ (F N (le_n _) RN)) as (y & Y & RX & _).
  destruct (always_read _ _ _ _ _ (rhist N) i) as [(k & K)|(ow & id & E)]; [exists y; auto| |destruct (NT _ _ E)].
  remember true as bb eqn:AL in K. destruct K as [n u U EU|n p P EP]; subst i.
  - cbn in U. rewrite nth_error_map in U. destruct (nth_error (r_stubs (q_rt (f N))) n) as [st|] eqn:U'; [|discriminate U]. injection U as <-. rename U' into U. cbn in AL, F, Y. rename AL into A.
    exists N, c, n. left.
    assert (G : forall m, N <= m -> runs m -> (exists v, nth_error (r_stubs (q_rt (f m))) n = Some v /\ st_alive v = true /\ st_iface v = st_iface st) /\
      exists more, t m = t N ++ more /\ forall o, ~ In (ERecvFrom n, o) (rt_trace more)).
    { intros m L. induction L as [|m L IH]; intros RU; [split; [eauto|exists []; rewrite app_nil_r; split; [reflexivity|intros o []]]|].
      pose proof (ran N m L RN RU) as RM. destruct (IH RM) as [(v & V & AV & IV) (more & TM & NM)]. destruct (goes m) as [[E1 E2]|(x & o & l & G & T)]; [rewrite E1, E2; split; eauto|].
      assert (NF : forall e o', step (q_rt (f m)) e = Some (q_rt (f (Datatypes.S m)), o') -> not_ep e -> ~ frees (q_rt (f m)) (st_iface st) e).
      { intros e o' S NP. eapply reads_one; [exact S|exact NP|apply F; assumption|apply F; [lia|exact RU]]. }
      split.
      - destruct (stub_on _ _ _ _ _ _ _ G V) as (w & W & AW & IW); [|exists w; repeat split; congruence].
        intros o' S. destruct (NF _ _ S Logic.I). rewrite <- IV. eapply fr_drop; [exact V|reflexivity].
      - exists (more ++ [(x, o, l)]). rewrite T, TM, app_assoc. split; [reflexivity|]. intros o1 I. unfold rt_trace in I. rewrite flat_map_app in I. apply in_app_iff in I.
        destruct I as [I|I]; [exact (NM _ I)|]. cbn in I. rewrite app_nil_r in I. assert (S : step (q_rt (f m)) (ERecvFrom n) = Some (q_rt (f (Datatypes.S m)), o1)) by (eapply reads_by; [exact G|exact Logic.I|exact I]).
        refine (NF _ _ S Logic.I _). destruct (st_pc v) eqn:PC; [rewrite <- IV; eapply fr_recv; [exact V|reflexivity|exact PC]|..]; exfalso; cbn in S; rewrite V, AV, PC in S; discriminate S. }
    intros m L RU. destruct (G m L RU) as [(v & V & AV & IV) TM]. split; [|exact TM]. apply (stalled_stub_is _ _ _ _ _ _ _ (rhist m)). exists v, it, todo. rewrite IV. auto.
  - rename p into st. cbn in P. exists N, c, n. right.
    assert (G : forall m, N <= m -> runs m -> (exists v, nth_error (r_proxies (q_rt (f m))) n = Some v /\ px_alive v = true /\ px_iface v = px_iface st) /\
      exists more, t m = t N ++ more /\ forall o, ~ In (EProxyRecv n, o) (rt_trace more)).
    { intros m L. induction L as [|m L IH]; intros RU; [split; [eauto|exists []; rewrite app_nil_r; split; [reflexivity|intros o []]]|].
      pose proof (ran N m L RN RU) as RM. destruct (IH RM) as [(v & V & AV & IV) (more & TM & NM)]. destruct (goes m) as [[E1 E2]|(x & o & l & G & T)]; [rewrite E1, E2; split; eauto|].
      assert (NF : forall e o', step (q_rt (f m)) e = Some (q_rt (f (Datatypes.S m)), o') -> not_ep e -> ~ frees (q_rt (f m)) (px_iface st) e).
      { intros e o' S NP. eapply reads_one; [exact S|exact NP|apply F; assumption|apply F; [lia|exact RU]]. }
      split.
      - destruct (proxy_on _ _ _ _ _ _ _ G V) as (w & W & AW & IW); [|exists w; repeat split; congruence].
        intros o' S. destruct (NF _ _ S Logic.I). rewrite <- IV. eapply fr_pdrop; [exact V|reflexivity].
      - exists (more ++ [(x, o, l)]). rewrite T, TM, app_assoc. split; [reflexivity|]. intros o1 I. unfold rt_trace in I. rewrite flat_map_app in I. apply in_app_iff in I.
        destruct I as [I|I]; [exact (NM _ I)|]. cbn in I. rewrite app_nil_r in I. assert (S : step (q_rt (f m)) (EProxyRecv n) = Some (q_rt (f (Datatypes.S m)), o1)) by (eapply reads_by; [exact G|exact Logic.I|exact I]).
        refine (NF _ _ S Logic.I _). rewrite <- IV. eapply fr_precv; [exact V|reflexivity]. }
    intros m L RU. destruct (G m L RU) as [(v & V & AV & IV) TM]. split; [|exact TM]. apply (stalled_proxy_is _ _ _ _ _ _ _ (rhist m)). exists v, it, todo. rewrite IV. auto.
Qed.
Lemma can_route c m : step (q_rt (f m)) (ERoute c) <> None -> can_act (Receiver c) (f m).
Proof.
  intros S. destruct (step (q_rt (f m)) (ERoute c)) as [[s' o]|] eqn:E; [|congruence]. eexists (QRun (ERoute c)), _. split; [reflexivity|].
  cbn [QueueModel.qstep elsewhere]. unfold at_rt. rewrite E. reflexivity.
Qed.
Lemma took_route c m x o l : acts_as (Receiver c) x -> t (S m) = t m ++ [(x, o, l)] -> exists o', step (q_rt (f m)) (ERoute c) = Some (q_rt (f (S m)), o') /\ l = [(ERoute c, o')].
Proof.
  intros A T. pose proof (took_step _ _ T) as S. cbn [fst snd] in S. destruct x as [| | | | | | | |[]]; try contradiction A. cbn in A. subst c0. cbn [QueueModel.qstep elsewhere] in S. unfold at_rt in S.
  destruct (step (q_rt (f m)) (ERoute c)) as [[s' o']|] eqn:E; [|discriminate S]. exists o'. injection S as S _ EL. rewrite <- S, <- EL. split; reflexivity.
Qed.
Lemma holding c i it todo M : (forall m, M <= m -> runs m -> exists x, nth_error (r_conns (q_rt (f m))) c = Some x /\ c_recv x = RHold i it todo) -> B0 <= M -> runs M -> concl.
Proof.
  intros F LB RM. destruct (lr_fair _ _ _ _ R (Receiver c) M) as (m & L & K). destruct (runs_dec b m) as [RU|NR]; [|left; eexists; split; [|eassumption]; lia]. destruct K as [(x & o & l & A & T)|NS].
  - destruct (runs_dec b (S m)) as [RS|NR]; [|left; eexists; split; [|eassumption]; lia]. exfalso. destruct (took_route _ _ _ _ _ A T) as (o' & ST & _).
    destruct (F m L RU) as (v & V & PV). destruct (F (Datatypes.S m) ltac:(lia) RS) as (w & W & PW). exact (routes_on _ _ _ _ _ _ _ _ _ ST V PV W PW).
  - assert (SL : forall m', m <= m' -> runs m' -> stall (q_rt (f m')) c i it todo).
    { intros m' L' RU'. destruct (F m' ltac:(lia) RU') as (x & X & RV). specialize (NS m' L').
      assert (A : c_alive x = true).
      { destruct (c_alive x) eqn:A; [reflexivity|]. destruct (t_conn _ (tidy _ _ _ _ _ (rhist m')) _ _ X A) as (_ & _ & Q). rewrite RV in Q. discriminate Q. }
      assert (B : step (q_rt (f m')) (ERoute c) = None).
      { destruct (step (q_rt (f m')) (ERoute c)) as [p|] eqn:S; [|reflexivity]. destruct NS. apply can_route. congruence. }
      pose proof (history_inv _ _ _ _ _ (rhist m')) as V.
      assert (ID : idof (view (q_rt (f m'))) i = Some (iid_of (it_msg it))) by exact (v_ids _ _ (in1 _ _ _ V) _ _ (held_recv _ _ _ _ _ _ _ (nth_vc _ _ _ X) RV eq_refl)).
      destruct (nth_error (r_ifaces (q_rt (f m'))) i) as [y|] eqn:Y; [|unfold idof in ID; cbn in ID; rewrite Y in ID; discriminate].
      constructor; [exists x; auto|]. exists y. split; [exact Y|]. cbn -[Nat.ltb] in B. rewrite X, A in B. unfold step_route in B. rewrite RV, Y in B.
      destruct (i_rx y); [|discriminate B]. destruct (length (i_queue y) <? 16) eqn:Q; [discriminate B|]. apply Nat.ltb_ge in Q. split; [reflexivity|].
      assert (K := v_cap _ _ (in5 _ _ _ V) _ _ Y). revert Q. unfold i_queue. rewrite skipn_length. intros Q. lia. }
    destruct (to_handed c i it todo m SL ltac:(lia) RU) as [E|(m' & L' & RU' & NT)]; [left; exact E|right]. apply (handed c i it todo m'); [intros k LK RK; apply SL; [lia|exact RK]|exact RU'|exact NT].
Qed.
Lemma locking id M : (forall m, M <= m -> runs m -> locked bk (q_rt (f m)) id = true) -> B0 <= M -> runs M -> concl.
Proof.
  intros K0 LB RM. assert (K : forall m, M <= m -> runs m -> exists c, holds_id (q_rt (f m)) (bk id) c) by (intros m L RU; apply locked_is; exact (K0 m L RU)). clear K0.
  destruct (K M (le_n _) RM) as (c & KC).
  assert (HN : forall m, M <= m -> runs m -> holds_id (q_rt (f m)) (bk id) c).
  { intros m L. induction L as [|m L IH]; intros RU; [exact KC|]. specialize (IH (ran M m L RM RU)). destruct (goes m) as [[-> _]|(x & o & l & G & _)]; [exact IH|].
    destruct (K (Datatypes.S m) ltac:(lia) RU) as (n' & K'). destruct (q_held _ _ _ _ _ _ _ G K') as [J|J]; [|destruct (J _ IH)].
    rewrite <- (one_holder _ _ (rhist m) _ _ _ J IH). exact K'. }
  clear K. destruct KC as (x & X & LK). pose proof LK as LK'. unfold recv_locks in LK'. destruct (c_recv x) as [|i it todo] eqn:P; [discriminate LK'|].
  apply (holding c i it todo M); [|exact LB|exact RM]. intros m L. induction L as [|m L IH]; intros RU; [eauto|]. destruct (IH (ran M m L RM RU)) as (v & V & PV). destruct (goes m) as [[-> _]|(y & o & l & G & _)]; [eauto|].
  destruct (HN (Datatypes.S m) ltac:(lia) RU) as (w & W & LW). exists w. split; [exact W|].
  destruct (shape _ _ _ _ _ G) as [E|[(e & o' & S)|(ok & s1 & o1 & d & o2 & S & D & S2)]]; [rewrite E in W; congruence|exact (keeps_recv _ _ _ _ _ _ _ _ _ _ _ S V PV W LW)|].
  rewrite (drop_conns _ _ _ _ _ D S2) in W. exact (keeps_recv _ _ _ _ _ _ _ _ _ _ _ S V PV W LW).
Qed.
(** The receiver goes on with what it has. *)
Lemma next_route N x0 : B0 <= N -> runs N -> nth_error (r_conns (q_rt (f N))) b = Some x0 -> c_recv x0 <> RWait [] ->
  (exists j x o, N <= j /\ runs j /\ nth_error (r_conns (q_rt (f j))) b = Some x /\ c_recv x = c_recv x0 /\ step (q_rt (f j)) (ERoute b) = Some (q_rt (f (S j)), o) /\
    rt_trace (t (S j)) = rt_trace (t j) ++ [(ERoute b, o)]) \/ concl.
Proof.
  intros LB RN X0 W0.
  assert (SAME : forall m, N <= m -> (forall j y o l, N <= j -> j < m -> t (S j) = t j ++ [(y, o, l)] -> ~ acts_as (Receiver b) y) -> runs m -> exists x, nth_error (r_conns (q_rt (f m))) b = Some x /\ c_recv x = c_recv x0).
  { intros m L. induction L as [|m L IHm]; intros NA RU; [eauto|]. destruct IHm as (x & X & EX); [intros j y o l J1 J2; apply NA; lia|exact (ran N m L RN RU)|].
    destruct (goes m) as [[-> _]|(y & o & l & G & T)]; [eauto|]. destruct (q_recv _ _ _ _ _ _ _ G X RU) as (z & Z & EZ); [congruence|exact (NA m y o l L ltac:(lia) T)|]. exists z. split; congruence. }
  assert (FIRST : forall m, N <= m -> (exists j y o l, N <= j /\ j < m /\ acts_as (Receiver b) y /\ t (S j) = t j ++ [(y, o, l)] /\ forall j' y o l, N <= j' -> j' < j -> t (S j') = t j' ++ [(y, o, l)] -> ~ acts_as (Receiver b) y) \/
    (forall j y o l, N <= j -> j < m -> t (S j) = t j ++ [(y, o, l)] -> ~ acts_as (Receiver b) y)).
  { intros m L. induction L as [|m L IHm]; [right; lia|]. destruct IHm as [(j & y & o & l & J)|NA]; [left; exists j, y, o, l; intuition lia|].
    destruct (goes m) as [[_ E]|(y & o & l & G & T)].
    - right. intros j y o l J1 J2 T. destruct (Nat.eq_dec j m) as [->|D]; [|apply (NA j y o l); [lia|lia|exact T]]. rewrite E in T. apply (f_equal (@length _)) in T. rewrite app_length in T. cbn in T. lia.
    - assert (D : acts_as (Receiver b) y \/ ~ acts_as (Receiver b) y) by (destruct y as [| | | | | | | |[]]; cbn; try (right; intros []; fail); apply Nat.eq_decidable).
      destruct D as [D|D]; [left; exists m, y, o, l; repeat split; auto; lia|right]. intros j y' o' l' J1 J2 T'. destruct (Nat.eq_dec j m) as [->|DD]; [|apply (NA j y' o' l'); [lia|lia|exact T']].
      rewrite T in T'. apply app_inv_head in T'. injection T' as <- _ _. exact D. }
  assert (ACT : forall j y o l, N <= j -> acts_as (Receiver b) y -> t (S j) = t j ++ [(y, o, l)] -> (forall j' y o l, N <= j' -> j' < j -> t (S j') = t j' ++ [(y, o, l)] -> ~ acts_as (Receiver b) y) ->
    (exists j x o, N <= j /\ runs j /\ nth_error (r_conns (q_rt (f j))) b = Some x /\ c_recv x = c_recv x0 /\ step (q_rt (f j)) (ERoute b) = Some (q_rt (f (S j)), o) /\
      rt_trace (t (S j)) = rt_trace (t j) ++ [(ERoute b, o)]) \/ concl).
  { intros j y o l L A T NA. destruct (runs_dec b j) as [RJ|NR]; [|right; left; eexists; split; [|eassumption]; lia]. destruct (SAME j L NA RJ) as (x & X & EX).
    destruct (took_route _ _ _ _ _ A T) as (o' & S & ->). left. exists j, x, o'. repeat (split; [assumption|]). rewrite T. unfold rt_trace. rewrite flat_map_app. cbn. reflexivity. }
  destruct (lr_fair _ _ _ _ R (Receiver b) N) as (m & L & K). destruct (FIRST m L) as [(j & y & o & l & J1 & _ & A & T & NA)|NA]; [exact (ACT j y o l J1 A T NA)|].
  destruct K as [(y & o & l & A & T)|NS]; [exact (ACT m y o l L A T NA)|]. right. destruct (runs_dec b m) as [RM|NR]; [|left; eexists; split; [|eassumption]; lia].
  assert (SM : forall m', m <= m' -> runs m' -> exists x, nth_error (r_conns (q_rt (f m'))) b = Some x /\ c_alive x = true /\ c_recv x = c_recv x0 /\ step (q_rt (f m')) (ERoute b) = None).
  { intros m' L' RU. destruct (SAME m' ltac:(lia)) as (x & X & EX); [|exact RU|].
    - intros j y o l J1 J2 T. destruct (Nat.lt_ge_cases j m) as [D|D]; [exact (NA j y o l J1 D T)|exact (silent _ _ NS _ _ _ _ D T)].
    - exists x. split; [exact X|]. split; [destruct RU as (z & Z & AZ); congruence|]. split; [exact EX|]. destruct (step (q_rt (f m')) (ERoute b)) as [p|] eqn:S; [|reflexivity]. destruct (NS m' L'). apply can_route. congruence. }
  destruct (c_recv x0) as [[|k todo]|i k todo] eqn:E0; [congruence| |].
  - apply (locking (iid_of (it_msg k)) m); [|lia|exact RM]. intros m' L' RU. destruct (SM m' L' RU) as (x & X & A & EX & S). cbn in S. rewrite X, A in S. unfold step_route in S. rewrite EX in S.
    destruct (locked bk (q_rt (f m')) (iid_of (it_msg k))); [reflexivity|]. destruct (map_get _ _ _) as [i|]; [destruct (iface_strong _ i)|]; discriminate S.
  - apply (holding b i k todo m); [|lia|exact RM]. intros m' L' RU. destruct (SM m' L' RU) as (x & X & _ & EX & _). eauto.
Qed.
Lemma routed_from N it : B0 <= N -> In it (waiting (q_rt (f N)) b) ->
  (exists m, N <= m /\ (In (ERoute b, ORouted it) (rt_trace (t m)) \/ In (ERoute b, ODropped it) (rt_trace (t m)))) \/ concl.
Proof.
  remember (recv_w b (q_rt (f N))) as k eqn:E. revert N E. induction k as [k IH] using lt_wf_ind. intros N -> LB I.
  destruct (runs_dec b N) as [RN|NR]; [|right; left; eexists; split; [|eassumption]; lia]. pose proof I as I0. unfold waiting in I0. destruct (nth_error (r_conns (q_rt (f N))) b) as [x0|] eqn:X0; [|contradiction I0].
  assert (W0 : c_recv x0 <> RWait []) by (intros Q; rewrite Q in I0; exact I0).
  destruct (next_route N x0 LB RN X0 W0) as [(j & x & o' & L & _ & X & EX & S & ET)|C]; [|right; exact C].
  assert (IJ : In it (waiting (q_rt (f j)) b)) by (unfold waiting; rewrite X, EX; exact I0).
  destruct (route_on _ _ _ _ _ S IJ) as [->|[->|[IS LW]]].
  - left. exists (Datatypes.S j). split; [lia|left]. rewrite ET. apply in_app_iff. right. left. reflexivity.
  - left. exists (Datatypes.S j). split; [lia|right]. rewrite ET. apply in_app_iff. right. left. reflexivity.
  - assert (EW : recv_w b (q_rt (f j)) = recv_w b (q_rt (f N))) by (unfold recv_w; rewrite X, X0, EX; reflexivity).
    destruct (IH (recv_w b (q_rt (f (Datatypes.S j)))) ltac:(lia) (Datatypes.S j) eq_refl ltac:(lia) IS) as [(m & LM & C)|C]; [left; exists m; split; [lia|exact C]|right; exact C].
Qed.
(** It reads again. *)
Lemma emptied N : B0 <= N -> (exists m x, N <= m /\ nth_error (r_conns (q_rt (f m))) b = Some x /\ c_alive x = true /\ c_recv x = RWait []) \/ concl.
Proof.
  remember (recv_w b (q_rt (f N))) as k eqn:E. revert N E. induction k as [k IH] using lt_wf_ind. intros N -> LB.
  destruct (runs_dec b N) as [RN|NR]; [|right; left; eexists; split; [|eassumption]; lia]. destruct RN as (x0 & X0 & A0).
  assert (D : c_recv x0 = RWait [] \/ c_recv x0 <> RWait []) by (destruct (c_recv x0) as [[|]|]; first [left; reflexivity|right; discriminate]).
  destruct D as [W0|W0]; [left; exists N, x0; auto|].
  destruct (next_route N x0 LB (ex_intro _ x0 (conj X0 A0)) X0 W0) as [(j & x & o' & L & _ & X & EX & S & _)|C]; [|right; exact C].
  assert (EW : recv_w b (q_rt (f j)) = recv_w b (q_rt (f N))) by (unfold recv_w; rewrite X, X0, EX; reflexivity).
  assert (W : exists it, In it (waiting (q_rt (f j)) b)) by (unfold waiting; rewrite X, EX; destruct (c_recv x0) as [[|i r]|i it r]; [congruence|exists i; left; reflexivity|exists it; left; reflexivity]).
  destruct W as [it W]. pose proof (route_less _ _ _ _ _ S W) as LW.
  destruct (IH (recv_w b (q_rt (f (Datatypes.S j)))) ltac:(lia) (Datatypes.S j) eq_refl ltac:(lia)) as [(m & y & LM & C)|C]; [left; exists m, y; split; [lia|exact C]|right; exact C].
Qed.
End Routed.
Theorem routed c N it : In it (waiting (q_rt (f N)) c) ->
  (exists m, N <= m /\ (In (ERoute c, ORouted it) (rt_trace (t m)) \/ In (ERoute c, ODropped it) (rt_trace (t m)))) \/
  (exists m, N <= m /\ ~ conn_runs (q_rt (f m)) c) \/ left_unread_while f t c.
Proof. exact (routed_from c N N it (le_n _)). Qed.
End Run.
End Locks.
