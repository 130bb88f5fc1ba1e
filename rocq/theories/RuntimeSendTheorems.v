(** Theorems about what the v1 runtime sends, and about connections that end. *)
From Coq Require Import List NArith Bool PeanoNat Lia.
From Verif Require Import BytesModel WireSpec UniverseModel SomeipModel SomeipSpec MapModel EndpointProofs RuntimeModel RuntimeSpec
  RuntimeProofs RuntimeTheorems RuntimePacketTheorems.
Import ListNotations.
Open Scope nat_scope.

Section Locks.
Context (bk : iid -> N) (cbk : N -> N) (dg : bool).
Notation history := (history bk cbk dg).
Notation step := (step bk cbk).
Notation steps := (steps bk cbk).

Ltac cases_in H :=
  repeat (match type of H with
  | context [match ?x with _ => _ end] =>
      lazymatch x with context [match _ with _ => _ end] => fail | _ => destruct x eqn:? end
  end; try discriminate H).
Ltac step_cases H :=
  unfold RuntimeModel.step, step_ep, step_take, step_route, step_stub, i_recv, push_cmd in H; cases_in H;
  injection H as <- <-.
Ltac rcbn := unfold upd_conn, upd_iface, upd_lsnr, upd_stub, upd_proxy, spawn in *;
  cbn [r_open r_datagram r_ep r_listener r_imap r_cmap r_ifaces r_conns r_lsnrs r_stubs r_proxies r_left
       set_ep set_open set_listener set_imap set_cmap set_ifaces set_conns set_lsnrs set_stubs set_proxies set_left] in *.

(** ** What a step does to a connection *)
Definition dead_now (e : event) (o : obs) (c : nat) (x : conn) : Prop :=
  (e = EEnd c /\ o = OUnit) \/ (e = EUnowned c /\ o = OUnit /\ c_out x = None /\ c_cmds x = []) \/
  (exists bs, e = ESocket c false /\ o = ORefused bs /\ c_out x = Some bs).
Inductive cchange (s : rt) (e : event) (o : obs) (s' : rt) (c : nat) : Prop :=
| cc_none : nth_error (r_conns s) c = None -> nth_error (r_conns s') c = None -> cchange s e o s' c
| cc_new a : c = length (r_conns s) -> nth_error (r_conns s') c = Some (new_conn a) -> o = OSpawned c a -> cchange s e o s' c
| cc_same x x' : nth_error (r_conns s) c = Some x -> nth_error (r_conns s') c = Some x' -> c_addr x' = c_addr x -> c_alive x' = c_alive x ->
    c_cmds x' = c_cmds x -> c_out x' = c_out x -> (forall m, o <> OOk c m) -> (forall ok, e <> ESocket c ok) -> cchange s e o s' c
| cc_push x x' q : nth_error (r_conns s) c = Some x -> nth_error (r_conns s') c = Some x' -> c_addr x' = c_addr x ->
    c_alive x = true -> c_alive x' = true -> c_cmds x = [] -> c_cmds x' = [q] -> c_out x' = c_out x ->
    match q with CMsg m => o = OOk c m | CTake _ _ => forall d m, o <> OOk d m end -> (forall d ok, e <> ESocket d ok) -> cchange s e o s' c
| cc_take x x' q r : nth_error (r_conns s) c = Some x -> nth_error (r_conns s') c = Some x' -> c_addr x' = c_addr x ->
    c_alive x = true -> c_alive x' = true -> e = ESender c -> o = OUnit -> c_out x = None -> c_cmds x = q :: r -> c_cmds x' = r ->
    c_out x' = match q with CMsg m => Some (encode m) | CTake _ _ => None end -> cchange s e o s' c
| cc_sent x x' bs : nth_error (r_conns s) c = Some x -> nth_error (r_conns s') c = Some x' -> c_addr x' = c_addr x ->
    c_alive x = true -> c_alive x' = true -> e = ESocket c true -> o = OSent bs -> c_out x = Some bs -> c_out x' = None ->
    c_cmds x' = c_cmds x -> cchange s e o s' c
| cc_end x : nth_error (r_conns s) c = Some x -> nth_error (r_conns s') c = Some (end_conn x) -> c_alive x = true ->
    dead_now e o c x -> cchange s e o s' c.

Lemma same_conns s e o s' c : r_conns s' = r_conns s -> (forall m, o <> OOk c m) -> (forall ok, e <> ESocket c ok) -> cchange s e o s' c.
Proof.
  intros E O F. destruct (nth_error (r_conns s) c) as [x|] eqn:X.
  - eapply cc_same; try eassumption; try reflexivity. rewrite E. exact X.
  - apply cc_none; [exact X|]. rewrite E. exact X.
Qed.
Lemma new_conns s e o s' a c : r_conns s' = r_conns s ++ [new_conn a] -> o = OSpawned (length (r_conns s)) a -> (forall d ok, e <> ESocket d ok) -> cchange s e o s' c.
Proof.
  intros E -> F. destruct (Nat.lt_trichotomy c (length (r_conns s))) as [L|[->|L]].
  - destruct (nth_error (r_conns s) c) as [x|] eqn:X; [|apply nth_error_None in X; lia].
    eapply cc_same; try eassumption; try reflexivity; [|discriminate|intros; apply F]. rewrite E. apply nth_snoc_old. exact X.
  - eapply cc_new; [reflexivity| |reflexivity]. rewrite E. apply nth_snoc_new.
  - apply cc_none; apply nth_error_None; [lia|]. rewrite E, app_length. cbn. lia.
Qed.
Lemma upd_conns s e o s' d f x c : r_conns s' = upd d f (r_conns s) -> nth_error (r_conns s) d = Some x ->
  (c <> d -> (forall m, o <> OOk c m) /\ (forall ok, e <> ESocket c ok)) ->
  (nth_error (r_conns s') d = Some (f x) -> cchange s e o s' d) -> cchange s e o s' c.
Proof.
  intros E X O K. destruct (Nat.eq_dec c d) as [->|D].
  - apply K. rewrite E, nth_upd_same, X. reflexivity.
  - destruct (O D) as [O1 O2]. destruct (nth_error (r_conns s) c) as [z|] eqn:Z.
    + eapply cc_same with (x := z) (x' := z); try assumption; try reflexivity. rewrite E, nth_upd_other by exact D. exact Z.
    + apply cc_none; [exact Z|]. rewrite E, nth_upd_other by exact D. exact Z.
Qed.
Ltac unchanged := solve [eapply cc_same; [eassumption|eassumption|reflexivity|reflexivity|reflexivity|reflexivity|discriminate|discriminate]].
Lemma step_cchange s e o s' c : step s e = Some (s', o) -> cchange s e o s' c.
Proof.
  intros H. destruct e; step_cases H.
  all: try solve [apply same_conns; [reflexivity|discriminate|discriminate]].
  all: try solve [eapply new_conns; [reflexivity|reflexivity|discriminate]].
  all: eapply upd_conns; [reflexivity|eassumption|
    intros; split; intros; first [discriminate | (let E := fresh in intros E; injection E; congruence)]|intros Hn].
  all: try unchanged.
  all: try match goal with H : (length ?l <? 1) = true |- _ => apply Nat.ltb_lt in H; destruct l eqn:?; [clear H|cbn in H; lia] end.
  all: try solve [eapply cc_push; [eassumption|eassumption|reflexivity|eassumption|eassumption|eassumption|reflexivity|reflexivity|cbn; first [reflexivity|discriminate]|discriminate]].
  all: try solve [eapply cc_take; [eassumption|eassumption|reflexivity|eassumption|eassumption|reflexivity|reflexivity|eassumption|eassumption|reflexivity|cbn; first [reflexivity|eassumption]]].
  all: try solve [eapply cc_sent; [eassumption|eassumption|reflexivity|eassumption|eassumption|reflexivity|reflexivity|eassumption|reflexivity|reflexivity]].
  all: try solve [eapply cc_end; [eassumption|eassumption|eassumption|unfold dead_now; eauto 10]].
Qed.

(** ** First in, first out *)
Lemma accepted_snoc c tr e o : accepted c (tr ++ [(e, o)]) = accepted c tr ++ match o with OOk d m => if d =? c then [m] else [] | _ => [] end.
Proof. unfold accepted. rewrite flat_map_app. cbn. rewrite app_nil_r. reflexivity. Qed.
Lemma sent_snoc c tr e o : sent c (tr ++ [(e, o)]) = sent c tr ++ match e, o with ESocket d _, OSent bs => if d =? c then [bs] else [] | _, _ => [] end.
Proof. unfold sent. rewrite flat_map_app. cbn [flat_map]. rewrite app_nil_r. f_equal. Qed.
Lemma rejected_snoc c tr e o : rejected c (tr ++ [(e, o)]) = rejected c tr ++ match e, o with ESocket d _, ORefused bs => if d =? c then [bs] else [] | _, _ => [] end.
Proof. unfold rejected. rewrite flat_map_app. cbn [flat_map]. rewrite app_nil_r. f_equal. Qed.
Definition msgs (q : list ccmd) : list msg := flat_map (fun x => match x with CMsg m => [m] | CTake _ _ => [] end) q.
Definition opt {A} (o : option A) : list A := match o with Some x => [x] | None => [] end.

Definition fate (tr : list (event * obs)) (c : nat) (x : option conn) : Prop :=
  match x with
  | None => accepted c tr = [] /\ sent c tr = [] /\ rejected c tr = [] /\ (forall a, ~ opened c a tr)
  | Some x =>
      if c_alive x
      then map encode (accepted c tr) = sent c tr ++ opt (c_out x) ++ map encode (msgs (c_cmds x)) /\ length (c_cmds x) <= 1 /\ rejected c tr = []
      else exists rest, map encode (accepted c tr) = sent c tr ++ rejected c tr ++ rest /\ length (rejected c tr ++ rest) <= 2 /\
           (In (EEnd c, OUnit) tr \/ (exists bs, rejected c tr = [bs]) \/ (In (EUnowned c, OUnit) tr /\ rejected c tr = [] /\ rest = []))
  end.
Lemma quiet_trace c tr e o : (forall m, o <> OOk c m) -> (forall ok, e <> ESocket c ok) ->
  accepted c (tr ++ [(e, o)]) = accepted c tr /\ sent c (tr ++ [(e, o)]) = sent c tr /\ rejected c (tr ++ [(e, o)]) = rejected c tr.
Proof.
  intros O E. rewrite accepted_snoc, sent_snoc, rejected_snoc. repeat split.
  - destruct o; try apply app_nil_r. destruct (c0 =? c) eqn:X; [|apply app_nil_r]. apply Nat.eqb_eq in X. subst. destruct (O m eq_refl).
  - destruct e; try apply app_nil_r. destruct o; try apply app_nil_r. destruct (c0 =? c) eqn:X; [|apply app_nil_r]. apply Nat.eqb_eq in X. subst. destruct (E ok eq_refl).
  - destruct e; try apply app_nil_r. destruct o; try apply app_nil_r. destruct (c0 =? c) eqn:X; [|apply app_nil_r]. apply Nat.eqb_eq in X. subst. destruct (E ok eq_refl).
Qed.
Lemma fates tr s : history tr s -> forall c, fate tr c (nth_error (r_conns s) c).
Proof.
  induction 1 as [|tr s e s' o H IH ST]; intros c.
  - cbn. destruct c; cbn; repeat split; intros a [e []].
  - specialize (IH c). pose proof (step_cchange _ _ _ _ c ST) as CC. destruct CC as
      [X X'|a L X' O|x x' X X' A AL Q O O1 O2|x x' q X X' A A1 A2 Q1 Q2 O EO EE|x x' q r X X' A A1 A2 -> -> O1 Q1 Q2 O2
      |x x' bs X X' A A1 A2 -> -> O1 O2 Q|x X X' A1 D].
    + rewrite X in IH. rewrite X'. cbn in *.
      assert (N1 : forall m, o <> OOk c m). { intros m ->. step_cases ST.
      all: match goal with H : nth_error (r_conns _) ?d = Some _ |- _ => rewrite H in X; discriminate X end. }
      assert (N2 : forall ok, e <> ESocket c ok). { intros ok ->. cbn in ST. rewrite X in ST. discriminate ST. }
      assert (N3 : forall a, o <> OSpawned c a). { intros a ->. destruct (spawned_is _ _ _ _ _ _ (step_view _ _ _ _ _ _ ST)) as (y & Y & _).
        cbn in Y. rewrite nth_error_map, X' in Y. discriminate Y. }
      destruct (quiet_trace c tr e o N1 N2) as (-> & -> & ->). destruct IH as (I1 & I2 & I3 & I4). repeat split; try assumption.
      intros a [e0 I]. apply in_app_iff in I. destruct I as [I|[I|[]]]; [apply (I4 a); exists e0; exact I|]. injection I as _ ->. apply (N3 a eq_refl).
    + subst o. assert (X : nth_error (r_conns s) c = None) by (subst c; apply nth_length_none). rewrite X in IH. rewrite X'. cbn in *.
      destruct (quiet_trace c tr e (OSpawned c a)) as (-> & -> & ->); [discriminate|intros ok ->; cbn in ST; rewrite X in ST; discriminate ST|].
      destruct IH as (-> & -> & -> & _). repeat split. lia.
    + rewrite X in IH. rewrite X'. cbn in *. destruct (quiet_trace c tr e o O1 O2) as (E1 & E2 & E3).
      rewrite AL. destruct (c_alive x); [rewrite E1, E2, E3, Q, O; exact IH|].
      destruct IH as (rest & I1 & I2 & I3). exists rest. rewrite E1, E2, E3. split; [exact I1|]. split; [exact I2|].
      rewrite !in_app_iff. tauto.
    + rewrite X in IH. rewrite X'. cbn in *. rewrite A1 in IH. rewrite A2. destruct IH as (I1 & I2 & I3).
      rewrite Q1 in *. rewrite Q2, O. cbn. rewrite accepted_snoc, sent_snoc, rejected_snoc.
      replace (match e, o with ESocket d _, OSent bs => if d =? c then [bs] else [] | _, _ => [] end) with (@nil (list N)) by (destruct e; try reflexivity; destruct (EE c0 ok eq_refl)).
      replace (match e, o with ESocket d _, ORefused bs => if d =? c then [bs] else [] | _, _ => [] end) with (@nil (list N)) by (destruct e; try reflexivity; destruct (EE c0 ok eq_refl)).
      rewrite !app_nil_r. split; [|split; [lia|exact I3]].
      cbn in I1. rewrite app_nil_r in I1. destruct q as [m|id i].
      * subst o. rewrite Nat.eqb_refl, map_app, I1. cbn. rewrite <- app_assoc. reflexivity.
      * replace (match o with OOk d m => if d =? c then [m] else [] | _ => [] end) with (@nil msg) by (destruct o; try reflexivity; destruct (EO c0 m eq_refl)).
        rewrite app_nil_r, I1. cbn. rewrite app_nil_r. reflexivity.
    + rewrite X in IH. rewrite X'. cbn in *. rewrite A1 in IH. rewrite A2.
      destruct (quiet_trace c tr (ESender c) OUnit) as (-> & -> & ->); [discriminate|discriminate|].
      destruct IH as (I1 & I2 & I3). rewrite Q1 in *. rewrite Q2, O2. rewrite O1 in I1. cbn in I1, I2. split; [|split; [lia|exact I3]].
      destruct q; cbn in *; exact I1.
    + rewrite X in IH. rewrite X'. cbn in *. rewrite A1 in IH. rewrite A2. destruct IH as (I1 & I2 & I3).
      rewrite accepted_snoc, sent_snoc, rejected_snoc, Nat.eqb_refl, !app_nil_r, O2, Q. rewrite O1 in I1. split; [|split; [lia|exact I3]].
      rewrite I1, <- !app_assoc. reflexivity.
    + rewrite X in IH. rewrite X'. cbn in *. rewrite A1 in IH. destruct IH as (I1 & I2 & I3).
      destruct D as [[-> ->]|[(-> & -> & D1 & D2)|(bs & -> & -> & D1)]].
      * destruct (quiet_trace c tr (EEnd c) OUnit) as (-> & -> & ->); [discriminate|discriminate|].
        exists (opt (c_out x) ++ map encode (msgs (c_cmds x))). rewrite I3. split; [exact I1|]. split; [|left; apply in_app_iff; right; left; reflexivity].
        cbn. rewrite app_length, map_length. destruct (c_cmds x) as [|[m|id i] [|]], (c_out x); cbn in *; lia.
      * destruct (quiet_trace c tr (EUnowned c) OUnit) as (-> & -> & ->); [discriminate|discriminate|].
        exists []. rewrite D1, D2 in I1. cbn in I1. rewrite I3. cbn. split; [exact I1|]. split; [lia|]. right. right.
        split; [apply in_app_iff; right; left; reflexivity|split; reflexivity].
      * rewrite accepted_snoc, sent_snoc, rejected_snoc, Nat.eqb_refl, !app_nil_r, I3. cbn.
        exists (map encode (msgs (c_cmds x))). rewrite D1 in I1. split; [exact I1|]. split; [|right; left; exists bs; reflexivity].
        destruct (c_cmds x) as [|[m|id i] [|]]; cbn in *; lia.
Qed.
Lemma fifo_sends tr s c : history tr s ->
  exists lost, map encode (accepted c tr) = sent c tr ++ rejected c tr ++ lost /\ length (rejected c tr ++ lost) <= 2 /\
  (conn_runs s c -> rejected c tr = []).
Proof.
  intros H. pose proof (fates _ _ H c) as F. destruct (nth_error (r_conns s) c) as [x|] eqn:X; cbn in F.
  - destruct (c_alive x) eqn:A.
    + destruct F as (F1 & F2 & F3). exists (opt (c_out x) ++ map encode (msgs (c_cmds x))). rewrite F3. split; [exact F1|]. split; [|reflexivity].
      cbn. rewrite app_length, map_length. destruct (c_cmds x) as [|[m|id i] [|]], (c_out x); cbn in *; lia.
    + destruct F as (rest & F1 & F2 & F3). exists rest. split; [exact F1|]. split; [exact F2|].
      intros (y & Y & Z). rewrite X in Y. injection Y as <-. congruence.
  - destruct F as (-> & -> & -> & _). exists []. cbn. split; [reflexivity|]. split; [lia|reflexivity].
Qed.
Lemma why_ended tr s c a : history tr s -> opened c a tr -> ~ conn_runs s c ->
  In (EEnd c, OUnit) tr \/ (exists bs, In (ESocket c false, ORefused bs) tr) \/
  (In (EUnowned c, OUnit) tr /\ sent c tr = map encode (accepted c tr)).
Proof.
  intros H O R. pose proof (fates _ _ H c) as F. destruct (nth_error (r_conns s) c) as [x|] eqn:X; cbn in F.
  - destruct (c_alive x) eqn:A; [destruct R; exists x; split; assumption|]. destruct F as (rest & F1 & F2 & F3).
    destruct F3 as [F3|[[bs F3]|(F3 & F4 & F5)]]; [left; exact F3| |].
    + right. left. exists bs. clear - H F3. assert (I : In bs (rejected c tr)) by (rewrite F3; left; reflexivity). clear F3.
      unfold rejected in I. apply in_flat_map in I. destruct I as [[e o] [I J]].
      destruct e; try contradiction. destruct o; try contradiction. destruct (c0 =? c) eqn:E; [|contradiction]. apply Nat.eqb_eq in E. subst c0.
      destruct J as [<-|[]]. destruct ok; [|exact I]. exfalso. revert I. clear - H. induction H as [|tr s e s' o H IH ST]; [intros []|].
      intros I. apply in_app_iff in I. destruct I as [I|[I|[]]]; [exact (IH I)|]. injection I as -> ->. step_cases ST.
    + right. right. split; [exact F3|]. rewrite F1, F4, F5. cbn. rewrite app_nil_r. reflexivity.
  - destruct F as (_ & _ & _ & F). destruct (F a O).
Qed.

(** ** After a connection ended *)
Lemma ended_step s e o s' c x : step s e = Some (s', o) -> nth_error (r_conns s) c = Some x -> c_alive x = false ->
  (exists x', nth_error (r_conns s') c = Some x' /\ c_alive x' = false) /\
  (forall m, o <> OOk c m) /\ (forall ok, e <> ESocket c ok) /\ (forall bs, e <> EPacket c bs).
Proof.
  intros ST X D. assert (E : forall bs, e <> EPacket c bs). { intros bs ->. cbn in ST. rewrite X, D in ST. discriminate ST. }
  destruct (step_cchange _ _ _ _ c ST) as
      [Y X'|a L X' O|y x' Y X' A AL Q O O1 O2|y x' q Y X' A A1 A2 Q1 Q2 O EO EE|y x' q r Y X' A A1 A2 -> -> O1 Q1 Q2 O2
      |y x' bs Y X' A A1 A2 -> -> O1 O2 Q|y Y X' A1 DD]; try congruence.
  - subst c. rewrite nth_length_none in X. discriminate X.
  - rewrite X in Y. injection Y as <-. split; [exists x'; split; congruence|]. split; [exact O1|]. split; [exact O2|exact E].
Qed.
Lemma ended_silent s1 tr s2 c x : steps s1 tr s2 -> nth_error (r_conns s1) c = Some x -> c_alive x = false ->
  ~ conn_runs s2 c /\ accepted c tr = [] /\ sent c tr = [] /\ (forall bs o, ~ In (EPacket c bs, o) tr).
Proof.
  intros S. revert x. induction S as [s|s e o s' tr s2 ST S IH]; intros x X D.
  - split; [|repeat split; intros bs o []]. intros (y & Y & A). congruence.
  - destruct (ended_step _ _ _ _ _ _ ST X D) as ((x' & X' & D') & O1 & O2 & O3). destruct (IH _ X' D') as (I1 & I2 & I3 & I4).
    split; [exact I1|]. change ((e, o) :: tr) with ([] ++ [(e, o)] ++ tr).
    assert (Q := quiet_trace c [] e o O1 O2). destruct Q as (Q1 & Q2 & _). cbn [app] in *.
    unfold accepted, sent in *. cbn [flat_map]. cbn [flat_map app] in Q1, Q2. rewrite app_nil_r in Q1, Q2. rewrite Q1, Q2.
    split; [exact I2|]. split; [exact I3|]. intros bs o0 [I|I]; [|exact (I4 _ _ I)]. injection I as -> _. exact (O3 bs eq_refl).
Qed.
Lemma after_refusal tr1 c bs tr2 s : history (tr1 ++ (ESocket c false, ORefused bs) :: tr2) s ->
  ~ conn_runs s c /\ accepted c tr2 = [] /\ sent c tr2 = [] /\ (forall b o, ~ In (EPacket c b, o) tr2).
Proof.
  intros H. destruct (history_split _ _ _ _ _ H _ _ eq_refl) as (s1 & H1 & S). inversion S as [|? ? ? s2 ? ? ST S2]; subst.
  assert (exists x, nth_error (r_conns s2) c = Some x /\ c_alive x = false) as (x & X & D).
  { cbn in ST. destruct (nth_error (r_conns s1) c) as [x|] eqn:X; [|discriminate ST]. destruct (c_alive x), (c_out x); try discriminate ST.
    injection ST as <- <-. exists (end_conn x). split; [|reflexivity]. cbn. rewrite nth_upd_same, X. reflexivity. }
  eapply ended_silent; eassumption.
Qed.
Lemma send_not_connected tr s n m : history tr s -> proxy_exists s n -> ~ proxy_connected s n ->
  step s (EProxySend n m) = Some (s, OError).
Proof.
  intros H (p & P & A) C. cbn. rewrite P, A. unfold push_cmd.
  assert (L := v_pcn _ (in4 _ _ _ (history_inv _ _ _ _ _ H)) n p P). cbn in L. rewrite map_length in L.
  destruct (nth_error (r_conns s) (px_conn p)) as [x|] eqn:X; [|apply nth_error_None in X; lia].
  destruct (c_alive x) eqn:D; [|reflexivity]. destruct C. exists p. split; [exact P|]. exists x. split; assumption.
Qed.

(** What a connection or a listener owns is what it was given for a proxy or a stub. *)
Record Own (A : av) : Prop := {
  own_conn : forall c x id i, nth_error (a_conns A) c = Some x -> In (id, i) (v_local x) \/ In (id, i) (v_takes x) ->
    exists n p, nth_error (a_proxies A) n = Some p /\ px_iface p = i /\ px_conn p = c;
  own_lsnr : forall l x id i, nth_error (a_lsnrs A) l = Some x -> In (id, i) (vl_local x) \/ In (id, i) (vl_cmds x) ->
    exists n t, nth_error (a_stubs A) n = Some t /\ vs_iface t = i /\ vs_lst t = l }.
Ltac acbn := cbn [a_ep a_imap a_ifaces a_conns a_lsnrs a_stubs a_proxies set_vep set_vimap set_vifaces set_vconns
                  set_vlsnrs set_vstubs set_vproxies v_addr v_alive v_takes v_local v_recv v_count vl_alive vl_cmds vl_local
                  vs_iface vs_lst vs_alive v_with_recv v_with_takes v_with_local v_end v_new v_pack vs_end px_iface px_conn px_remote px_alive end_proxy] in *.
Ltac split_nth := acbn;
  repeat match goal with
  | H : nth_error (upd _ _ _) _ = Some _ |- _ => apply upd_is in H; destruct H as [[? H]|[? (? & ? & ?)]]; try subst
  | H : nth_error (_ ++ [_]) _ = Some _ |- _ => apply nth_snoc in H; destruct H as [H|[? ?]]; try subst
  end; acbn.
Ltac same_nth :=
  repeat match goal with
  | H : nth_error ?l ?n = Some ?x, K : nth_error ?l ?n = Some ?y |- _ =>
      tryif constr_eq x y then fail else (assert (x = y) by congruence; subst y)
  end.
Lemma Own_step A e o A' : Own A -> astep bk A e o A' -> Own A'.
Proof.
  intros [C L] S. constructor.
  - intros c x id i X I.
    assert (K : (exists n p, nth_error (a_proxies A) n = Some p /\ px_iface p = i /\ px_conn p = c) ->
      exists n p, nth_error (a_proxies A') n = Some p /\ px_iface p = i /\ px_conn p = c).
    { intros (n & p & P & P1 & P2). destruct (proxy_later _ _ _ _ _ _ _ S P) as (p' & P' & E1 & E2 & E3). exists n, p'. split; [exact P'|split; congruence]. }
    inversion S; subst; clear S; split_nth; same_nth; try solve [apply K; eapply C; [eassumption|eassumption]].
    all: try solve [destruct I as [[]|[]]].
    + destruct I as [I|I]; [apply K; eapply C; [eassumption|left; eassumption]|]. apply in_app_iff in I. destruct I as [I|[I|[]]].
      * apply K; eapply C; [eassumption|right; eassumption].
      * injection I as <- <-. exists (length (a_proxies A)), (mkP i0 c0 a true). split; [apply nth_snoc_new|split; reflexivity].
    + destruct I as [I|I].
      * apply in_insert in I. destruct I as [I|I]; [|apply K; eapply C; [eassumption|left; eassumption]]. injection I as -> ->.
        apply K. eapply C; [eassumption|right]. match goal with H : v_takes _ = _ |- _ => rewrite H end. left. reflexivity.
      * apply K. eapply C; [eassumption|right]. match goal with H : v_takes _ = _ |- _ => rewrite H end. right. eassumption.
  - intros c x id i X I.
    assert (K : (exists n p, nth_error (a_stubs A) n = Some p /\ vs_iface p = i /\ vs_lst p = c) ->
      exists n p, nth_error (a_stubs A') n = Some p /\ vs_iface p = i /\ vs_lst p = c).
    { intros (n & p & P & P1 & P2). destruct (stub_later _ _ _ _ _ _ _ S P) as (p' & P' & E1 & E2). exists n, p'. split; [exact P'|split; congruence]. }
    inversion S; subst; clear S; split_nth; same_nth; try solve [apply K; eapply L; [eassumption|eassumption]].
    all: try solve [destruct I as [[]|[]]].
    + destruct I as [I|I]; [apply K; eapply L; [eassumption|left; eassumption]|]. apply in_app_iff in I. destruct I as [I|[I|[]]].
      * apply K; eapply L; [eassumption|right; eassumption].
      * injection I as <- <-. eexists (length (a_stubs A)), _. split; [apply nth_snoc_new|split; reflexivity].
    + destruct I as [I|I].
      * apply in_insert in I. destruct I as [I|I]; [|apply K; eapply L; [eassumption|left; eassumption]]. injection I as -> ->.
        apply K. eapply L; [eassumption|right]. match goal with H : vl_cmds _ = _ |- _ => rewrite H end. left. reflexivity.
      * apply K. eapply L; [eassumption|right]. match goal with H : vl_cmds _ = _ |- _ => rewrite H end. right. eassumption.
Qed.
Lemma owned tr s : history tr s -> Own (view s).
Proof.
  induction 1 as [|tr s e s' o H IH ST].
  - constructor; intros [|c] x id i X; discriminate X.
  - eapply Own_step; [exact IH|]. apply step_view with (cbk := cbk). exact ST.
Qed.

Lemma not_strong tr s i k b : history tr s -> reads_from (view s) i k b ->
  (forall c x id, nth_error (r_conns s) c = Some x -> ~ (In (id, i) (c_local x) \/ In (id, i) (takes (c_cmds x)))) ->
  (forall l x id, nth_error (r_lsnrs s) l = Some x -> ~ (In (id, i) (l_local x) \/ In (id, i) (l_cmds x))) ->
  (forall id, idof (view s) i = Some id -> ~ handing_over s id) -> iface_strong s i = false.
Proof.
  intros H R C L N. rewrite strong_view. destruct (a_strong (view s) i) eqn:E; [exfalso|reflexivity].
  pose proof (history_inv _ _ _ _ _ H) as V. apply (strong_held bk _ _ (in1 _ _ _ V)) in E. destruct E as (id & E).
  assert (Ei := v_ids _ _ (in1 _ _ _ V) _ _ E).
  destruct E as [c x X I|c x X I|c x it todo X I F|l x X I|l x X I|o X]; cbn in X; rewrite ?nth_error_map in X.
  - destruct (nth_error (r_conns s) c) as [y|] eqn:Y; [|discriminate]. injection X as <-. cbn in I. eapply C; [exact Y|left; exact I].
  - destruct (nth_error (r_conns s) c) as [y|] eqn:Y; [|discriminate]. injection X as <-. cbn in I. eapply C; [exact Y|right; exact I].
  - destruct (nth_error (r_conns s) c) as [y|] eqn:Y; [|discriminate]. injection X as <-. cbn in I. apply (N id Ei). exists c, y, i, it, todo. auto.
  - destruct (nth_error (r_lsnrs s) l) as [y|] eqn:Y; [|discriminate]. injection X as <-. cbn in I. eapply L; [exact Y|left; exact I].
  - destruct (nth_error (r_lsnrs s) l) as [y|] eqn:Y; [|discriminate]. injection X as <-. cbn in I. eapply L; [exact Y|right; exact I].
  - destruct (v_taking _ (in3 _ _ _ V) _ _ _ X) as (_ & T). exact (T _ _ R).
Qed.
Lemma nth_map {A B} (f : A -> B) l n y : nth_error (map f l) n = Some y -> exists x, nth_error l n = Some x /\ y = f x.
Proof. rewrite nth_error_map. destruct (nth_error l n) as [x|]; [|discriminate]. intros E. injection E as <-. exists x. auto. Qed.
Lemma proxy_closed tr s n id a : history tr s -> proxied n id a tr -> proxy_exists s n -> ~ proxy_connected s n ->
  proxy_backlog s n = [] -> ~ handing_over s id -> step s (EProxyRecv n) = Some (s, OClosed).
Proof.
  intros H PR (p & P & A) C B N. pose proof (history_inv _ _ _ _ _ H) as V. pose proof (owned _ _ H) as [OC OL].
  assert (R : reads_from (view s) (px_iface p) (RProxy n) (px_alive p)) by (eapply rf_proxy; [exact P|reflexivity]).
  assert (D : forall c x, nth_error (r_conns s) c = Some x -> px_conn p = c -> takes (c_cmds x) = [] /\ c_local x = []).
  { intros c x X Ec. destruct (c_alive x) eqn:Ax; [destruct C; exists p; split; [exact P|]; exists x; subst c; split; assumption|].
    assert (Y := nth_vc s c x X). destruct (v_dead _ _ (in1 _ _ _ V) _ _ Y Ax) as (D1 & D2 & _). split; [exact D1|exact D2]. }
  assert (S : iface_strong s (px_iface p) = false).
  { apply (not_strong _ _ _ _ _ H R).
    - intros c x id' X I. destruct (OC c (vc x) id' (px_iface p)) as (n' & p' & P' & E1 & E2); [apply nth_vc; exact X|cbn; tauto|].
      assert (Q : RProxy n = RProxy n') by (eapply (v_uniq _ (in3 _ _ _ V)); [exact R|eapply rf_proxy; [exact P'|exact E1]]).
      injection Q as <-. assert (p' = p) by (cbn in P'; congruence). subst p'. destruct (D c x X E2) as (D1 & D2). rewrite D1, D2 in I.
      destruct I as [[]|[]]. 
    - intros l x id' X I. destruct (OL l (vl x) id' (px_iface p)) as (n' & p' & P' & E1 & E2); [apply nth_vl; exact X|cbn; tauto|].
      assert (Q : RProxy n = RStub n') by (eapply (v_uniq _ (in3 _ _ _ V)); [exact R|eapply rf_stub; [exact P'|exact E1]]). discriminate Q.
    - intros id' E. destruct (v_proxied _ _ (in6 _ _ _ V) n id a PR) as (p' & P' & _ & E'). cbn in P'.
      assert (p' = p) by congruence. subst p'. assert (id' = id) by congruence. subst id'. exact N. }
  cbn. rewrite P, A. unfold i_recv. unfold proxy_backlog in B. rewrite P in B.
  destruct (v_rx _ (in3 _ _ _ V) _ _ _ R) as (y & Y & _). cbn in Y. rewrite Y in *. rewrite B, S. reflexivity.
Qed.
Lemma stub_closed tr s n t id : history tr s -> served n id tr -> nth_error (r_stubs s) n = Some t -> st_alive t = true -> st_pc t = SFree ->
  ~ stub_listening s n -> stub_backlog s n = [] -> ~ handing_over s id -> step s (ERecvFrom n) = Some (s, OClosed).
Proof.
  intros H PR P A F C B N. pose proof (history_inv _ _ _ _ _ H) as V. pose proof (owned _ _ H) as [OC OL].
  assert (R : reads_from (view s) (st_iface t) (RStub n) (st_alive t)) by (eapply rf_stub with (t := vs t); [apply nth_vs; exact P|reflexivity]).
  assert (S : iface_strong s (st_iface t) = false).
  { apply (not_strong _ _ _ _ _ H R).
    - intros c x id' X I. destruct (OC c (vc x) id' (st_iface t)) as (n' & p' & P' & E1 & E2); [apply nth_vc; exact X|cbn; tauto|].
      assert (Q : RStub n = RProxy n') by (eapply (v_uniq _ (in3 _ _ _ V)); [exact R|eapply rf_proxy; [exact P'|exact E1]]). discriminate Q.
    - intros l x id' X I. destruct (OL l (vl x) id' (st_iface t)) as (n' & p' & P' & E1 & E2); [apply nth_vl; exact X|cbn; tauto|].
      assert (Q : RStub n = RStub n') by (eapply (v_uniq _ (in3 _ _ _ V)); [exact R|eapply rf_stub; [exact P'|exact E1]]).
      injection Q as <-. assert (p' = vs t) by (rewrite (nth_vs _ _ _ P) in P'; congruence). subst p'. cbn in E2.
      destruct (l_alive x) eqn:Ax; [destruct C; exists t, x; subst l; auto|].
      destruct (v_ldead _ _ (in1 _ _ _ V) _ _ (nth_vl s l x X) Ax) as (D1 & D2). cbn in D1, D2. rewrite D1, D2 in I. destruct I as [[]|[]].
    - intros id' E. destruct (stub_of_served _ _ _ _ _ V PR) as (t' & P' & E').
      assert (t' = t) by congruence. subst t'. assert (id' = id) by congruence. subst id'. exact N. }
  cbn. rewrite P, A, F. unfold i_recv. unfold stub_backlog in B. rewrite P in B.
  destruct (v_rx _ (in3 _ _ _ V) _ _ _ R) as (y & Y & _). cbn in Y. rewrite Y in *. rewrite B, S. reflexivity.
Qed.

(** ** Packets *)
Lemma malformed_dropped s c bs : conn_runs s c -> waiting s c = [] -> decode bs = None -> step s (EPacket c bs) = Some (s, OUnit).
Proof.
  intros (x & X & A) W D. unfold waiting in W. cbn. rewrite X in *. rewrite A. destruct (c_recv x) as [todo|]; [|discriminate W]. subst todo. rewrite D. reflexivity.
Qed.
Lemma number_msgs c a k ms : map it_msg (number c a k ms) = ms.
Proof. revert k. induction ms as [|m ms IH]; intros k; [reflexivity|]. cbn. rewrite IH. reflexivity. Qed.
Lemma packet_taken s c bs ms : conn_runs s c -> waiting s c = [] -> decode bs = Some ms ->
  exists s', step s (EPacket c bs) = Some (s', OUnit) /\ conn_runs s' c /\ map it_msg (waiting s' c) = ms.
Proof.
  intros (x & X & A) W D. unfold waiting in *. cbn. rewrite X in *. rewrite A. destruct (c_recv x) as [todo|]; [|discriminate W]. subst todo. rewrite D.
  eexists. split; [reflexivity|]. unfold conn_runs. cbn. rewrite nth_upd_same, X. cbn. split; [eexists; split; [reflexivity|exact A]|]. apply number_msgs.
Qed.
Lemma spoiled_packet s c ms tail : conn_runs s c -> waiting s c = [] -> Forall ordinary ms -> bytes_ok tail -> tail <> [] ->
  (len tail < 16 \/ (exists sv me L rest, L < 8 /\ tail = be 2 sv ++ be 2 me ++ be 4 L ++ rest))%N ->
  step s (EPacket c (concat (map s_form ms) ++ tail)) = Some (s, OUnit).
Proof. intros C W O B T S. apply malformed_dropped; [exact C|exact W|]. apply packet_spoiled; assumption. Qed.
Lemma good_packet s c ms : conn_runs s c -> waiting s c = [] -> Forall ordinary ms ->
  exists s', step s (EPacket c (concat (map s_form ms))) = Some (s', OUnit) /\ conn_runs s' c /\ map it_msg (waiting s' c) = ms.
Proof. intros C W O. apply packet_taken; [exact C|exact W|]. apply packet_all. exact O. Qed.
End Locks.
