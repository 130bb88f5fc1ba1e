(** Theorems about the channel of endpoint commands. *)
From Coq Require Import Permutation List NArith Bool PeanoNat Lia Wf_nat.
From Verif Require Import BytesModel SomeipModel MapModel RuntimeModel RuntimeSpec RuntimeProofs RuntimeCallTheorems ExchangeRestTheorems
  QueueModel QueueSpec.
Import ListNotations.
Open Scope nat_scope.

Section Locks.
Context (bk : iid -> N) (cbk : N -> N) (dg : bool).
Notation history := (history bk cbk dg).
Notation step := (step bk cbk).
Notation steps := (steps bk cbk).
Notation qstep := (qstep bk cbk).
Notation qsteps := (qsteps bk cbk).
Notation qhistory := (qhistory bk cbk dg).

Ltac cases_in H :=
  repeat (match type of H with
  | context [match ?x with _ => _ end] =>
      lazymatch x with context [match _ with _ => _ end] => fail | _ => destruct x eqn:? end
  end; try discriminate H).
Ltac step_cases H :=
  unfold RuntimeModel.step, step_ep, step_take, step_route, step_stub, i_recv, push_cmd in H; cases_in H;
  injection H as <- <-.
Ltac rcbn := unfold upd_conn, upd_iface, upd_lsnr, upd_stub, upd_proxy, spawn in *;
  cbn [r_open r_datagram r_ep r_listener r_imap r_cmap r_ifaces r_conns r_lsnrs r_stubs r_proxies r_left
       set_ep set_open set_listener set_imap set_cmap set_ifaces set_conns set_lsnrs set_stubs set_proxies set_left
       st_iface st_lst st_conns st_pc st_alive st_with_pc st_with_conns end_stub l_alive l_cmds l_local l_conns l_pc
       l_with_cmds l_with_local l_with_conns l_with_pc end_lsnr new_lsnr px_iface px_conn px_remote px_alive end_proxy] in *.

(** ** The cases of a step *)
Definition dropped_answer (s : rt) (o : obs) (l : list (event * obs)) (s' : rt) : Prop :=
  match drop_answer o with
  | None => s' = s /\ l = []
  | Some d => exists o', step s d = Some (s', o') /\ l = [(d, o')]
  end.
Definition connects (e : qentry) (ok : bool) (q : qst) (b : event) : Prop :=
  if e_gone e then b = ETake (place (e_cmd e) (r_left (q_rt q))) ok else exists n, e_from e = FSend n /\ b = EStub n ok.
Inductive qgoes (q : qst) : qevent -> qst -> qobs -> list (event * obs) -> Prop :=
| g_call id to : r_open (q_rt q) = true ->
    qgoes q (QCall id to) (with_calls (q_calls q ++ [mkK id to CNew]) q) (QMade (length (q_calls q))) []
| g_enter_call t id to : nth_error (q_calls q) t = Some (mkK id to CNew) -> q_over q = false -> length (q_chan q) < 8 ->
    qgoes q (QEnter (FCall t)) (set_call t CIn (with_chan (q_chan q ++ [mkE (FCall t) (KCall id to) false]) q)) (QEntered (FCall t) (KCall id to)) []
| g_enter_send n st a m : nth_error (r_stubs (q_rt q)) n = Some st -> st_alive st = true -> st_pc st = SConnect a m -> in_channel (FSend n) q = false ->
    q_over q = false -> length (q_chan q) < 8 ->
    qgoes q (QEnter (FSend n)) (with_chan (q_chan q ++ [mkE (FSend n) (KConnect a) false]) q) (QEntered (FSend n) (KConnect a)) []
| g_refuse_call t id to : nth_error (q_calls q) t = Some (mkK id to CNew) -> q_over q = true ->
    qgoes q (QEnter (FCall t)) (set_call t COver q) QRefused []
| g_refuse_send n st a m s' o : nth_error (r_stubs (q_rt q)) n = Some st -> st_alive st = true -> st_pc st = SConnect a m ->
    q_over q = true -> step (q_rt q) (EStub n false) = Some (s', o) ->
    qgoes q (QEnter (FSend n)) (with_rt s' q) QRefused [(EStub n false, o)]
| g_take_connect e rest a : q_over q = false -> q_now q = None -> q_chan q = e :: rest -> e_cmd e = KConnect a ->
    qgoes q QTake (with_now (Some e) (with_chan rest q)) (QTaken (e_from e) (e_cmd e)) []
| g_take_call e rest id to s' o : q_over q = false -> q_now q = None -> q_chan q = e :: rest -> e_cmd e = KCall id to ->
    step (q_rt q) (begins e id to q) = Some (s', o) ->
    qgoes q QTake (with_rt s' (with_now (Some e) (with_chan rest q))) (QTaken (e_from e) (e_cmd e)) [(begins e id to q, o)]
| g_connect ok e a b s' o : q_now q = Some e -> e_cmd e = KConnect a -> connects e ok q b -> step (q_rt q) b = Some (s', o) ->
    qgoes q (QGo ok) (with_now None (with_rt s' q)) (QDone (e_from e) (e_cmd e) o) [(b, o)]
| g_on ok e id to s' o : q_now q = Some e -> e_cmd e = KCall id to -> step (q_rt q) (EEp ok) = Some (s', o) -> is_answer o = false ->
    qgoes q (QGo ok) (with_rt s' q) QUnit [(EEp ok, o)]
| g_done_gone ok e id to s1 o s2 l : q_now q = Some e -> e_cmd e = KCall id to -> step (q_rt q) (EEp ok) = Some (s1, o) -> is_answer o = true -> e_gone e = true ->
    dropped_answer s1 o l s2 ->
    qgoes q (QGo ok) (with_now None (with_rt s2 q)) (QDone (e_from e) (e_cmd e) o) ((EEp ok, o) :: l)
| g_done ok e id to s1 o t : q_now q = Some e -> e_cmd e = KCall id to -> step (q_rt q) (EEp ok) = Some (s1, o) -> is_answer o = true -> e_gone e = false ->
    e_from e = FCall t ->
    qgoes q (QGo ok) (set_call t (CAnswered o) (with_now None (with_rt s1 q))) (QDone (e_from e) (e_cmd e) o) [(EEp ok, o)]
| g_return t id to o : nth_error (q_calls q) t = Some (mkK id to (CAnswered o)) ->
    qgoes q (QReturn t) (set_call t COver q) (QReturned t o) []
| g_drop_new t id to : nth_error (q_calls q) t = Some (mkK id to CNew) ->
    qgoes q (QDrop (FCall t)) (set_call t COver q) QUnit []
| g_drop_chan t id to s' o : nth_error (q_calls q) t = Some (mkK id to CIn) -> existsb (waits (FCall t)) (q_chan q) = true ->
    step (q_rt q) (EAbandon id to) = Some (s', o) ->
    qgoes q (QDrop (FCall t)) (unwatch (FCall t) (with_rt s' (set_call t COver q))) QUnit [(EAbandon id to, o)]
| g_drop_now t id to : nth_error (q_calls q) t = Some (mkK id to CIn) -> existsb (waits (FCall t)) (q_chan q) = false ->
    qgoes q (QDrop (FCall t)) (unwatch (FCall t) (set_call t COver q)) QUnit []
| g_drop_answer t id to o s' l : nth_error (q_calls q) t = Some (mkK id to (CAnswered o)) -> dropped_answer (q_rt q) o l s' ->
    qgoes q (QDrop (FCall t)) (with_rt s' (set_call t COver q)) QUnit l
| g_drop_send n s' o : step (q_rt q) (ECancel n (in_channel (FSend n) q)) = Some (s', o) ->
    qgoes q (QDrop (FSend n)) (unwatch (FSend n) (with_rt s' q)) QUnit [(ECancel n (in_channel (FSend n) q), o)]
| g_close s' o : (forall k, In k (q_calls q) -> k_stat k = COver) -> step (q_rt q) EClose = Some (s', o) ->
    qgoes q QClose (with_rt s' q) QUnit [(EClose, o)]
| g_stop : q_over q = false -> q_now q = None -> q_chan q = [] -> ep_strong (q_rt q) = false ->
    qgoes q QStop (with_over q) QUnit []
| g_run e s' o : elsewhere e q = true -> step (q_rt q) e = Some (s', o) ->
    qgoes q (QRun e) (with_rt s' q) QUnit [(e, o)].

Lemma with_rt_id q : with_rt (q_rt q) q = q.
Proof. destruct q. reflexivity. Qed.
Lemma qstepped q x q' o l : qstep q x = Some (q', o, l) -> qgoes q x q' o l.
Proof.
  intros S. destruct x as [id to|f| |ok|t|f| | |e]; cbn -[Nat.ltb] in S.
  - destruct (r_open (q_rt q)) eqn:O; [|discriminate]. injection S as <- <- <-. constructor. exact O.
  - destruct f as [t|n]; cbn -[Nat.ltb] in S.
    + destruct (nth_error (q_calls q) t) as [[id to st]|] eqn:K; [|discriminate]. cbn -[Nat.ltb] in S. destruct st; try discriminate.
      destruct (q_over q) eqn:V; [injection S as <- <- <-; eapply g_refuse_call; eassumption|].
      destruct (length (q_chan q) <? 8) eqn:L; [|discriminate]. injection S as <- <- <-. apply Nat.ltb_lt in L. constructor; assumption.
    + destruct (nth_error (r_stubs (q_rt q)) n) as [st|] eqn:K; [|discriminate]. destruct (st_alive st) eqn:A; [|discriminate].
      destruct (st_pc st) eqn:P; try discriminate. destruct (in_channel (FSend n) q) eqn:I; [discriminate|].
      destruct (q_over q) eqn:V.
      * unfold at_rt in S. destruct (step (q_rt q) (EStub n false)) as [[s' o']|] eqn:E; [|discriminate]. injection S as <- <- <-. eapply g_refuse_send; eassumption.
      * destruct (length (q_chan q) <? 8) eqn:L; [|discriminate]. injection S as <- <- <-. apply Nat.ltb_lt in L. eapply g_enter_send; eassumption.
  - destruct (q_over q) eqn:V; [discriminate|]. destruct (q_now q) eqn:W; [discriminate|]. destruct (q_chan q) as [|e rest] eqn:C; [discriminate|].
    destruct (e_cmd e) as [a|id to] eqn:K.
    + injection S as <- <- <-. rewrite <- K. eapply g_take_connect; eassumption.
    + unfold at_rt in S. change (q_rt (with_now (Some e) (with_chan rest q))) with (q_rt q) in S.
      destruct (step (q_rt q) (begins e id to q)) as [[s' o']|] eqn:E; [|discriminate]. injection S as <- <- <-. rewrite <- K. eapply g_take_call; eassumption.
  - destruct (q_now q) as [e|] eqn:W; [|discriminate]. destruct (e_cmd e) as [a|id to] eqn:K.
    + destruct (if e_gone e then _ else _) as [b|] eqn:B; [|discriminate]. unfold at_rt in S. destruct (step (q_rt q) b) as [[s' o']|] eqn:E; [|discriminate].
      injection S as <- <- <-. rewrite <- K. eapply g_connect; try eassumption. unfold connects. destruct (e_gone e); [injection B as <-; rewrite K; reflexivity|].
      destruct (e_from e) as [|n]; [discriminate|]. injection B as <-. eauto.
    + unfold at_rt in S. destruct (step (q_rt q) (EEp ok)) as [[s1 o1]|] eqn:E; [|discriminate]. destruct (is_answer o1) eqn:A.
      * destruct (e_gone e) eqn:G.
        -- destruct (drop_answer o1) as [d|] eqn:D.
           ++ cbn -[Nat.ltb] in S. destruct (step s1 d) as [[s2 o2]|] eqn:E2; [|discriminate]. injection S as <- <- <-. rewrite <- K.
              eapply (g_done_gone q ok e id to s1 o1 s2 [(d, o2)]); try eassumption. unfold dropped_answer. rewrite D. eauto.
           ++ injection S as <- <- <-. rewrite <- K. eapply (g_done_gone q ok e id to s1 o1 s1 []); try eassumption. unfold dropped_answer. rewrite D. auto.
        -- destruct (e_from e) as [t|n] eqn:F; [|discriminate]. injection S as <- <- <-. rewrite <- K, <- F. eapply g_done; eassumption.
      * injection S as <- <- <-. eapply g_on; eassumption.
  - destruct (nth_error (q_calls q) t) as [[id to st]|] eqn:K; [|discriminate]. cbn -[Nat.ltb] in S. destruct st; try discriminate. injection S as <- <- <-. econstructor. exact K.
  - destruct f as [t|n].
    + destruct (nth_error (q_calls q) t) as [[id to st]|] eqn:K; [|discriminate]. cbn -[Nat.ltb] in S. destruct st as [| |o'|]; try discriminate.
      * injection S as <- <- <-. eapply g_drop_new. exact K.
      * unfold at_rt in S. destruct (existsb (waits (FCall t)) (q_chan q)) eqn:W.
        -- change (q_rt (set_call t COver q)) with (q_rt q) in S. cbn [k_id k_to] in S.
           destruct (step (q_rt q) (EAbandon id to)) as [[s' o']|] eqn:E; [|discriminate]. injection S as <- <- <-. eapply g_drop_chan; eassumption.
        -- injection S as <- <- <-. eapply g_drop_now; eassumption.
      * destruct (drop_answer o') as [d|] eqn:D.
        -- unfold at_rt in S. change (q_rt (set_call t COver q)) with (q_rt q) in S. destruct (step (q_rt q) d) as [[s' o2]|] eqn:E; [|discriminate]. injection S as <- <- <-.
           eapply (g_drop_answer q t id to o' s' [(d, o2)]); [exact K|]. unfold dropped_answer. rewrite D. eauto.
        -- injection S as <- <- <-. pose proof (g_drop_answer q t id to o' (q_rt q) [] K) as G. unfold dropped_answer in G. rewrite D in G.
           change (with_rt (q_rt q) (set_call t COver q)) with (set_call t COver q) in G. apply G. auto.
    + unfold at_rt in S. destruct (step (q_rt q) _) as [[s' o']|] eqn:E; [|discriminate]. injection S as <- <- <-. eapply g_drop_send. exact E.
  - destruct (forallb _ (q_calls q)) eqn:F; [|discriminate]. unfold at_rt in S. destruct (step (q_rt q) EClose) as [[s' o']|] eqn:E; [|discriminate]. injection S as <- <- <-.
    apply g_close; [|exact E]. intros k I. rewrite forallb_forall in F. specialize (F _ I). destruct (k_stat k); try discriminate. reflexivity.
  - destruct (q_over q) eqn:V; [discriminate|]. destruct (q_now q) eqn:W; [discriminate|]. destruct (q_chan q) eqn:C; [|discriminate].
    destruct (ep_strong (q_rt q)) eqn:E; [discriminate|]. injection S as <- <- <-. apply g_stop; assumption.
  - destruct (elsewhere e q) eqn:L; [|discriminate]. unfold at_rt in S. destruct (step (q_rt q) e) as [[s' o']|] eqn:E; [|discriminate]. injection S as <- <- <-. apply g_run; assumption.
Qed.

(** ** The runtime below *)
Lemma below q x q' o l : qgoes q x q' o l -> steps (q_rt q) l (q_rt q').
Proof.
  assert (ONE : forall s e s' o, step s e = Some (s', o) -> steps s [(e, o)] s') by (intros; econstructor; [eassumption|constructor]).
  destruct 1; cbn; try constructor; try (apply ONE; assumption).
  - unfold dropped_answer in H4. econstructor; [eassumption|]. destruct (drop_answer o); [destruct H4 as (o' & E & ->); apply ONE; exact E|destruct H4 as [-> ->]; constructor].
  - unfold dropped_answer in H0. destruct (drop_answer o); [destruct H0 as (o' & E & ->); apply ONE; exact E|destruct H0 as [-> ->]; constructor].
Qed.
Lemma history_more tr s tr' s' : history tr s -> steps s tr' s' -> history (tr ++ tr') s'.
Proof.
  intros H S. revert tr H. induction S as [s|s e o s1 tr' s2 E S IH]; intros tr H; [rewrite app_nil_r; exact H|].
  replace (tr ++ (e, o) :: tr') with ((tr ++ [(e, o)]) ++ tr') by (rewrite <- app_assoc; reflexivity). apply IH. econstructor; eassumption.
Qed.
Theorem refines tr q : qhistory tr q -> history (rt_trace tr) (q_rt q).
Proof.
  induction 1 as [|tr q x q' o l H IH S]; [constructor|]. unfold rt_trace. rewrite flat_map_app. cbn. rewrite app_nil_r.
  eapply history_more; [exact IH|]. eapply below, qstepped. exact S.
Qed.

(** ** Order *)
Definition whose (e : qentry) : qfrom * ecmd := (e_from e, e_cmd e).
Definition now_list (q : qst) : list qentry := match q_now q with Some e => [e] | None => [] end.
Lemma whose_lose f l : map whose (map (lose f) l) = map whose l.
Proof. rewrite map_map. apply map_ext. intros e. unfold lose. destruct (waits f e); reflexivity. Qed.
Lemma now_lose f q : now_list (unwatch f q) = map (lose f) (now_list q).
Proof. unfold now_list, unwatch. cbn. destruct (q_now q); reflexivity. Qed.
Theorem order tr q : qhistory tr q ->
  entered tr = taken tr ++ map whose (q_chan q) /\ taken tr = finished tr ++ map whose (now_list q) /\ length (q_chan q) <= 8.
Proof.
  induction 1 as [|tr q x q' o l H IH S]; [split; [reflexivity|]; split; [reflexivity|]; cbn; lia|]. destruct IH as (A & B & C).
  unfold entered, taken, finished in *. rewrite !flat_map_app. cbn [flat_map seen fst snd]. rewrite !app_nil_r. apply qstepped in S.
  destruct S; cbn [seen fst snd q_chan with_rt with_chan with_now with_calls with_over set_call]; rewrite ?app_nil_r; try (split; [exact A|split; [exact B|exact C]]).
  - rewrite map_app, app_assoc, <- A. split; [reflexivity|]. split; [exact B|]. rewrite app_length. cbn. lia.
  - rewrite map_app, app_assoc, <- A. split; [reflexivity|]. split; [exact B|]. rewrite app_length. cbn. lia.
  - rewrite H2 in A, C. unfold now_list in *. cbn. rewrite H1 in B. cbn in B. rewrite app_nil_r in B. rewrite A, <- B, <- app_assoc. cbn in C. repeat split; lia.
  - rewrite H2 in A, C. unfold now_list in *. cbn. rewrite H1 in B. cbn in B. rewrite app_nil_r in B. rewrite A, <- B, <- app_assoc. cbn in C. repeat split; lia.
  - unfold now_list in *. rewrite H0 in B. cbn in *. rewrite ?app_nil_r. auto.
  - unfold now_list in *. rewrite H0 in B. cbn in *. rewrite ?app_nil_r. auto.
  - unfold now_list in *. rewrite H0 in B. cbn in *. rewrite ?app_nil_r. auto.
  - change (q_chan (unwatch (FCall t) (with_rt s' (set_call t COver q)))) with (map (lose (FCall t)) (q_chan q)). rewrite whose_lose, map_length, now_lose, whose_lose. auto.
  - change (q_chan (unwatch (FCall t) (set_call t COver q))) with (map (lose (FCall t)) (q_chan q)). rewrite whose_lose, map_length, now_lose, whose_lose. auto.
  - change (q_chan (unwatch (FSend n) (with_rt s' q))) with (map (lose (FSend n)) (q_chan q)). rewrite whose_lose, map_length, now_lose, whose_lose. auto.
Qed.

(** ** What the events of the runtime change *)
Definition connecting_at (s : rt) (n : nat) (a : N) : Prop :=
  exists st m, nth_error (r_stubs s) n = Some st /\ st_alive st = true /\ st_pc st = SConnect a m.
Lemma nth_upd_cases {A} (l : list A) n k f x : nth_error l k = Some x -> nth_error (upd n f l) k = Some (if n =? k then f x else x).
Proof.
  intros X. destruct (Nat.eqb_spec n k) as [->|N]; [rewrite nth_upd_same, X; reflexivity|]. rewrite nth_upd_other by congruence. exact X.
Qed.
Lemma nth_snoc_old {A} (l : list A) k x y : nth_error l k = Some x -> nth_error (l ++ [y]) k = Some x.
Proof. intros X. rewrite nth_error_app1; [exact X|]. apply nth_error_Some. congruence. Qed.
Lemma connecting_keeps s e s' o n a : step s e = Some (s', o) -> connecting_at s n a ->
  match e with EStub k _ | ECancel k _ | EDropStub k => k <> n | _ => True end -> connecting_at s' n a.
Proof.
  intros ST (st & m & X & A & P) NE. unfold connecting_at. destruct e; step_cases ST; rcbn; try solve [eauto].
  all: try solve [exists st, m; split; [apply nth_snoc_old; exact X|auto]].
  all: match goal with |- context [upd ?k _ _] => exists st, m; split; [erewrite nth_upd_cases by exact X; destruct (Nat.eqb_spec k n) as [->|]; [congruence|reflexivity]|auto] end.
Qed.
Lemma free_keeps s e s' o n : step s e = Some (s', o) -> stub_pc n s = SFree -> match e with ESendTo k _ _ => k <> n | _ => True end -> stub_pc n s' = SFree.
Proof.
  intros ST F NE. unfold stub_pc in *. destruct e; step_cases ST; rcbn; try exact F.
  all: try match goal with |- match nth_error (?l ++ [?y]) ?k with _ => _ end = _ => destruct (nth_error (l ++ [y]) k) as [st|] eqn:E; [|reflexivity]; apply nth_snoc in E;
    destruct E as [E|[? ?]]; [rewrite E in F; exact F|subst; reflexivity] end.
  all: match goal with |- match nth_error (upd ?j ?f ?l) ?k with _ => _ end = _ => destruct (nth_error (upd j f l) k) as [st|] eqn:E; [|reflexivity]; apply upd_is in E;
    destruct E as [[_ E]|(<- & y & Y & ->)]; [rewrite E in F; exact F|] end; try reflexivity; rewrite Y in F; cbn; try congruence.
Qed.
Lemma left_keeps s e s' o : step s e = Some (s', o) -> match e with EAbandon _ _ | ETake _ _ | ECancel _ _ => False | _ => True end -> r_left s' = r_left s.
Proof. intros ST NE. destruct e; try contradiction; step_cases ST; rcbn; reflexivity. Qed.
Lemma ep_keeps s e s' o : step s e = Some (s', o) -> match e with EServe _ | EProxy _ _ | EEp _ | ETake _ _ => False | _ => True end -> r_ep s' = r_ep s.
Proof. intros ST NE. destruct e; try contradiction; step_cases ST; rcbn; congruence. Qed.
Lemma open_keeps s e s' o : step s e = Some (s', o) -> e <> EClose -> r_open s = true -> r_open s' = true.
Proof. intros ST NE O. destruct e; try congruence; step_cases ST; rcbn; congruence. Qed.
Lemma ep_goes s ok s' o : step s (EEp ok) = Some (s', o) ->
  exists id to, in_call (r_ep s) = Some (id, to) /\
  if is_answer o then r_ep s' = EpWait /\ fits id to o else in_call (r_ep s') = Some (id, to).
Proof.
  intros ST. destruct (in_call (r_ep s)) as [[id to]|] eqn:C; [|cbn in ST; unfold step_ep in ST; destruct (r_ep s); discriminate C || discriminate ST].
  exists id, to. split; [reflexivity|]. unfold fits. cbn in ST. unfold step_ep in ST. destruct (r_ep s) as [|? ?|? [?|]|[?|? ?] ?|[?|? ?] ? ?] eqn:E; cbn in C; try discriminate C; injection C as <- <-.
  all: cases_in ST; injection ST as <- <-; cbn; try rewrite ?E; auto.
  all: split; [reflexivity|]; eauto.
Qed.
Lemma place_in x l : In x l -> nth_error l (place x l) = Some x.
Proof.
  assert (EQ : forall x y, ecmd_eqb x y = true -> x = y).
  { assert (IE : forall a b, iid_eqb a b = true -> a = b). { intros [a1 a2] [b1 b2] E. apply andb_true_iff in E. destruct E as [E1 E2]. apply N.eqb_eq in E1, E2. cbn in *. congruence. }
    intros [a|id [a|]] [b|id' [b|]] E; cbn in E; try discriminate E; [apply N.eqb_eq in E; congruence| |rewrite (IE _ _ E); reflexivity].
    apply andb_true_iff in E. destruct E as [E1 E2]. apply N.eqb_eq in E2. rewrite (IE _ _ E1). congruence. }
  assert (RF : forall x, ecmd_eqb x x = true).
  { intros [a|id [a|]]; cbn; unfold iid_eqb; rewrite ?N.eqb_refl; reflexivity. }
  induction l as [|y l IH]; intros I; [destruct I|]. cbn. destruct (ecmd_eqb x y) eqn:E; [apply EQ in E; rewrite E; reflexivity|].
  destruct I as [->|I]; [rewrite RF in E; discriminate|]. exact (IH I).
Qed.

(** ** Lives *)
Definition mine (f : qfrom) (l : list qentry) : list qentry := filter (fun e => qfrom_eqb (e_from e) f) l.
Inductive at_life (t : nat) : list qentry -> list qentry -> option qcall -> list mark -> Prop :=
| l_none : at_life t [] [] None []
| l_new id to : at_life t [] [] (Some (mkK id to CNew)) [MMade id to]
| l_chan id to : at_life t [mkE (FCall t) (KCall id to) false] [] (Some (mkK id to CIn)) [MMade id to; MEntered]
| l_now id to : at_life t [] [mkE (FCall t) (KCall id to) false] (Some (mkK id to CIn)) [MMade id to; MEntered; MTaken]
| l_answered id to o : fits id to o -> at_life t [] [] (Some (mkK id to (CAnswered o))) [MMade id to; MEntered; MTaken; MDone o]
| l_gone id to : at_life t [] [] (Some (mkK id to COver)) [MMade id to; MDropped]
| l_gone_chan id to : at_life t [mkE (FCall t) (KCall id to) true] [] (Some (mkK id to COver)) [MMade id to; MEntered; MDropped]
| l_gone_now id to : at_life t [] [mkE (FCall t) (KCall id to) true] (Some (mkK id to COver)) [MMade id to; MEntered; MDropped; MTaken]
| l_gone_now' id to : at_life t [] [mkE (FCall t) (KCall id to) true] (Some (mkK id to COver)) [MMade id to; MEntered; MTaken; MDropped]
| l_over id to o l : fits id to o -> whole_life id to o l -> In (MDone o) l -> at_life t [] [] (Some (mkK id to COver)) l.

Lemma qfrom_refl f : qfrom_eqb f f = true.
Proof. destruct f; cbn; apply Nat.eqb_refl. Qed.
Lemma qfrom_is f g : qfrom_eqb f g = true -> f = g.
Proof. destruct f, g; cbn; try discriminate; intros E; apply Nat.eqb_eq in E; congruence. Qed.
Lemma mine_app f l1 l2 : mine f (l1 ++ l2) = mine f l1 ++ mine f l2.
Proof. apply filter_app. Qed.
Lemma mine_lose f g l : mine f (map (lose g) l) = map (lose g) (mine f l).
Proof.
  unfold mine. induction l as [|e l IH]; [reflexivity|]. cbn. replace (e_from (lose g e)) with (e_from e) by (unfold lose; destruct (waits g e); reflexivity).
  destruct (qfrom_eqb (e_from e) f); cbn; rewrite IH; reflexivity.
Qed.
Lemma lose_other f g l : f <> g -> map (lose g) (mine f l) = mine f l.
Proof.
  intros N. unfold mine. induction l as [|e l IH]; [reflexivity|]. cbn. destruct (qfrom_eqb (e_from e) f) eqn:E; [|exact IH]. cbn. rewrite IH. f_equal. unfold lose, waits.
  apply qfrom_is in E. rewrite E. destruct (qfrom_eqb f g) eqn:G; [apply qfrom_is in G; congruence|]. rewrite andb_false_r. reflexivity.
Qed.
Lemma mine_waits f l : mine f l = [] -> existsb (waits f) l = false.
Proof.
  unfold mine. induction l as [|e l IH]; [reflexivity|]. cbn. unfold waits at 1. destruct (qfrom_eqb (e_from e) f); [discriminate|]. rewrite andb_false_r. exact IH.
Qed.
Lemma waits_mine f l : existsb (waits f) (mine f l) = existsb (waits f) l.
Proof.
  unfold mine. induction l as [|e l IH]; [reflexivity|]. cbn. unfold waits at 2. destruct (qfrom_eqb (e_from e) f) eqn:E; cbn; [unfold waits at 1; rewrite E|rewrite andb_false_r]; rewrite IH; reflexivity.
Qed.
Lemma nth_upd_other' {A} (l : list A) n k f : n <> k -> nth_error (upd n f l) k = nth_error l k.
Proof. intros N. apply nth_upd_other. congruence. Qed.

Definition ep_with (q : qst) : Prop :=
  match q_now q with
  | Some e => match e_cmd e with KCall id to => in_call (r_ep (q_rt q)) = Some (id, to) | KConnect _ => r_ep (q_rt q) = EpWait end
  | None => r_ep (q_rt q) = EpWait
  end.
Definition sorted_cmd (e : qentry) : Prop := match e_from e, e_cmd e with FCall _, KCall _ _ | FSend _, KConnect _ => True | _, _ => False end.
Definition lives (q : qst) (t : nat) (l : list mark) : Prop :=
  at_life t (mine (FCall t) (q_chan q)) (mine (FCall t) (now_list q)) (nth_error (q_calls q) t) l.

Lemma take_life t e rest k l : at_life t (mine (FCall t) (e :: rest)) [] k l ->
  at_life t (mine (FCall t) rest) (mine (FCall t) [e]) k (l ++ match e_from e with FCall u => if u =? t then [MTaken] else [] | FSend _ => [] end).
Proof.
  cbn. intros L. destruct (qfrom_eqb (e_from e) (FCall t)) eqn:E.
  - apply qfrom_is in E. rewrite E, Nat.eqb_refl. fold (mine (FCall t) rest) in L. generalize dependent (mine (FCall t) rest). intros r L. inversion L; subst; constructor.
  - replace (match e_from e with FCall u => if u =? t then [MTaken] else [] | FSend _ => [] end) with (@nil mark); [rewrite app_nil_r; exact L|].
    destruct (e_from e); [|reflexivity]. cbn in E. rewrite E. reflexivity.
Qed.
Lemma end_life t c e k l o : at_life t c (mine (FCall t) [e]) k l -> e_gone e = true ->
  match e_cmd e with KCall id to => fits id to o | KConnect _ => True end ->
  at_life t c [] k (l ++ match e_from e with FCall u => if u =? t then [MDone o] else [] | FSend _ => [] end).
Proof.
  cbn. intros L G F. destruct (qfrom_eqb (e_from e) (FCall t)) eqn:E.
  - apply qfrom_is in E. rewrite E, Nat.eqb_refl. unfold whole_life in *. inversion L; subst; try discriminate G; cbn in F; apply (l_over t id to o); try exact F; cbn; unfold whole_life; auto 10.
  - replace (match e_from e with FCall u => if u =? t then [MDone o] else [] | FSend _ => [] end) with (@nil mark); [rewrite app_nil_r; exact L|].
    destruct (e_from e); [|reflexivity]. cbn in E. rewrite E. reflexivity.
Qed.
Lemma lives_step q x q' o l : qgoes q x q' o l -> q_over q = false \/ o <> QRefused -> ep_with q -> Forall sorted_cmd (now_list q) ->
  forall t L, lives q t L -> lives q' t (L ++ mark_of t (x, o, l)).
Proof.
  intros G NR EW SC t L LV. unfold lives in *. pose proof LV as LV0.
  assert (OTHER : forall u s, u <> t -> nth_error (upd u (k_now s) (q_calls q)) t = nth_error (q_calls q) t) by (intros; apply nth_upd_other'; assumption).
  destruct G; cbn [mark_of]; cbn [q_chan q_calls with_rt with_chan with_now with_calls with_over set_call].
  - (* call *) change (now_list _) with (now_list q). destruct (Nat.eqb_spec (length (q_calls q)) t) as [E|N].
    + subst t. replace (nth_error (q_calls q) (length (q_calls q))) with (@None qcall) in LV by (symmetry; apply nth_error_None; lia).
      rewrite nth_error_app2, Nat.sub_diag by lia. cbn. inversion LV; subst. constructor.
    + rewrite app_nil_r. replace (nth_error (q_calls q ++ _) t) with (nth_error (q_calls q) t); [exact LV|].
      destruct (Nat.lt_ge_cases t (length (q_calls q))); [symmetry; apply nth_error_app1; assumption|].
      rewrite (proj2 (nth_error_None _ _)) by assumption. symmetry. apply nth_error_None. rewrite app_length. cbn. lia.
  - (* enter *) change (now_list _) with (now_list q). rewrite mine_app. cbn. rename t0 into u. destruct (Nat.eqb_spec u t) as [->|N].
    + rewrite nth_upd_same, H. cbn. rewrite H in LV. inversion LV; subst. constructor.
    + rewrite !app_nil_r, OTHER by exact N. exact LV.
  - change (now_list _) with (now_list q). rewrite mine_app. cbn. rewrite !app_nil_r. exact LV.
  - destruct NR as [NR|NR]; congruence.
  - destruct NR as [NR|NR]; congruence.
  - (* take *) change (now_list _) with [e]. unfold now_list in LV. rewrite H0, H1 in LV. pose proof (take_life _ _ _ _ _ LV) as T. destruct (e_from e); exact T.
  - change (now_list _) with [e]. unfold now_list in LV. rewrite H0, H1 in LV. pose proof (take_life _ _ _ _ _ LV) as T. destruct (e_from e); exact T.
  - (* connect *) change (now_list _) with (@nil qentry). unfold now_list in LV, SC. rewrite H in LV, SC. apply Forall_inv in SC. unfold sorted_cmd in SC. rewrite H0 in SC.
    destruct (e_from e) eqn:F; [contradiction|]. rewrite app_nil_r. cbn in LV. rewrite F in LV. exact LV.
  - rewrite app_nil_r. exact LV.
  - (* done, nobody there *) change (now_list _) with (@nil qentry). unfold now_list in LV. rewrite H in LV. destruct (ep_goes _ _ _ _ H1) as (id' & to' & C & R).
    rewrite H2 in R. unfold ep_with in EW. rewrite H, H0, C in EW. injection EW as -> ->.
    pose proof (end_life t _ _ _ _ o LV H3) as T. rewrite H0 in T. specialize (T (proj2 R)). destruct (e_from e); exact T.
  - (* done *) change (now_list _) with (@nil qentry). unfold now_list in LV. rewrite H in LV. destruct (ep_goes _ _ _ _ H1) as (id' & to' & C & R).
    rewrite H2 in R. unfold ep_with in EW. rewrite H, H0, C in EW. injection EW as -> ->. rewrite H4. cbn in LV. rewrite H4 in LV. cbn in LV. rename t0 into u.
    destruct (Nat.eqb_spec u t) as [->|N].
    + destruct e as [ef ec eg]. cbn in *. subst. rewrite nth_upd_same. destruct (nth_error (q_calls q) t) as [k|]; inversion LV; subst. cbn. constructor. apply R.
    + rewrite app_nil_r, OTHER by exact N. exact LV.
  - (* return *) change (now_list _) with (now_list q). rename t0 into u. destruct (Nat.eqb_spec u t) as [->|N].
    + rewrite nth_upd_same, H. cbn. rewrite H in LV. inversion LV; subst. cbn. apply (l_over t id to o); [assumption| |cbn; auto 10]. unfold whole_life. auto.
    + rewrite app_nil_r, OTHER by exact N. exact LV.
  - (* drop *) change (now_list _) with (now_list q). rename t0 into u. destruct (Nat.eqb_spec u t) as [->|N].
    + rewrite nth_upd_same, H. cbn. rewrite H in LV. inversion LV; subst. constructor.
    + rewrite app_nil_r, OTHER by exact N. exact LV.
  - rewrite now_lose. change (q_chan (unwatch _ _)) with (map (lose (FCall t0)) (q_chan q)). change (now_list (with_rt _ _)) with (now_list q).
    change (q_calls (unwatch _ _)) with (upd t0 (k_now COver) (q_calls q)). rewrite !mine_lose. rename t0 into u. destruct (Nat.eqb_spec u t) as [->|N].
    + rewrite nth_upd_same, H. cbn. rewrite H in LV. inversion LV; subst; cbn; [|match goal with Q : [] = mine _ (q_chan q) |- _ => symmetry in Q; apply mine_waits in Q; congruence end].
      unfold lose, waits. cbn. rewrite Nat.eqb_refl. constructor.
    + rewrite app_nil_r, OTHER by exact N. rewrite !lose_other by congruence. exact LV.
  - rewrite now_lose. change (q_chan (unwatch _ _)) with (map (lose (FCall t0)) (q_chan q)). change (now_list (set_call _ _ _)) with (now_list q).
    change (q_calls (unwatch _ _)) with (upd t0 (k_now COver) (q_calls q)). rewrite !mine_lose. rename t0 into u. destruct (Nat.eqb_spec u t) as [->|N].
    + rewrite nth_upd_same, H. cbn. rewrite H in LV. inversion LV; subst; cbn.
      * match goal with Q : [_] = mine _ (q_chan q) |- _ => rewrite <- waits_mine, <- Q in H0 end. unfold waits in H0. cbn in H0. rewrite Nat.eqb_refl in H0. discriminate.
      * unfold lose, waits. cbn. rewrite Nat.eqb_refl. constructor.
    + rewrite app_nil_r, OTHER by exact N. rewrite !lose_other by congruence. exact LV.
  - change (now_list _) with (now_list q). rename t0 into u. destruct (Nat.eqb_spec u t) as [->|N].
    + rewrite nth_upd_same, H. cbn. rewrite H in LV. inversion LV; subst. cbn. apply (l_over t id to o); [assumption| |cbn; auto 10]. unfold whole_life. auto 10.
    + rewrite app_nil_r, OTHER by exact N. exact LV.
  - rewrite now_lose. change (q_chan (unwatch _ _)) with (map (lose (FSend n)) (q_chan q)). change (now_list (with_rt _ _)) with (now_list q).
    change (q_calls (unwatch _ _)) with (q_calls q). rewrite !mine_lose, app_nil_r. rewrite !lose_other by congruence. exact LV.
  - rewrite app_nil_r. exact LV.
  - rewrite app_nil_r. exact LV.
  - rewrite app_nil_r. exact LV.
Qed.

(** ** The invariant *)
Definition gone_part (e : qentry) : list ecmd := if e_gone e then [e_cmd e] else [].
Definition gone_now (e : qentry) : list ecmd := match e_cmd e with KConnect _ => gone_part e | KCall _ _ => [] end.
Definition gone_cmds (q : qst) : list ecmd := flat_map gone_part (q_chan q) ++ flat_map gone_now (now_list q).
Definition entries (q : qst) : list qentry := q_chan q ++ now_list q.
Definition sends_at (q : qst) (n : nat) : Prop :=
  filter (waits (FSend n)) (entries q) = [] \/
  exists a, filter (waits (FSend n)) (entries q) = [mkE (FSend n) (KConnect a) false] /\ connecting_at (q_rt q) n a.
Record qinv (tr : list qlog) (q : qst) : Prop := {
  v_left : Permutation (r_left (q_rt q)) (gone_cmds q);
  v_call : forall t, lives q t (life t tr);
  v_send : forall n, sends_at q n;
  v_sort : Forall sorted_cmd (entries q);
  v_ep : ep_with q;
  v_open : forall k, In k (q_calls q) -> k_stat k <> COver -> r_open (q_rt q) = true;
  v_over : q_over q = true -> q_chan q = [] /\ q_now q = None /\ over (q_rt q);
  v_held : forall k n id, In k (q_calls q) -> k_stat k = CAnswered (OStub n id) -> stub_pc n (q_rt q) = SFree }.

Lemma not_refused tr q x q' o l : qinv tr q -> qgoes q x q' o l -> o <> QRefused.
Proof.
  intros V G E. destruct G; try discriminate E.
  - destruct (v_over _ _ V H0) as (_ & _ & (S & _)). assert (O : r_open (q_rt q) = true) by (eapply (v_open _ _ V); [eapply nth_error_In; exact H|discriminate]).
    unfold ep_strong in S. rewrite O in S. discriminate.
  - destruct (v_over _ _ V H2) as (_ & _ & (S & _)). unfold ep_strong in S. apply orb_false_iff in S. destruct S as [_ S].
    pose proof (existsb_at _ _ _ _ S H) as K. cbn in K. rewrite H1, H0 in K. discriminate.
Qed.
Lemma waits_is f e : waits f e = true -> e_gone e = false /\ e_from e = f.
Proof. unfold waits. intros E. apply andb_true_iff in E. destruct E as [E1 E2]. apply negb_true_iff in E1. apply qfrom_is in E2. auto. Qed.
Lemma waits_filter f l : filter (waits f) (mine f l) = filter (waits f) l.
Proof.
  unfold mine. induction l as [|e l IH]; [reflexivity|]. cbn [filter]. destruct (qfrom_eqb (e_from e) f) eqn:E; destruct (waits f e) eqn:W; cbn [filter]; rewrite ?W, ?IH; try reflexivity.
  destruct (waits_is _ _ W) as [_ F]. rewrite F, qfrom_refl in E. discriminate.
Qed.
Lemma lose_gone f l : Permutation (flat_map gone_part (map (lose f) l)) (flat_map gone_part l ++ map e_cmd (filter (waits f) l)).
Proof.
  induction l as [|e l IH]; [reflexivity|]. cbn. unfold lose at 1. destruct (waits f e) eqn:W.
  - destruct (waits_is _ _ W) as [G _]. change (gone_part (e_lose e)) with [e_cmd e]. replace (gone_part e) with (@nil ecmd) by (unfold gone_part; rewrite G; reflexivity).
    cbn. rewrite IH. apply Permutation_middle.
  - rewrite IH. rewrite app_assoc. reflexivity.
Qed.
Lemma lose_now f l : Forall (fun e => waits f e = true -> exists a, e_cmd e = KConnect a) l ->
  Permutation (flat_map gone_now (map (lose f) l)) (flat_map gone_now l ++ map e_cmd (filter (waits f) l)).
Proof.
  induction 1 as [|e l W F IH]; [reflexivity|]. cbn. unfold lose at 1. destruct (waits f e) eqn:E.
  - destruct (waits_is _ _ E) as [G _]. destruct (W eq_refl) as [a C]. replace (gone_now (e_lose e)) with [e_cmd e] by (unfold gone_now, gone_part; cbn; rewrite C; reflexivity).
    replace (gone_now e) with (@nil ecmd) by (unfold gone_now, gone_part; rewrite C, G; reflexivity). cbn. rewrite IH. apply Permutation_middle.
  - rewrite IH. rewrite app_assoc. reflexivity.
Qed.
Lemma lose_none f l : existsb (waits f) l = false -> map (lose f) l = l.
Proof.
  induction l as [|e l IH]; [reflexivity|]. cbn. intros E. apply orb_false_iff in E. destruct E as [E1 E2]. rewrite (IH E2). unfold lose. rewrite E1. reflexivity.
Qed.
Lemma filter_none f l : existsb (waits f) l = false -> filter (waits f) l = [].
Proof. induction l as [|e l IH]; [reflexivity|]. cbn. intros E. apply orb_false_iff in E. destruct E as [E1 E2]. rewrite E1. exact (IH E2). Qed.
Lemma in_channel_is f q : in_channel f q = existsb (waits f) (entries q).
Proof. unfold in_channel, entries, now_list. rewrite existsb_app. destruct (q_now q); cbn; rewrite ?orb_false_r; reflexivity. Qed.
Lemma drop_place l x l' : Permutation l (x :: l') -> Permutation (drop_nth (place x l) l) l'.
Proof.
  intros P. assert (I : In x l) by (rewrite P; left; reflexivity). apply place_in in I. apply perm_drop_nth in I. rewrite I in P. apply Permutation_cons_inv in P. exact P.
Qed.
Lemma take_step s k ok s' o x : step s (ETake k ok) = Some (s', o) -> nth_error (r_left s) k = Some x ->
  r_left s' = drop_nth k (r_left s) /\ match x with KCall id to => in_call (r_ep s') = Some (id, to) | KConnect _ => r_ep s' = EpWait end.
Proof.
  intros S X. cbn in S. unfold step_take in S. rewrite X in S. cases_in S; injection S as <- <-; rcbn; cbn; rewrite ?Heqe; auto.
Qed.
Lemma begin_step s e s' o id to : step s e = Some (s', o) -> e = match to with None => EServe id | Some a => EProxy id a end ->
  in_call (r_ep s') = Some (id, to).
Proof. intros S ->. destruct to; cbn in S; cases_in S; injection S as <- <-; reflexivity. Qed.
Lemma drops_left s o l s' : dropped_answer s o l s' -> r_left s' = r_left s /\ r_ep s' = r_ep s /\ (r_open s = true -> r_open s' = true).
Proof.
  unfold dropped_answer. destruct (drop_answer o) as [d|] eqn:D; [|intros [-> ->]; auto]. intros (o' & S & ->).
  destruct o; try discriminate D; injection D as <-; (split; [eapply left_keeps; [exact S|exact Logic.I]|split; [eapply ep_keeps; [exact S|exact Logic.I]|eapply open_keeps; [exact S|discriminate]]]).
Qed.

Lemma left_step tr q x q' o l : qinv tr q -> qgoes q x q' o l -> Permutation (r_left (q_rt q')) (gone_cmds q').
Proof.
  intros V G. pose proof (v_left _ _ V) as P. pose proof (not_refused _ _ _ _ _ _ V G) as NR. unfold gone_cmds in *.
  destruct G; cbn [q_rt q_chan with_rt with_chan with_now with_calls with_over set_call] in *; try congruence.
  - exact P.
  - rewrite flat_map_app. cbn. rewrite app_nil_r. exact P.
  - rewrite flat_map_app. cbn. rewrite app_nil_r. exact P.
  - change (now_list _) with [e]. unfold now_list in P. rewrite H0, H1 in P. rewrite P. cbn. rewrite !app_nil_r. unfold gone_now. rewrite H2. apply Permutation_app_comm.
  - change (now_list _) with [e]. unfold now_list in P. rewrite H0, H1 in P. cbn in P. rewrite app_nil_r in P. cbn. unfold gone_now. rewrite H2. rewrite !app_nil_r.
    unfold begins, gone_part in *. destruct (e_gone e).
    + cbn in P. destruct (take_step _ _ _ _ _ (e_cmd e) H3) as [E _]; [apply place_in; rewrite P; left; reflexivity|]. rewrite E. apply drop_place. exact P.
    + erewrite left_keeps; [exact P|exact H3|destruct to; exact Logic.I].
  - change (now_list _) with (@nil qentry). unfold now_list in P. rewrite H in P. cbn in P. unfold gone_now in P. rewrite H0 in P. cbn. rewrite !app_nil_r in *.
    unfold connects in H1. unfold gone_part at 2 in P. destruct (e_gone e).
    + subst b. rewrite H0 in *. assert (P' : Permutation (r_left (q_rt q)) (KConnect a :: flat_map gone_part (q_chan q))) by (rewrite P; symmetry; apply Permutation_cons_append).
      destruct (take_step _ _ _ _ _ (KConnect a) H2) as [E _]; [apply place_in; rewrite P'; left; reflexivity|]. rewrite E. apply drop_place. exact P'.
    + destruct H1 as (n & F & ->). rewrite app_nil_r in P. erewrite left_keeps; [exact P|exact H2|exact Logic.I].
  - erewrite left_keeps; [exact P|exact H1|exact Logic.I].
  - change (now_list _) with (@nil qentry). unfold now_list in P. rewrite H in P. cbn in P. unfold gone_now in P. rewrite H0 in P. cbn.
    rewrite (proj1 (drops_left _ _ _ _ H4)). erewrite left_keeps; [exact P|exact H1|exact Logic.I].
  - change (now_list _) with (@nil qentry). unfold now_list in P. rewrite H in P. cbn in P. unfold gone_now in P. rewrite H0 in P. cbn. erewrite left_keeps; [exact P|exact H1|exact Logic.I].
  - exact P.
  - exact P.
  - rewrite now_lose. change (now_list (with_rt _ _)) with (now_list q). change (q_chan (unwatch _ _)) with (map (lose (FCall t)) (q_chan q)). change (q_rt (unwatch _ _)) with s'.
    pose proof (v_call _ _ V t) as LV. unfold lives in LV. rewrite H in LV. rewrite lose_gone.
    assert (W : filter (waits (FCall t)) (q_chan q) = [mkE (FCall t) (KCall id to) false] /\ map (lose (FCall t)) (now_list q) = now_list q).
    { inversion LV as [| |id' to' C N K L| | | | | | |]; subst; try congruence.
      - split; [|apply lose_none, mine_waits; symmetry; assumption].
        transitivity (filter (waits (FCall t)) (mine (FCall t) (q_chan q))); [|rewrite <- C; cbn; unfold waits; cbn; rewrite Nat.eqb_refl; reflexivity].
        symmetry. apply waits_filter.
      - match goal with Q : [] = mine _ (q_chan q) |- _ => symmetry in Q; apply mine_waits in Q; congruence end. }
    destruct W as [W ->]. rewrite W. cbn. cbn in H1. destruct (r_open (q_rt q)); [|discriminate]. injection H1 as <- <-. cbn. rewrite P.
    rewrite <- !app_assoc. apply Permutation_app_head. apply Permutation_app_comm.
  - rewrite now_lose. change (now_list (set_call _ _ _)) with (now_list q). change (q_chan (unwatch _ _)) with (map (lose (FCall t)) (q_chan q)). change (q_rt (unwatch _ _)) with (q_rt q).
    rewrite (lose_none _ _ H0). rewrite P. apply Permutation_app_head. apply Permutation_refl'. unfold now_list. destruct (q_now q) as [e|] eqn:Q; [|reflexivity].
    cbn. unfold lose. destruct (waits (FCall t) e) eqn:W; [|reflexivity]. destruct (waits_is _ _ W) as [_ F].
    pose proof (v_sort _ _ V) as SO. unfold entries, now_list in SO. rewrite Q in SO. apply Forall_app in SO. destruct SO as [_ SO]. apply Forall_inv in SO. unfold sorted_cmd in SO. rewrite F in SO.
    unfold gone_now. cbn. destruct (e_cmd e); [contradiction|reflexivity].
  - rewrite (proj1 (drops_left _ _ _ _ H0)). exact P.
  - rewrite now_lose. change (now_list (with_rt _ _)) with (now_list q). change (q_chan (unwatch _ _)) with (map (lose (FSend n)) (q_chan q)). change (q_rt (unwatch _ _)) with s'.
    assert (SO := v_sort _ _ V). unfold entries in SO. apply Forall_app in SO. destruct SO as [_ SO].
    rewrite lose_gone, lose_now; [|eapply Forall_impl; [|exact SO]; intros e SE W; destruct (waits_is _ _ W) as [_ F]; unfold sorted_cmd in SE; rewrite F in SE; destruct (e_cmd e); [eauto|contradiction]].
    rewrite in_channel_is in H. destruct (v_send _ _ V n) as [E|(a & E & (st & m & X & A & PC))]; unfold entries in *; rewrite filter_app in E.
    + apply app_eq_nil in E. destruct E as [E1 E2]. rewrite E1, E2. cbn. rewrite !app_nil_r. rewrite <- P. apply Permutation_refl'.
      assert (EX : existsb (waits (FSend n)) (q_chan q ++ now_list q) = false).
      { destruct (existsb _ _) eqn:EX; [|reflexivity]. apply existsb_exists in EX. destruct EX as (e & I & W).
        assert (I' : In e (filter (waits (FSend n)) (q_chan q ++ now_list q))) by (apply filter_In; auto). rewrite filter_app, E1, E2 in I'. destruct I'. }
      rewrite EX in H. cbn in H. cases_in H; injection H as <- <-; reflexivity.
    + assert (EX : existsb (waits (FSend n)) (q_chan q ++ now_list q) = true).
      { apply existsb_exists. exists (mkE (FSend n) (KConnect a) false). apply filter_In. rewrite filter_app, E. left. reflexivity. }
      rewrite EX in H. cbn in H. rewrite X, A, PC in H. injection H as <- <-. cbn. rewrite P.
      transitivity ((flat_map gone_part (q_chan q) ++ flat_map gone_now (now_list q)) ++ map e_cmd (filter (waits (FSend n)) (q_chan q) ++ filter (waits (FSend n)) (now_list q))).
      * rewrite E. reflexivity.
      * rewrite map_app. rewrite <- !app_assoc. apply Permutation_app_head. rewrite !app_assoc. apply Permutation_app_tail. apply Permutation_app_comm.
  - erewrite left_keeps; [exact P|exact H0|exact Logic.I].
  - exact P.
  - erewrite left_keeps; [exact P|exact H0|]. destruct e; try exact Logic.I; discriminate H.
Qed.

Lemma waits_lose f l : filter (waits f) (map (lose f) l) = [].
Proof.
  induction l as [|e l IH]; [reflexivity|]. cbn [map filter]. unfold lose at 1. destruct (waits f e) eqn:W; [exact IH|]. rewrite W. exact IH.
Qed.
Lemma waits_lose_other f g l : f <> g -> filter (waits f) (map (lose g) l) = filter (waits f) l.
Proof.
  intros N. induction l as [|e l IH]; [reflexivity|]. cbn [map filter]. rewrite IH. unfold lose at 1 2. destruct (waits g e) eqn:W; [|reflexivity].
  destruct (waits_is _ _ W) as [_ F]. replace (waits f e) with false; [reflexivity|]. symmetry. unfold waits. rewrite F. destruct (qfrom_eqb g f) eqn:E; [apply qfrom_is in E; congruence|].
  apply andb_false_r.
Qed.
Lemma served_free s ok s1 m id : step s (EEp ok) = Some (s1, OStub m id) -> stub_pc m s1 = SFree.
Proof.
  intros S. cbn in S. unfold step_ep in S. cases_in S; try discriminate S. injection S as <- <- <-. unfold stub_pc. rcbn. rewrite nth_error_app2, Nat.sub_diag by lia. reflexivity.
Qed.
Lemma drop_keeps s o l s' n a : dropped_answer s o l s' -> (forall m id, o = OStub m id -> stub_pc m s = SFree) -> connecting_at s n a -> connecting_at s' n a.
Proof.
  unfold dropped_answer. destruct (drop_answer o) as [d|] eqn:D; [|intros [-> _]; auto]. intros (o' & S & _) F C. eapply connecting_keeps; [exact S|exact C|].
  destruct o; try discriminate D; injection D as <-; [|exact Logic.I]. intros ->. specialize (F _ _ eq_refl). destruct C as (st & m & X & _ & P).
  unfold stub_pc in F. rewrite X in F. congruence.
Qed.
Lemma sends_keep q q' n : sends_at q n -> Permutation (filter (waits (FSend n)) (entries q')) (filter (waits (FSend n)) (entries q)) ->
  (forall a, connecting_at (q_rt q) n a -> connecting_at (q_rt q') n a) -> sends_at q' n.
Proof.
  intros [E|(a & E & C)] P K; rewrite E in P.
  - left. apply Permutation_sym, Permutation_nil in P. exact P.
  - right. exists a. split; [apply Permutation_sym, Permutation_length_1_inv in P; exact P|exact (K _ C)].
Qed.
Lemma call_entry e n : sorted_cmd e -> (exists id to, e_cmd e = KCall id to) -> waits (FSend n) e = false.
Proof. intros S (id & to & E). unfold sorted_cmd in S. rewrite E in S. unfold waits. destruct (e_from e); [|contradiction]. apply andb_false_r. Qed.
Lemma send_step tr q x q' o l : qinv tr q -> qgoes q x q' o l -> forall n, sends_at q' n.
Proof.
  intros V G n. pose proof (v_send _ _ V n) as P. pose proof (not_refused _ _ _ _ _ _ V G) as NR.
  assert (SN : forall e, q_now q = Some e -> sorted_cmd e).
  { intros e E. pose proof (v_sort _ _ V) as SO. unfold entries, now_list in SO. rewrite E in SO. apply Forall_app in SO. destruct SO as [_ SO]. apply Forall_inv in SO. exact SO. }
  destruct G; try congruence.
  - apply (sends_keep q); [exact P|reflexivity|auto].
  - apply (sends_keep q); [exact P| |auto]. unfold entries. cbn. change (now_list _) with (now_list q). rewrite !filter_app. cbn. rewrite app_nil_r. reflexivity.
  - rename n0 into k. destruct (Nat.eq_dec k n) as [->|N].
    + right. exists a. split; [|exists st, m; auto]. unfold entries. cbn. change (now_list _) with (now_list q). rewrite in_channel_is in H2. apply filter_none in H2.
      unfold entries in H2. rewrite filter_app in H2. apply app_eq_nil in H2. destruct H2 as [E1 E2]. rewrite !filter_app, E1, E2. cbn. unfold waits. cbn. rewrite Nat.eqb_refl. reflexivity.
    + apply (sends_keep q); [exact P| |auto]. unfold entries. cbn. change (now_list _) with (now_list q). rewrite !filter_app. cbn. unfold waits at 2. cbn.
      destruct (Nat.eqb_spec k n); [contradiction|]. rewrite app_nil_r. reflexivity.
  - apply (sends_keep q); [exact P| |auto]. assert (EN : entries q = e :: rest) by (unfold entries, now_list; rewrite H0, H1; apply app_nil_r). rewrite EN. match goal with |- Permutation (filter _ (entries ?z)) _ => change (entries z) with (rest ++ [e]) end. rewrite filter_app. cbn [filter].
    destruct (waits (FSend n) e); [|rewrite app_nil_r; reflexivity]. symmetry. apply Permutation_cons_append.
  - apply (sends_keep q); [exact P| |].
    + assert (EN : entries q = e :: rest) by (unfold entries, now_list; rewrite H0, H1; apply app_nil_r). rewrite EN. match goal with |- Permutation (filter _ (entries ?z)) _ => change (entries z) with (rest ++ [e]) end. rewrite filter_app. cbn [filter].
      destruct (waits (FSend n) e); [|rewrite app_nil_r; reflexivity]. symmetry. apply Permutation_cons_append.
    + intros b C. eapply connecting_keeps; [exact H3|exact C|]. unfold begins. destruct (e_gone e); [exact Logic.I|]. destruct to; exact Logic.I.
  - assert (EN : entries q = q_chan q ++ [e]) by (unfold entries, now_list; rewrite H; reflexivity).
    assert (EN' : entries (with_now None (with_rt s' q)) = q_chan q) by (unfold entries; cbn; apply app_nil_r).
    unfold sends_at in *. rewrite EN, filter_app in P. rewrite EN'. cbn [filter] in P. destruct (waits (FSend n) e) eqn:W.
    + left. destruct P as [P|(b' & P & _)]; [destruct (app_cons_not_nil _ _ _ (eq_sym P))|]. destruct (filter (waits (FSend n)) (q_chan q)) as [|y z]; [reflexivity|].
      injection P as _ P. destruct (app_cons_not_nil _ _ _ (eq_sym P)).
    + rewrite app_nil_r in P. destruct P as [P|(b' & P & C)]; [left; exact P|]. right. exists b'. split; [exact P|]. eapply connecting_keeps; [exact H2|exact C|].
      unfold connects in H1. destruct (e_gone e) eqn:GE; [subst b; exact Logic.I|]. destruct H1 as (k & F & ->). intros ->. unfold waits in W. rewrite GE, F, qfrom_refl in W. discriminate.
  - apply (sends_keep q); [exact P|reflexivity|]. intros b C. eapply connecting_keeps; [exact H1|exact C|exact Logic.I].
  - apply (sends_keep q); [exact P| |].
    + assert (EN : entries q = q_chan q ++ [e]) by (unfold entries, now_list; rewrite H; reflexivity).
      rewrite EN, filter_app. cbn [filter]. rewrite (call_entry e n) by eauto. unfold entries. change (now_list _) with (@nil qentry). rewrite !app_nil_r. reflexivity.
    + intros b C. cbn. eapply drop_keeps; [exact H4| |eapply connecting_keeps; [exact H1|exact C|exact Logic.I]]. intros m i ->. eapply served_free. exact H1.
  - apply (sends_keep q); [exact P| |].
    + assert (EN : entries q = q_chan q ++ [e]) by (unfold entries, now_list; rewrite H; reflexivity).
      rewrite EN, filter_app. cbn [filter]. rewrite (call_entry e n) by eauto. unfold entries. change (now_list _) with (@nil qentry). rewrite !app_nil_r. reflexivity.
    + intros b C. eapply connecting_keeps; [exact H1|exact C|exact Logic.I].
  - apply (sends_keep q); [exact P|reflexivity|auto].
  - apply (sends_keep q); [exact P|reflexivity|auto].
  - apply (sends_keep q); [exact P| |].
    + unfold entries. rewrite now_lose. change (now_list (with_rt _ _)) with (now_list q). change (q_chan (unwatch _ _)) with (map (lose (FCall t)) (q_chan q)).
      rewrite !filter_app, !waits_lose_other by discriminate. reflexivity.
    + intros b C. eapply connecting_keeps; [exact H1|exact C|exact Logic.I].
  - apply (sends_keep q); [exact P| |auto].
    unfold entries. rewrite now_lose. change (now_list (set_call _ _ _)) with (now_list q). change (q_chan (unwatch _ _)) with (map (lose (FCall t)) (q_chan q)).
    rewrite !filter_app, !waits_lose_other by discriminate. reflexivity.
  - apply (sends_keep q); [exact P|reflexivity|]. intros b C. cbn. eapply drop_keeps; [exact H0| |exact C].
    intros m i ->. eapply (v_held _ _ V); [eapply nth_error_In; exact H|reflexivity].
  - rename n0 into k. destruct (Nat.eq_dec k n) as [->|N].
    + left. unfold entries. rewrite now_lose. change (now_list (with_rt _ _)) with (now_list q). change (q_chan (unwatch _ _)) with (map (lose (FSend n)) (q_chan q)).
      rewrite filter_app, !waits_lose. reflexivity.
    + apply (sends_keep q); [exact P| |].
      * unfold entries. rewrite now_lose. change (now_list (with_rt _ _)) with (now_list q). change (q_chan (unwatch _ _)) with (map (lose (FSend k)) (q_chan q)).
        rewrite !filter_app, !waits_lose_other by congruence. reflexivity.
      * intros b C. eapply connecting_keeps; [exact H|exact C|exact N].
  - apply (sends_keep q); [exact P|reflexivity|]. intros b C. eapply connecting_keeps; [exact H0|exact C|exact Logic.I].
  - apply (sends_keep q); [exact P|reflexivity|auto].
  - apply (sends_keep q); [exact P|reflexivity|]. intros b C. eapply connecting_keeps; [exact H0|exact C|]. destruct C as (st & m & X & _ & PC).
    destruct e; try exact Logic.I; try discriminate H; intros ->; cbn in H; unfold stub_pc in H; rewrite X, PC in H; cbn in H; rewrite ?andb_false_r in H; discriminate H.
Qed.
Lemma sort_step tr q x q' o l : qinv tr q -> qgoes q x q' o l -> Forall sorted_cmd (entries q').
Proof.
  intros V G. pose proof (v_sort _ _ V) as P. pose proof (not_refused _ _ _ _ _ _ V G) as NR.
  assert (LO : forall f l, Forall sorted_cmd l -> Forall sorted_cmd (map (lose f) l)).
  { intros f z F. apply Forall_map. eapply Forall_impl; [|exact F]. intros e. unfold lose. destruct (waits f e); auto. }
  unfold entries in *. apply Forall_app in P. destruct P as [P1 P2]. apply Forall_app.
  destruct G; try congruence; cbn [q_chan with_rt with_chan with_now with_calls with_over set_call]; try (split; [exact P1|exact P2]).
  - split; [|exact P2]. apply Forall_app. split; [exact P1|]. constructor; [exact Logic.I|constructor].
  - split; [|exact P2]. apply Forall_app. split; [exact P1|]. constructor; [exact Logic.I|constructor].
  - change (now_list _) with [e]. rewrite H1 in P1. inversion P1; subst. split; [assumption|]. constructor; [assumption|constructor].
  - change (now_list _) with [e]. rewrite H1 in P1. inversion P1; subst. split; [assumption|]. constructor; [assumption|constructor].
  - split; [exact P1|constructor].
  - split; [exact P1|constructor].
  - split; [exact P1|constructor].
  - rewrite now_lose. split; apply LO; assumption.
  - rewrite now_lose. split; apply LO; assumption.
  - rewrite now_lose. split; apply LO; assumption.
Qed.
Lemma lost_now f q : match q_now (unwatch f q) with Some e => Some (e_cmd e) | None => None end = match q_now q with Some e => Some (e_cmd e) | None => None end.
Proof. unfold unwatch. cbn. destruct (q_now q) as [e|]; [|reflexivity]. cbn. unfold lose. destruct (waits f e); reflexivity. Qed.
Lemma ep_with_is q : ep_with q <-> match match q_now q with Some e => Some (e_cmd e) | None => None end with
  | Some (KCall id to) => in_call (r_ep (q_rt q)) = Some (id, to) | _ => r_ep (q_rt q) = EpWait end.
Proof. unfold ep_with. destruct (q_now q) as [e|]; [|tauto]. destruct (e_cmd e); tauto. Qed.
Lemma ep_step tr q x q' o l : qinv tr q -> qgoes q x q' o l -> ep_with q'.
Proof.
  intros V G. pose proof (v_ep _ _ V) as P. pose proof (not_refused _ _ _ _ _ _ V G) as NR.
  destruct G; try congruence; try exact P.
  - unfold ep_with in *. cbn. rewrite H2. rewrite H0 in P. exact P.
  - unfold ep_with in *. cbn. rewrite H2. rewrite H0 in P. unfold begins in H3. destruct (e_gone e) eqn:GE.
    + destruct (take_step _ _ _ _ _ (e_cmd e) H3) as [_ E]; [|rewrite H2 in E; exact E].
      apply place_in. rewrite (v_left _ _ V). unfold gone_cmds. rewrite H1. cbn. unfold gone_part at 1. rewrite GE. left. reflexivity.
    + eapply begin_step; [exact H3|reflexivity].
  - unfold ep_with in *. cbn. rewrite H, H0 in P. unfold connects in H1. destruct (e_gone e) eqn:GE.
    + subst b. rewrite H0 in H2. destruct (take_step _ _ _ _ _ (KConnect a) H2) as [_ E]; [|exact E].
      apply place_in. rewrite (v_left _ _ V). unfold gone_cmds, now_list. rewrite H. apply in_app_iff. right. cbn. unfold gone_now, gone_part. rewrite H0, GE. left. reflexivity.
    + destruct H1 as (n & F & ->). rewrite (ep_keeps _ _ _ _ H2) by exact Logic.I. exact P.
  - unfold ep_with in *. cbn. rewrite H, H0 in *. destruct (ep_goes _ _ _ _ H1) as (id' & to' & C & R). rewrite H2 in R. congruence.
  - unfold ep_with in *. cbn. rewrite (proj1 (proj2 (drops_left _ _ _ _ H4))). destruct (ep_goes _ _ _ _ H1) as (id' & to' & C & R). rewrite H2 in R. apply R.
  - unfold ep_with in *. cbn. destruct (ep_goes _ _ _ _ H1) as (id' & to' & C & R). rewrite H2 in R. apply R.
  - rewrite ep_with_is in *. rewrite lost_now. cbn. rewrite (ep_keeps _ _ _ _ H1) by exact Logic.I. exact P.
  - rewrite ep_with_is in *. rewrite lost_now. exact P.
  - rewrite ep_with_is in *. cbn. rewrite (proj1 (proj2 (drops_left _ _ _ _ H0))). exact P.
  - rewrite ep_with_is in *. rewrite lost_now. cbn. rewrite (ep_keeps _ _ _ _ H) by exact Logic.I. exact P.
  - rewrite ep_with_is in *. cbn. rewrite (ep_keeps _ _ _ _ H0) by exact Logic.I. exact P.
  - rewrite ep_with_is in *. cbn. rewrite (ep_keeps _ _ _ _ H0); [exact P|]. destruct e; try exact Logic.I; discriminate H.
Qed.
Lemma in_upd {A} (x : A) n f l : In x (upd n f l) -> In x l \/ exists y, nth_error l n = Some y /\ x = f y.
Proof. intros I. apply In_nth_error in I. destruct I as [k X]. apply upd_is in X. destruct X as [[_ X]|(_ & y & Y & ->)]; [left; eapply nth_error_In; exact X|right; eauto]. Qed.
Lemma now_call tr q e t : qinv tr q -> q_now q = Some e -> e_gone e = false -> e_from e = FCall t ->
  exists id to, nth_error (q_calls q) t = Some (mkK id to CIn) /\ e_cmd e = KCall id to.
Proof.
  intros V E G F. pose proof (v_call _ _ V t) as L. unfold lives, now_list in L. rewrite E in L. cbn in L. rewrite F, qfrom_refl in L.
  destruct e as [ef ec eg]. cbn in *. subst. destruct (nth_error (q_calls q) t) as [k|]; inversion L; subst. eauto.
Qed.
Lemma open_step tr q x q' o l : qinv tr q -> qgoes q x q' o l -> forall k, In k (q_calls q') -> k_stat k <> COver -> r_open (q_rt q') = true.
Proof.
  intros V G k I N. pose proof (v_open _ _ V) as P. pose proof (not_refused _ _ _ _ _ _ V G) as NR.
  assert (UP : forall t s kk, nth_error (q_calls q) t = Some kk -> k_stat kk <> COver -> In k (upd t (k_now s) (q_calls q)) -> r_open (q_rt q) = true).
  { intros t s kk T NO J. eapply P; [eapply nth_error_In; exact T|exact NO]. }
  destruct G; try congruence; cbn [q_calls q_rt unwatch with_rt with_chan with_now with_calls with_over set_call] in *; try (eapply P; eassumption).
  - apply H.
  - eapply UP; [exact H|discriminate|exact I].
  - eapply open_keeps; [exact H3| |eapply P; eassumption]. unfold begins. destruct (e_gone e); [discriminate|]. destruct to; discriminate.
  - eapply open_keeps; [exact H2| |eapply P; eassumption]. unfold connects in H1. destruct (e_gone e); [subst b; discriminate|]. destruct H1 as (? & _ & ->). discriminate.
  - eapply open_keeps; [exact H1|discriminate|eapply P; eassumption].
  - apply (drops_left _ _ _ _ H4). eapply open_keeps; [exact H1|discriminate|]. eapply P; eassumption.
  - eapply open_keeps; [exact H1|discriminate|]. destruct (now_call _ _ _ _ V H H3 H4) as (i & z & T & _). eapply UP; [exact T|discriminate|exact I].
  - eapply UP; [exact H|discriminate|exact I].
  - eapply UP; [exact H|discriminate|exact I].
  - eapply open_keeps; [exact H1|discriminate|]. eapply UP; [exact H|discriminate|exact I].
  - eapply UP; [exact H|discriminate|exact I].
  - apply (drops_left _ _ _ _ H0). eapply UP; [exact H|discriminate|exact I].
  - eapply open_keeps; [exact H|discriminate|eapply P; eassumption].
  - exfalso. exact (N (H _ I)).
  - eapply open_keeps; [exact H0| |eapply P; eassumption]. destruct e; try discriminate; discriminate H.
Qed.
Lemma dropped_over s o l s' : dropped_answer s o l s' -> over s -> over s'.
Proof. unfold dropped_answer. destruct (drop_answer o) as [d|]; [|intros [-> _]; auto]. intros (o' & S & _). eapply over_step. exact S. Qed.
Lemma over_step' tr q x q' o l : qinv tr q -> qgoes q x q' o l -> q_over q' = true -> q_chan q' = [] /\ q_now q' = None /\ over (q_rt q').
Proof.
  intros V G O. pose proof (v_over _ _ V) as P. pose proof (not_refused _ _ _ _ _ _ V G) as NR.
  destruct G; try congruence; cbn in O |- *; try (exfalso; congruence); try (specialize (P O); destruct P as (P1 & P2 & P3)); try (exfalso; congruence); try (auto; fail).
  - rewrite P1, P2. split; [reflexivity|]. split; [reflexivity|]. eapply over_step; eassumption.
  - rewrite P1, P2. auto.
  - split; [exact P1|]. split; [exact P2|]. eapply dropped_over; eassumption.
  - rewrite P1, P2. split; [reflexivity|]. split; [reflexivity|]. eapply over_step; eassumption.
  - split; [exact P1|]. split; [exact P2|]. eapply over_step; eassumption.
  - split; [assumption|]. split; [assumption|]. split; [assumption|]. pose proof (v_ep _ _ V) as E. unfold ep_with in E. rewrite H0 in E. split; [exact E|].
    pose proof (v_left _ _ V) as L. unfold gone_cmds, now_list in L. rewrite H0, H1 in L. apply Permutation_sym, Permutation_nil in L. exact L.
  - split; [exact P1|]. split; [exact P2|]. eapply over_step; eassumption.
Qed.
Lemma dropped_free s o l s' n : dropped_answer s o l s' -> stub_pc n s = SFree -> stub_pc n s' = SFree.
Proof.
  unfold dropped_answer. destruct (drop_answer o) as [d|] eqn:D; [|intros [-> _]; auto]. intros (o' & S & _) F. eapply free_keeps; [exact S|exact F|].
  destruct o; try discriminate D; injection D as <-; exact Logic.I.
Qed.
Lemma held_step tr q x q' o l : qinv tr q -> qgoes q x q' o l -> forall k n id, In k (q_calls q') -> k_stat k = CAnswered (OStub n id) -> stub_pc n (q_rt q') = SFree.
Proof.
  intros V G k n id I A. pose proof (v_held _ _ V) as P. pose proof (not_refused _ _ _ _ _ _ V G) as NR.
  assert (UP : forall t s, In k (upd t (k_now s) (q_calls q)) -> (forall m i, s <> CAnswered (OStub m i)) -> stub_pc n (q_rt q) = SFree).
  { intros t s J N. apply in_upd in J. destruct J as [J|(y & Y & ->)]; [eapply P; eassumption|]. cbn in A. destruct (N _ _ A). }
  destruct G; try congruence; cbn [q_calls q_rt unwatch with_rt with_chan with_now with_calls with_over set_call] in *; try (eapply P; eassumption).
  - apply in_app_iff in I. destruct I as [I|[<-|[]]]; [eapply P; eassumption|discriminate A].
  - eapply UP; [exact I|discriminate].
  - eapply free_keeps; [exact H3|eapply P; eassumption|]. unfold begins. destruct (e_gone e); [exact Logic.I|]. destruct to; exact Logic.I.
  - eapply free_keeps; [exact H2|eapply P; eassumption|]. unfold connects in H1. destruct (e_gone e); [subst b; exact Logic.I|]. destruct H1 as (? & _ & ->). exact Logic.I.
  - eapply free_keeps; [exact H1|eapply P; eassumption|exact Logic.I].
  - eapply dropped_free; [exact H4|]. eapply free_keeps; [exact H1|eapply P; eassumption|exact Logic.I].
  - apply in_upd in I. destruct I as [I|(y & Y & ->)]; [eapply free_keeps; [exact H1|eapply P; eassumption|exact Logic.I]|].
    cbn in A. injection A as ->. eapply served_free. exact H1.
  - eapply UP; [exact I|discriminate].
  - eapply UP; [exact I|discriminate].
  - eapply free_keeps; [exact H1|eapply UP; [exact I|discriminate]|exact Logic.I].
  - eapply UP; [exact I|discriminate].
  - eapply dropped_free; [exact H0|]. eapply UP; [exact I|discriminate].
  - eapply free_keeps; [exact H|eapply P; eassumption|exact Logic.I].
  - eapply free_keeps; [exact H0|eapply P; eassumption|exact Logic.I].
  - eapply free_keeps; [exact H0|eapply P; eassumption|]. destruct e; try exact Logic.I. intros ->. cbn in H. unfold stub_out in H. apply negb_true_iff in H.
    assert (T : existsb (holds_stub n) (q_calls q) = true); [|congruence]. apply existsb_exists. exists k. split; [exact I|]. unfold holds_stub. rewrite A. apply Nat.eqb_refl.
Qed.
Lemma invariant tr q : qhistory tr q -> qinv tr q.
Proof.
  induction 1 as [|tr q x q' o l HH V ST].
  - constructor; cbn; try reflexivity; try tauto; try discriminate; try constructor.
    + intros t. unfold lives. cbn. destruct t; constructor.
    + reflexivity.
  - pose proof (qstepped _ _ _ _ _ ST) as G. constructor.
    + eapply left_step; eassumption.
    + intros t. unfold life. rewrite flat_map_app. cbn. rewrite app_nil_r. eapply lives_step; [exact G| | | |apply (v_call _ _ V)].
      * right. eapply not_refused; eassumption.
      * apply (v_ep _ _ V).
      * pose proof (v_sort _ _ V) as P. unfold entries in P. apply Forall_app in P. apply P.
    + eapply send_step; eassumption.
    + eapply sort_step; eassumption.
    + eapply ep_step; eassumption.
    + eapply open_step; eassumption.
    + eapply over_step'; eassumption.
    + eapply held_step; eassumption.
Qed.

(** ** The life of a call *)
Theorem call_life tr q t : qhistory tr q -> exists id to o l rest, whole_life id to o l /\ life t tr ++ rest = l /\ (forall o', In (MDone o') (life t tr) -> fits id to o').
Proof.
  intros H. pose proof (v_call _ _ (invariant _ _ H) t) as L. unfold lives in L. unfold whole_life. inversion L.
  - exists (0,0)%N, None, OError. eexists. eexists. split; [left; reflexivity|]. split; [reflexivity|]. intros ? [].
  - exists id, to, OError. eexists. eexists. split; [left; reflexivity|]. split; [reflexivity|]. cbn. intuition discriminate.
  - exists id, to, OError. eexists. eexists. split; [left; reflexivity|]. split; [reflexivity|]. cbn. intuition discriminate.
  - exists id, to, OError. eexists. eexists. split; [left; reflexivity|]. split; [reflexivity|]. cbn. intuition discriminate.
  - exists id, to, o. eexists. eexists. split; [left; reflexivity|]. split; [reflexivity|]. cbn. intuition (try discriminate). congruence.
  - exists id, to, OError. eexists. eexists. split; [right; left; reflexivity|]. split; [reflexivity|]. cbn. intuition discriminate.
  - exists id, to, OError. eexists. eexists. split; [right; right; left; reflexivity|]. split; [reflexivity|]. cbn. intuition discriminate.
  - exists id, to, OError. eexists. eexists. split; [right; right; left; reflexivity|]. split; [reflexivity|]. cbn. intuition discriminate.
  - exists id, to, OError. eexists. eexists. split; [right; right; right; left; reflexivity|]. split; [reflexivity|]. cbn. intuition discriminate.
  - exists id, to, o. eexists. exists []. split; [|split; [apply app_nil_r|]]; [exact H4|]. unfold whole_life in H4.
    intros o' I. destruct H4 as [E|[E|[E|[E|E]]]]; rewrite E in I; cbn in I; intuition (try discriminate); congruence.
Qed.
Theorem never_refused tr q : qhistory tr q -> forall p, In p tr -> seen p <> QRefused.
Proof.
  induction 1 as [|tr q x q' o l HH IH ST]; [intros p []|]. intros p I. apply in_app_iff in I. destruct I as [I|[<-|[]]]; [exact (IH p I)|].
  eapply not_refused; [apply invariant; exact HH|apply qstepped; exact ST].
Qed.

(** ** Whose a stub or proxy is *)
Definition names (o : obs) : option (bool * nat) := match o with OStub n _ => Some (false, n) | OProxy n _ _ => Some (true, n) | _ => None end.
Definition count (b : bool) (s : rt) : nat := if b then length (r_proxies s) else length (r_stubs s).
Definition there (b : bool) (n : nat) (s : rt) : bool :=
  if b then match nth_error (r_proxies s) n with Some p => px_alive p | None => false end
  else match nth_error (r_stubs s) n with Some p => st_alive p | None => false end.
Lemma names_fresh s e s' o b : step s e = Some (s', o) ->
  match e with EEp _ => match names o with Some (c, n) => n = count c s /\ count b s' = count b s + (if Bool.eqb c b then 1 else 0) | None => count b s' = count b s end
  | _ => count b s' = count b s end.
Proof.
  intros S. unfold count. destruct b, e; step_cases S; rcbn; cbn; rewrite ?app_length, ?length_upd; cbn; try lia.
Qed.
Lemma there_old s e s' o b n : step s e = Some (s', o) -> there b n s' = true -> there b n s = true \/ (exists ok, e = EEp ok) /\ names o = Some (b, n).
Proof.
  intros S. unfold there. destruct b, e; step_cases S; rcbn; cbn [names]; auto.
  all: intros T; match goal with
    | T : context [nth_error (?l ++ [?y]) ?k] |- _ => destruct (nth_error (l ++ [y]) k) as [z|] eqn:E; [|discriminate T]; apply nth_snoc in E; destruct E as [E|[-> ->]]; [left; rewrite E; exact T|right; split; [eauto|reflexivity]]
    | T : context [nth_error (upd ?j ?f ?l) ?k] |- _ => destruct (nth_error (upd j f l) k) as [z|] eqn:E; [|discriminate T]; apply upd_is in E;
        destruct E as [[_ E]|(-> & y & Y & ->)]; [left; rewrite E; exact T|left; rewrite Y; cbn in T; first [exact T|discriminate T|congruence]]
    end.
Qed.
Lemma dropped_there s o l s' b n : dropped_answer s o l s' -> there b n s' = true -> there b n s = true /\ names o <> Some (b, n).
Proof.
  unfold dropped_answer. destruct (drop_answer o) as [d|] eqn:D.
  - intros (o' & S & _) T. split.
    + destruct (there_old _ _ _ _ _ _ S T) as [K|[[ok ->] _]]; [exact K|]. destruct o; discriminate D.
    + intros NM. destruct o; try discriminate NM; injection NM as <- <-; injection D as <-; cbn in S; cases_in S; injection S as <- <-; unfold there in T; rcbn;
        rewrite nth_upd_same in T; rewrite Heqo in T; discriminate T.
  - intros [-> _] T. split; [exact T|]. intros NM. destruct o; discriminate.
Qed.
Lemma dropped_count s o l s' b : dropped_answer s o l s' -> count b s' = count b s.
Proof.
  unfold dropped_answer. destruct (drop_answer o) as [d|] eqn:D; [|intros [-> _]; reflexivity]. intros (o' & S & _). pose proof (names_fresh _ _ _ _ b S) as F.
  destruct o; try discriminate D; injection D as <-; exact F.
Qed.

Lemma done_mark u x o l o' : In (MDone o') (mark_of u (x, o, l)) <-> exists c, o = QDone (FCall u) c o'.
Proof.
  split.
  - unfold mark_of. destruct x as [| | | | |[?|?]| | |], o as [|?|[?|?] ?| |[?|?] ?|[?|?] ? ?|? ?]; cbn; try tauto;
      repeat match goal with |- context [?a =? ?b] => destruct (Nat.eqb_spec a b) end; cbn; intuition (try discriminate); subst; match goal with E : MDone _ = MDone _ |- _ => injection E as -> end; eexists; reflexivity.
  - intros [c ->]. destruct x as [| | | | |[?|?]| | |]; cbn; rewrite Nat.eqb_refl; left; reflexivity.
Qed.
Lemma drop_mark u x o l : In MDropped (mark_of u (x, o, l)) -> x = QDrop (FCall u).
Proof.
  unfold mark_of. destruct x as [| | | | |[?|?]| | |], o as [|?|[?|?] ?| |[?|?] ?|[?|?] ? ?|? ?]; cbn; try tauto;
      repeat match goal with |- context [?a =? ?b] => destruct (Nat.eqb_spec a b) end; cbn; intuition (try discriminate); subst; reflexivity.
Qed.
Record owned (tr : list qlog) (q : qst) : Prop := {
  o_old : forall t o b n, In (MDone o) (life t tr) -> names o = Some (b, n) -> n < count b (q_rt q);
  o_one : forall t u o p b n, In (MDone o) (life t tr) -> In (MDone p) (life u tr) -> names o = Some (b, n) -> names p = Some (b, n) -> t = u;
  o_own : forall b n, there b n (q_rt q) = true -> exists t o, has_answer t o tr /\ names o = Some (b, n) }.
Lemma life_snoc t tr p : life t (tr ++ [p]) = life t tr ++ mark_of t p.
Proof. unfold life. rewrite flat_map_app. cbn. rewrite app_nil_r. reflexivity. Qed.

(** A step that finishes a call, and every other step. *)
Lemma counts_grow q x q' o l b : qgoes q x q' o l -> o <> QRefused -> 
  (exists f c p n, o = QDone f c p /\ names p = Some (b, n) /\ n = count b (q_rt q) /\ count b (q_rt q') = S n) \/
  (count b (q_rt q') = count b (q_rt q) /\ forall f c p n, o = QDone f c p -> names p <> Some (b, n)).
Proof.
  intros G NR.
  assert (K : forall e s' p, step (q_rt q) e = Some (s', p) -> match e with EEp _ => False | _ => True end -> count b s' = count b (q_rt q)).
  { intros e s' p S NE. pose proof (names_fresh _ _ _ _ b S) as F. destruct e; try contradiction; exact F. }
  assert (F : forall ok s1 p, step (q_rt q) (EEp ok) = Some (s1, p) -> is_answer p = true ->
    (exists n, names p = Some (b, n) /\ n = count b (q_rt q) /\ count b s1 = S n) \/ (count b s1 = count b (q_rt q) /\ forall n, names p <> Some (b, n))).
  { intros ok s1 p S A. pose proof (names_fresh _ _ _ _ b S) as F. cbn in F. destruct (names p) as [[c n]|].
    - destruct F as [-> F]. destruct (Bool.eqb c b) eqn:E.
      + left. apply Bool.eqb_prop in E. subst c. exists (count b (q_rt q)). split; [reflexivity|]. split; [reflexivity|lia].
      + right. split; [lia|]. intros n EQ. injection EQ as -> _. rewrite Bool.eqb_reflx in E. discriminate.
    - right. split; [exact F|discriminate]. }
  destruct G; try congruence; cbn [q_rt unwatch with_rt with_chan with_now with_calls with_over set_call] in *.
  all: try (right; split; [reflexivity|discriminate]).
  - right. split; [eapply K; [exact H3|]|discriminate]. unfold begins. destruct (e_gone e); [exact Logic.I|]. destruct to; exact Logic.I.
  - right. assert (NE : match b0 with EEp _ => False | _ => True end) by (unfold connects in H1; destruct (e_gone e); [subst; exact Logic.I|destruct H1 as (? & _ & ->); exact Logic.I]).
    split; [eapply K; [exact H2|exact NE]|]. intros f c p n EQ. injection EQ as _ _ <-. 
    unfold connects in H1. destruct (e_gone e); [subst b0|destruct H1 as (k & _ & ->)]; step_cases H2; cbn; discriminate.
  - right. pose proof (names_fresh _ _ _ _ b H1) as N. cbn in N. split; [destruct (names o) as [[? ?]|] eqn:NM; [destruct o; discriminate|exact N]|discriminate].
  - rewrite (dropped_count _ _ _ _ _ H4). destruct (F _ _ _ H1 H2) as [(n & A & B & C)|[A B]]; [left|right].
    + exists (e_from e), (e_cmd e), o, n. auto.
    + split; [exact A|]. intros f c p n EQ. injection EQ as _ _ <-. apply B.
  - destruct (F _ _ _ H1 H2) as [(n & A & B & C)|[A B]]; [left|right].
    + exists (e_from e), (e_cmd e), o, n. auto.
    + split; [exact A|]. intros f c p n EQ. injection EQ as _ _ <-. apply B.
  - right. split; [eapply K; [exact H1|exact Logic.I]|discriminate].
  - right. split; [eapply dropped_count; exact H0|discriminate].
  - right. split; [eapply K; [exact H|exact Logic.I]|discriminate].
  - right. split; [eapply K; [exact H0|exact Logic.I]|discriminate].
  - right. split; [eapply K; [exact H0|]|discriminate]. destruct e; try exact Logic.I; discriminate H.
Qed.
Lemma there_step tr q x q' o l b n : qinv tr q -> qgoes q x q' o l -> there b n (q_rt q') = true ->
  (there b n (q_rt q) = true /\ forall t p, x = QDrop (FCall t) -> has_answer t p tr -> names p <> Some (b, n)) \/
  exists t c p, o = QDone (FCall t) c p /\ names p = Some (b, n) /\ ~ In MDropped (life t tr) /\ forall u, x <> QDrop (FCall u).
Proof.
  intros V G T. pose proof (not_refused _ _ _ _ _ _ V G) as NR.
  assert (K : forall e s' p, step (q_rt q) e = Some (s', p) -> match e with EEp _ => False | _ => True end -> there b n s' = true -> there b n (q_rt q) = true).
  { intros e s' p S NE T'. destruct (there_old _ _ _ _ _ _ S T') as [A|[[ok ->] _]]; [exact A|contradiction]. }
  assert (AN : forall t id to st p, nth_error (q_calls q) t = Some (mkK id to st) -> has_answer t p tr -> st = CAnswered p \/ st = COver).
  { intros t id to st p TT [A B]. pose proof (v_call _ _ V t) as L. unfold lives in L. rewrite TT in L.
    inversion L; subst; auto; repeat match goal with E : _ = life t tr |- _ => rewrite <- E in A end; cbn in A; intuition (try discriminate). left. congruence. }
  destruct G; try congruence; cbn [q_rt unwatch with_rt with_chan with_now with_calls with_over set_call] in *.
  all: try (left; split; [exact T|discriminate]).
  - left. split; [eapply K; [exact H3| |exact T]|discriminate]. unfold begins. destruct (e_gone e); [exact Logic.I|]. destruct to; exact Logic.I.
  - left. split; [eapply K; [exact H2| |exact T]|discriminate]. unfold connects in H1. destruct (e_gone e); [subst; exact Logic.I|destruct H1 as (? & _ & ->); exact Logic.I].
  - left. split; [|discriminate]. destruct (there_old _ _ _ _ _ _ H1 T) as [A|[_ A]]; [exact A|]. destruct o; discriminate.
  - left. split; [|discriminate]. destruct (dropped_there _ _ _ _ _ _ H4 T) as [A B]. destruct (there_old _ _ _ _ _ _ H1 A) as [C|[_ C]]; [exact C|contradiction].
  - destruct (there_old _ _ _ _ _ _ H1 T) as [A|[_ A]]; [left; split; [exact A|discriminate]|]. right. rewrite H4. exists t, (e_cmd e), o.
    split; [reflexivity|]. split; [exact A|]. split; [|discriminate]. pose proof (v_call _ _ V t) as L. unfold lives, now_list in L. rewrite H in L. cbn in L. rewrite H4, qfrom_refl in L.
    destruct e as [ef ec eg]. cbn in *. subst. inversion L. cbn. intuition discriminate.
  - left. split; [exact T|]. intros u p E A. injection E as <-. destruct (AN _ _ _ _ _ H A); discriminate.
  - left. split; [eapply K; [exact H1|exact Logic.I|exact T]|]. intros u p E A. injection E as <-. destruct (AN _ _ _ _ _ H A); discriminate.
  - left. split; [exact T|]. intros u p E A. injection E as <-. destruct (AN _ _ _ _ _ H A); discriminate.
  - destruct (dropped_there _ _ _ _ _ _ H0 T) as [A B]. left. split; [exact A|]. intros u p E C. injection E as <-.
    destruct (AN _ _ _ _ _ H C) as [D|D]; [injection D as ->; exact B|discriminate].
  - left. split; [eapply K; [exact H|exact Logic.I|exact T]|discriminate].
  - left. split; [eapply K; [exact H0|exact Logic.I|exact T]|discriminate].
  - left. split; [eapply K; [exact H0| |exact T]|discriminate]. destruct e; try exact Logic.I; discriminate H.
Qed.
Lemma ownership tr q : qhistory tr q -> owned tr q.
Proof.
  induction 1 as [|tr q x q' o l HH IH ST].
  - constructor; cbn; try (intros; contradiction). intros [] [|n]; discriminate.
  - pose proof (invariant _ _ HH) as V. pose proof (qstepped _ _ _ _ _ ST) as G. pose proof (not_refused _ _ _ _ _ _ V G) as NR. destruct IH as [O1 O2 O3]. constructor.
    + intros t p b n I NM. rewrite life_snoc in I. apply in_app_iff in I. destruct (counts_grow _ _ _ _ _ b G NR) as [(f & c & p' & n' & E & NM' & N' & C)|[C N']].
      * destruct I as [I|I]; [specialize (O1 _ _ _ _ I NM); lia|]. apply done_mark in I. destruct I as [c' E']. rewrite E' in E. injection E as <- <- <-.
        rewrite NM in NM'. injection NM' as <-. lia.
      * destruct I as [I|I]; [specialize (O1 _ _ _ _ I NM); lia|]. apply done_mark in I. destruct I as [c' E']. destruct (N' _ _ _ n E' NM).
    + intros t u p r b n I J NI NJ. rewrite life_snoc in I, J. apply in_app_iff in I, J.
      assert (MIX : forall t0 u0 p0 r0, In (MDone p0) (life t0 tr) -> In (MDone r0) (mark_of u0 (x, o, l)) -> names p0 = Some (b, n) -> names r0 = Some (b, n) -> False).
      { intros t0 u0 p0 r0 A B C D. specialize (O1 _ _ _ _ A C). apply done_mark in B. destruct B as [c E].
        destruct (counts_grow _ _ _ _ _ b G NR) as [(f & c' & p' & n' & E' & NM' & N' & CC)|[CC N']]; [|exact (N' _ _ _ n E D)].
        rewrite E in E'. injection E' as <- <- <-. rewrite D in NM'. injection NM' as <-. lia. }
      destruct I as [I|I], J as [J|J].
      * eapply O2; eassumption.
      * destruct (MIX _ _ _ _ I J NI NJ).
      * destruct (MIX _ _ _ _ J I NJ NI).
      * apply done_mark in I, J. destruct I as [c1 E1], J as [c2 E2]. congruence.
    + intros b n T. destruct (there_step _ _ _ _ _ _ _ _ V G T) as [[A B]|(t & c & p & E & NM & ND & NX)].
      * destruct (O3 _ _ A) as (t & p & HA & NM). exists t, p. split; [|exact NM]. destruct HA as [H1 H2]. split; rewrite life_snoc, in_app_iff; [left; exact H1|].
        intros [D|D]; [exact (H2 D)|]. apply drop_mark in D. exact (B _ _ D (conj H1 H2) NM).
      * exists t, p. split; [|exact NM]. split; rewrite life_snoc, in_app_iff; [right; apply done_mark; eauto|]. intros [D|D]; [exact (ND D)|]. apply drop_mark in D. exact (NX _ D).
Qed.
Theorem stub_owned tr q n st : qhistory tr q -> nth_error (r_stubs (q_rt q)) n = Some st -> st_alive st = true ->
  exists t id, has_answer t (OStub n id) tr /\ forall u id', has_answer u (OStub n id') tr -> u = t.
Proof.
  intros H X A. destruct (ownership _ _ H) as [_ O2 O3]. destruct (O3 false n) as (t & o & HA & NM); [unfold there; rewrite X; exact A|].
  destruct o; try discriminate NM. injection NM as ->. exists t, id. split; [exact HA|]. intros u id' HB. eapply O2; [apply HB|apply HA|reflexivity|reflexivity].
Qed.
Theorem proxy_owned tr q n px : qhistory tr q -> nth_error (r_proxies (q_rt q)) n = Some px -> px_alive px = true ->
  exists t id a, has_answer t (OProxy n id a) tr /\ forall u id' a', has_answer u (OProxy n id' a') tr -> u = t.
Proof.
  intros H X A. destruct (ownership _ _ H) as [_ O2 O3]. destruct (O3 true n) as (t & o & HA & NM); [unfold there; rewrite X; exact A|].
  destruct o; try discriminate NM. injection NM as ->. exists t. do 2 eexists. split; [exact HA|]. intros u id' a' HB. eapply O2; [apply HB|apply HA|reflexivity|reflexivity].
Qed.
End Locks.
