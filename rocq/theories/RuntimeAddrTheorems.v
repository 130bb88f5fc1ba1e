(** Theorems about where the v1 runtime sends messages. *)
From Coq Require Import List NArith Bool PeanoNat Lia.
From Verif Require Import BytesModel WireSpec UniverseModel SomeipModel SomeipSpec MapModel EndpointProofs RuntimeModel RuntimeSpec
  RuntimeProofs RuntimeTheorems RuntimePacketTheorems RuntimeSendTheorems.
Import ListNotations.
Open Scope nat_scope.

Section Locks.
Context (bk : iid -> N) (cbk : N -> N) (dg : bool).
Notation history := (history bk cbk dg).
Notation step := (step bk cbk).
Notation steps := (steps bk cbk).

Ltac cases_in H :=
  repeat (match type of H with
  | context [match ?x with _ => _ end] =>
      lazymatch x with context [match _ with _ => _ end] => fail | _ => destruct x eqn:? end
  end; try discriminate H).
Ltac step_cases H :=
  unfold RuntimeModel.step, step_ep, step_take, step_route, step_stub, i_recv, push_cmd in H; cases_in H;
  injection H as <- <-.
Ltac rcbn := unfold upd_conn, upd_iface, upd_lsnr, upd_stub, upd_proxy, spawn in *;
  cbn [r_open r_datagram r_ep r_listener r_imap r_cmap r_ifaces r_conns r_lsnrs r_stubs r_proxies r_left
       set_ep set_open set_listener set_imap set_cmap set_ifaces set_conns set_lsnrs set_stubs set_proxies set_left
       st_iface st_lst st_conns st_pc st_alive st_with_pc st_with_conns end_stub l_alive l_cmds l_local l_conns l_pc
       l_with_cmds l_with_local l_with_conns l_with_pc end_lsnr new_lsnr px_iface px_conn px_remote px_alive end_proxy] in *.
Ltac split_nth := rcbn;
  repeat match goal with
  | H : nth_error (upd _ _ _) _ = Some _ |- _ => apply upd_is in H; destruct H as [[? H]|[? (? & ? & ?)]]; try subst
  | H : nth_error (_ ++ [_]) _ = Some _ |- _ => apply nth_snoc in H; destruct H as [H|[? ?]]; try subst
  end; rcbn.
Ltac same_nth :=
  repeat match goal with
  | H : nth_error ?l ?n = Some ?x, K : nth_error ?l ?n = Some ?y |- _ =>
      tryif constr_eq x y then fail else (assert (x = y) by congruence; subst y)
  end.

(** Everything that refers to a connection together with an address. *)
Inductive ptr (s : rt) (c : nat) (a : N) : Prop :=
| p_cmap : In (a, c) (r_cmap s) -> ptr s c a
| p_stub n t : nth_error (r_stubs s) n = Some t -> In (a, c) (st_conns t) -> ptr s c a
| p_share n t m : nth_error (r_stubs s) n = Some t -> st_pc t = SShare a c m -> ptr s c a
| p_hold n t m : nth_error (r_stubs s) n = Some t -> st_pc t = SHold a c m -> ptr s c a
| p_lsnr l x : nth_error (r_lsnrs s) l = Some x -> In (a, c) (l_conns x) -> ptr s c a
| p_accept l x : nth_error (r_lsnrs s) l = Some x -> l_pc x = AShare a c -> ptr s c a
| p_epshare id : r_ep s = EpShare (OwnConn c a) id -> ptr s c a
| p_eptake id i : r_ep s = EpTake (OwnConn c a) id i -> ptr s c a
| p_proxy n p : nth_error (r_proxies s) n = Some p -> px_conn p = c -> px_remote p = a -> ptr s c a.

Lemma in_remove {K V} (eqb : K -> K -> bool) k (m : list (K * V)) e : In e (map_remove eqb k m) -> In e m.
Proof. unfold map_remove. rewrite filter_In. tauto. Qed.
Lemma live_conn_in s a c : live_conn s a = Some c -> In (a, c) (r_cmap s).
Proof.
  unfold live_conn. destruct (map_get N.eqb a (r_cmap s)) as [d|] eqn:E; [|discriminate]. destruct (conn_strong s d); [|discriminate].
  intros F. injection F as <-. apply (get_in _ N.eqb_eq). exact E.
Qed.
Lemma ptr_back s e o s' c a : step s e = Some (s', o) -> ptr s' c a -> ptr s c a \/ o = OSpawned c a.
Proof.
  intros ST P. destruct e; step_cases ST; destruct P; split_nth; same_nth; try discriminate; try contradiction.
  all: try solve [left; eauto using p_cmap, p_stub, p_share, p_hold, p_lsnr, p_accept, p_epshare, p_eptake, p_proxy].
  all: try solve [left; apply p_cmap; eapply in_remove; eassumption].
  all: try match goal with H : In _ (map_insert _ _ _ _) |- _ => apply in_insert in H; destruct H as [H|H]; [injection H as -> ->|] end.
  all: try match goal with H : _ ?x = _ ?y |- _ => progress (injection H as; subst) end.
  all: try solve [right; reflexivity].
  all: try solve [left; eauto using p_cmap, p_stub, p_share, p_hold, p_lsnr, p_accept, p_epshare, p_eptake, p_proxy, live_conn_in].
  all: try solve [left; apply p_cmap; apply (get_in _ N.eqb_eq); assumption].
Qed.

Lemma opened_later c a tr p : opened c a tr -> opened c a (tr ++ [p]).
Proof. intros (e & I). exists e. apply in_app_iff. left. exact I. Qed.
Lemma pointed tr s : history tr s -> forall c a, ptr s c a -> opened c a tr.
Proof.
  induction 1 as [|tr s e s' o H IH ST]; intros c a P.
  - destruct P; try contradiction; try discriminate; match goal with H : nth_error (_ (rt_init _)) ?n = Some _ |- _ => destruct n; discriminate H end.
  - destruct (ptr_back _ _ _ _ _ _ ST P) as [K| ->]; [apply opened_later; apply IH; exact K|].
    exists e. apply in_app_iff. right. left. reflexivity.
Qed.

Definition sending (p : spc) : option (N * msg) :=
  match p with
  | SFree => None
  | SCheck a m | SConnect a m | SShare a _ m | SSend a m | SHold a _ m => Some (a, m)
  end.
Lemma last_send_snoc n tr e o : last_send_to n (tr ++ [(e, o)]) =
  match e with ESendTo k a m => if k =? n then Some (a, m) else last_send_to n tr | _ => last_send_to n tr end.
Proof. unfold last_send_to. rewrite fold_left_app. reflexivity. Qed.
Lemma sending_is tr s : history tr s -> forall n t q, nth_error (r_stubs s) n = Some t -> sending (st_pc t) = Some q -> last_send_to n tr = Some q.
Proof.
  induction 1 as [|tr s e s' o H IH ST]; intros n t q T Q; [destruct n; discriminate T|]. rewrite last_send_snoc.
  destruct e; step_cases ST; split_nth; same_nth; try discriminate.
  all: try solve [eapply IH; eassumption].
  all: try solve [eapply IH; [eassumption|match goal with H : st_pc _ = _ |- _ => rewrite H end; exact Q]].
  all: try solve [destruct (Nat.eqb_spec n0 n); [congruence|eapply IH; eassumption]].
  rewrite Nat.eqb_refl. exact Q.
Qed.
Lemma stub_sends tr n ok c m s : history (tr ++ [(EStub n ok, OOk c m)]) s ->
  exists a, last_send_to n tr = Some (a, m) /\ opened c a tr.
Proof.
  intros H. inversion H as [E|tr' s0 e s' o H0 ST E]; [destruct tr; discriminate E|]. apply app_inj_tail in E. destruct E as [-> E]. injection E as -> ->.
  subst s'. cbn in ST. destruct (nth_error (r_stubs s0) n) as [t|] eqn:T; [|discriminate]. destruct (st_alive t); [|discriminate].
  unfold step_stub in ST. destruct (st_pc t) as [|a m0|a m0|a d m0|a m0|a d m0] eqn:P; try discriminate.
  - destruct (clocked cbk s0 a); [discriminate|]. destruct (live_conn s0 a); [discriminate|]. destruct (ep_strong s0); discriminate.
  - destruct (r_ep s0); try discriminate. destruct (r_datagram s0 && ok); discriminate.
  - destruct (clocked cbk s0 a); discriminate.
  - destruct (clocked cbk s0 a); [discriminate|]. destruct (map_get N.eqb a (r_cmap s0)); [|discriminate]. destruct (conn_strong s0 n0); discriminate.
  - unfold push_cmd in ST. destruct (nth_error (r_conns s0) d) as [x|] eqn:X; [|discriminate]. destruct (c_alive x); [|discriminate].
    destruct (length (c_cmds x) <? 1); [|discriminate]. injection ST as _ -> ->. exists a. split.
    + eapply sending_is; [exact H0|exact T|]. rewrite P. reflexivity.
    + eapply pointed; [exact H0|]. eapply p_hold; [exact T|exact P].
Qed.
Lemma proxy_sends tr n m0 c m s : history (tr ++ [(EProxySend n m0, OOk c m)]) s ->
  m0 = m /\ exists id a, proxied n id a tr /\ opened c a tr.
Proof.
  intros H. inversion H as [E|tr' s0 e s' o H0 ST E]; [destruct tr; discriminate E|]. apply app_inj_tail in E. destruct E as [-> E]. injection E as -> ->.
  subst s'. cbn in ST. destruct (nth_error (r_proxies s0) n) as [p|] eqn:T; [|discriminate]. destruct (px_alive p); [|discriminate].
  unfold push_cmd in ST. destruct (nth_error (r_conns s0) (px_conn p)) as [x|] eqn:X; [|discriminate]. destruct (c_alive x); [|discriminate].
  destruct (length (c_cmds x) <? 1); [|discriminate]. injection ST as _ <- ->. split; [reflexivity|].
  destruct (proj2 (created _ _ _ _ _ H0) n p T) as (id & C). exists id, (px_remote p). split; [exact C|].
  eapply pointed; [exact H0|]. eapply p_proxy; [exact T|reflexivity|reflexivity].
Qed.
(** Nothing else sends. *)
Lemma only_sends tr e c m s : history (tr ++ [(e, OOk c m)]) s -> (exists n ok, e = EStub n ok) \/ (exists n, e = EProxySend n m).
Proof.
  intros H. inversion H as [E|tr' s0 e0 s' o H0 ST E]; [destruct tr; discriminate E|]. apply app_inj_tail in E. destruct E as [-> E]. injection E as -> ->.
  step_cases ST; eauto; try (intros; subst; eauto). all: right; eexists; f_equal; congruence.
Qed.
Lemma one_address tr s c a b : history tr s -> opened c a tr -> opened c b tr -> a = b.
Proof.
  intros H A B. destruct (opened_is _ _ _ _ _ _ _ H A) as (x & X & <-). destruct (opened_is _ _ _ _ _ _ _ H B) as (y & Y & <-). congruence.
Qed.

(** ** Calls for an id that is in use *)
Lemma call_refused tr s id e ok s' tr' : history tr s -> in_use s tr id -> e = EServe id \/ (exists a, e = EProxy id a) ->
  run bk cbk s [e; EEp ok] = Some (s', tr') -> s' = s /\ tr' = [(e, OUnit); (EEp ok, OExists)].
Proof.
  intros H U E R. unfold run in R. destruct (step s e) as [[s1 o1]|] eqn:ST; [|discriminate]. destruct (step s1 (EEp ok)) as [[s2 o2]|] eqn:ST2; [|discriminate].
  injection R as <- <-. assert (exists k, r_ep s = EpWait /\ s1 = set_ep (EpCheck id k) s /\ o1 = OUnit) as (k & W & E1 & ->).
  { destruct E as [->|[a ->]]; cbn in ST; destruct (r_open s); try discriminate; destruct (r_ep s); try discriminate; injection ST as <- <-; eauto. }
  assert (E' : exists k', s1 = set_ep (EpCheck id k') s) by eauto. pose proof (h_more _ _ _ _ _ _ _ _ H ST) as H1.
  assert (U1 : in_use s1 (tr ++ [(e, OUnit)]) id); [|destruct (refused _ _ _ _ _ id k ok _ _ H1 U1 ltac:(subst s1; reflexivity) ST2) as [-> ->]].
  - subst s1. destruct U as [[n ((e0 & I) & U2 & U3)]|[n (a & (e0 & I) & U2 & U3)]]; [left; exists n|right; exists n].
    + split; [exists e0; apply in_app_iff; left; exact I|]. split; [exact U2|exact U3].
    + exists a. split; [exists e0; apply in_app_iff; left; exact I|]. split; [exact U2|exact U3].
  - subst s1. split; [|reflexivity]. destruct s. cbn in W. subst. reflexivity.
Qed.
End Locks.
