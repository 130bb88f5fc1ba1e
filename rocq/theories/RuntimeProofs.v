(** Proofs about the v1 runtime: the part of the state that interfaces depend on, as a smaller
    machine, and its invariants. *)
From Coq Require Import Permutation List NArith Bool PeanoNat Lia Sorting.Sorted.
From Verif Require Import BytesModel UniverseModel SomeipModel MapModel EndpointProofs RuntimeModel RuntimeSpec.
Import ListNotations.
Open Scope nat_scope.

(** Lists. *)
Lemma in_drop_nth {A} (x : A) l : forall k, In x (drop_nth k l) -> In x l.
Proof. induction l as [|y l IH]; intros [|k] I; cbn in *; auto. destruct I as [I|I]; eauto. Qed.
Lemma perm_drop_nth {A} (x : A) l : forall k, nth_error l k = Some x -> Permutation l (x :: drop_nth k l).
Proof.
  induction l as [|y l IH]; intros [|k] I; cbn in *; try discriminate; [injection I as ->; reflexivity|].
  rewrite (IH _ I) at 1. apply perm_swap.
Qed.
Lemma nth_upd_same {A} n f (l : list A) : nth_error (upd n f l) n = option_map f (nth_error l n).
Proof. revert l. induction n as [|n IH]; intros [|x l]; cbn; [reflexivity..|apply IH]. Qed.
Lemma nth_upd_other {A} n m f (l : list A) : m <> n -> nth_error (upd n f l) m = nth_error l m.
Proof.
  revert m l. induction n as [|n IH]; intros m [|x l] H; [reflexivity| |reflexivity|].
  - destruct m; [contradiction|reflexivity].
  - destruct m; [reflexivity|]. cbn. apply IH. intros ->. apply H. reflexivity.
Qed.
Lemma length_upd {A} n f (l : list A) : length (upd n f l) = length l.
Proof. revert l. induction n as [|n IH]; intros [|x l]; cbn; [reflexivity..|rewrite IH; reflexivity]. Qed.
Lemma map_upd {A B} (g : A -> B) n f h (l : list A) :
  (forall x, nth_error l n = Some x -> g (f x) = h (g x)) -> map g (upd n f l) = upd n h (map g l).
Proof.
  revert l. induction n as [|n IH]; intros [|x l] H; cbn; [reflexivity| |reflexivity|].
  - rewrite H by reflexivity. reflexivity.
  - rewrite IH by exact H. reflexivity.
Qed.
Lemma map_upd_id {A B} (g : A -> B) n f (l : list A) :
  (forall x, nth_error l n = Some x -> g (f x) = g x) -> map g (upd n f l) = map g l.
Proof.
  revert l. induction n as [|n IH]; intros [|x l] H; cbn; [reflexivity| |reflexivity|].
  - rewrite H by reflexivity. reflexivity.
  - rewrite IH by exact H. reflexivity.
Qed.
Lemma upd_is {A} n f (l : list A) k y :
  nth_error (upd n f l) k = Some y -> (k <> n /\ nth_error l k = Some y) \/ (k = n /\ exists x, nth_error l n = Some x /\ y = f x).
Proof.
  intros H. destruct (Nat.eq_dec k n) as [->|D].
  - right. split; [reflexivity|]. rewrite nth_upd_same in H. destruct (nth_error l n) as [x|]; [|discriminate].
    exists x. split; [reflexivity|]. cbn in H. congruence.
  - left. rewrite nth_upd_other in H by exact D. auto.
Qed.
Lemma nth_snoc {A} (l : list A) x k y :
  nth_error (l ++ [x]) k = Some y -> nth_error l k = Some y \/ (k = length l /\ y = x).
Proof.
  intros H. destruct (Nat.lt_ge_cases k (length l)) as [D|D].
  - left. rewrite nth_error_app1 in H; assumption.
  - right. rewrite nth_error_app2 in H by exact D.
    destruct (k - length l) as [|[|j]] eqn:E; cbn in H; try discriminate. split; [lia|congruence].
Qed.
Lemma nth_snoc_old {A} (l : list A) x k y : nth_error l k = Some y -> nth_error (l ++ [x]) k = Some y.
Proof. intros H. rewrite nth_error_app1; [exact H|]. apply nth_error_Some. congruence. Qed.
Lemma nth_snoc_new {A} (l : list A) x : nth_error (l ++ [x]) (length l) = Some x.
Proof. rewrite nth_error_app2, Nat.sub_diag by lia. reflexivity. Qed.
Lemma nth_length_none {A} (l : list A) : nth_error l (length l) = None.
Proof. apply nth_error_None. lia. Qed.
Lemma nth_lt {A} (l : list A) k y : nth_error l k = Some y -> k < length l.
Proof. intros H. apply nth_error_Some. congruence. Qed.
Lemma existsb_map {A B} (p : B -> bool) (g : A -> B) l : existsb p (map g l) = existsb (fun x => p (g x)) l.
Proof. induction l as [|x l IH]; cbn; [reflexivity|rewrite IH; reflexivity]. Qed.
Lemma existsb_same {A} (p q : A -> bool) l : (forall x, p x = q x) -> existsb p l = existsb q l.
Proof. intros H. induction l as [|x l IH]; cbn; [reflexivity|rewrite H, IH; reflexivity]. Qed.
Lemma existsb_nth {A} (p : A -> bool) l : existsb p l = true <-> exists n x, nth_error l n = Some x /\ p x = true.
Proof.
  rewrite existsb_exists. split.
  - intros (x & Hi & Hp). apply In_nth_error in Hi. destruct Hi as (n & Hn). exists n, x. auto.
  - intros (n & x & Hn & Hp). exists x. split; [eapply nth_error_In; exact Hn|exact Hp].
Qed.
Lemma existsb_nth_false {A} (p : A -> bool) l n x : existsb p l = false -> nth_error l n = Some x -> p x = false.
Proof.
  intros H Hn. destruct (p x) eqn:E; [|reflexivity].
  assert (existsb p l = true) by (apply existsb_nth; eauto). congruence.
Qed.

Lemma iid_eqb_ok a b : iid_eqb a b = true <-> a = b.
Proof.
  unfold iid_eqb. destruct a as [a1 a2], b as [b1 b2]. cbn. rewrite andb_true_iff, !N.eqb_eq.
  split; [intros [-> ->]; reflexivity|intros E; inversion E; auto].
Qed.
Lemma holds_value_in {K} i (m : list (K * nat)) : holds_value i m = true <-> exists k, In (k, i) m.
Proof.
  unfold holds_value. rewrite existsb_exists. split.
  - intros ([k j] & Hi & He). cbn in He. apply Nat.eqb_eq in He. subst. eauto.
  - intros (k & Hi). exists (k, i). split; [exact Hi|]. apply Nat.eqb_refl.
Qed.
Lemma in_insert {K} (eqb : K -> K -> bool) k v (m : list (K * nat)) e :
  In e (map_insert eqb k v m) -> e = (k, v) \/ In e m.
Proof. cbn. intros [H|H]; [left; congruence|right; unfold map_remove in H; apply filter_In in H; tauto]. Qed.

(** ** The part of the state that interfaces depend on *)
Definition takes (q : list ccmd) : list (iid * nat) :=
  flat_map (fun x => match x with CTake id i => [(id, i)] | CMsg _ => [] end) q.
Record vconn := mkVC { v_addr : N; v_alive : bool; v_takes : list (iid * nat); v_local : list (iid * nat);
                       v_recv : rstate; v_count : nat }.
Record vlsnr := mkVL { vl_alive : bool; vl_cmds : list (iid * nat); vl_local : list (iid * nat) }.
Record vstub := mkVS { vs_iface : nat; vs_lst : nat; vs_alive : bool }.
Record av := mkA { a_ep : epc; a_imap : list (iid * nat); a_ifaces : list iface; a_conns : list vconn;
                   a_lsnrs : list vlsnr; a_stubs : list vstub; a_proxies : list proxy }.
Definition vc (x : conn) : vconn := mkVC (c_addr x) (c_alive x) (takes (c_cmds x)) (c_local x) (c_recv x) (c_count x).
Definition vl (x : lsnr) : vlsnr := mkVL (l_alive x) (l_cmds x) (l_local x).
Definition vs (t : stub) : vstub := mkVS (st_iface t) (st_lst t) (st_alive t).
Definition view (s : rt) : av :=
  mkA (r_ep s) (r_imap s) (r_ifaces s) (map vc (r_conns s)) (map vl (r_lsnrs s)) (map vs (r_stubs s)) (r_proxies s).

Definition vc_has (i : nat) (x : vconn) : bool :=
  v_alive x && (holds_value i (v_local x) || holds_value i (v_takes x) || recv_has i (v_recv x)).
Definition vl_has (i : nat) (x : vlsnr) : bool :=
  vl_alive x && (holds_value i (vl_local x) || holds_value i (vl_cmds x)).
Definition a_strong (A : av) (i : nat) : bool :=
  existsb (vc_has i) (a_conns A) || existsb (vl_has i) (a_lsnrs A) || ep_has i (a_ep A).

Lemma takes_has i q : existsb (cmd_has i) q = holds_value i (takes q).
Proof. induction q as [|[m|id j] q IH]; cbn; [reflexivity|exact IH|]. rewrite IH. reflexivity. Qed.
Lemma strong_view s i : iface_strong s i = a_strong (view s) i.
Proof.
  unfold iface_strong, a_strong, view. cbn [a_conns a_lsnrs a_ep]. rewrite !existsb_map.
  f_equal. f_equal.
  apply existsb_same. intros x. unfold conn_has, vc_has, vc. cbn. rewrite takes_has. reflexivity.
Qed.
Lemma takes_app q r : takes (q ++ r) = takes q ++ takes r.
Proof. apply flat_map_app. Qed.

Section Locks.
Context (bk : iid -> N) (cbk : N -> N).

Definition v_locks (b : N) (x : vconn) : bool :=
  match v_recv x with RHold _ it _ => N.eqb (bk (iid_of (it_msg it))) b | RWait _ => false end.
Definition a_locked (A : av) (id : iid) : bool := existsb (v_locks (bk id)) (a_conns A).
Lemma locked_view s id : locked bk s id = a_locked (view s) id.
Proof. unfold locked, a_locked, view. cbn. rewrite existsb_map. reflexivity. Qed.

Definition set_vep p (A : av) := mkA p (a_imap A) (a_ifaces A) (a_conns A) (a_lsnrs A) (a_stubs A) (a_proxies A).
Definition set_vimap m (A : av) := mkA (a_ep A) m (a_ifaces A) (a_conns A) (a_lsnrs A) (a_stubs A) (a_proxies A).
Definition set_vifaces m (A : av) := mkA (a_ep A) (a_imap A) m (a_conns A) (a_lsnrs A) (a_stubs A) (a_proxies A).
Definition set_vconns m (A : av) := mkA (a_ep A) (a_imap A) (a_ifaces A) m (a_lsnrs A) (a_stubs A) (a_proxies A).
Definition set_vlsnrs m (A : av) := mkA (a_ep A) (a_imap A) (a_ifaces A) (a_conns A) m (a_stubs A) (a_proxies A).
Definition set_vstubs m (A : av) := mkA (a_ep A) (a_imap A) (a_ifaces A) (a_conns A) (a_lsnrs A) m (a_proxies A).
Definition set_vproxies m (A : av) := mkA (a_ep A) (a_imap A) (a_ifaces A) (a_conns A) (a_lsnrs A) (a_stubs A) m.

Definition v_with_recv r (x : vconn) := mkVC (v_addr x) (v_alive x) (v_takes x) (v_local x) r (v_count x).
Definition v_with_takes q (x : vconn) := mkVC (v_addr x) (v_alive x) q (v_local x) (v_recv x) (v_count x).
Definition v_with_local m (x : vconn) := mkVC (v_addr x) (v_alive x) (v_takes x) m (v_recv x) (v_count x).
Definition v_end (x : vconn) := mkVC (v_addr x) false [] [] (RWait []) (v_count x).
Definition v_new (a : N) := mkVC a true [] [] (RWait []) 0.
Definition v_pack c ms (x : vconn) :=
  mkVC (v_addr x) (v_alive x) (v_takes x) (v_local x) (RWait (number c (v_addr x) (v_count x) ms)) (v_count x + length ms).
Definition vs_end (t : vstub) := mkVS (vs_iface t) (vs_lst t) false.

(** Labels that say nothing about interfaces. *)
Definition quiet (e : event) (o : obs) : Prop :=
  (forall c bs, e = EPacket c bs -> packet_messages bs = []) /\
  (forall it, o <> OMsg it) /\ (forall c a, o <> OSpawned c a) /\
  (forall n id, o <> OStub n id) /\ (forall n id a, o <> OProxy n id a) /\
  (forall n, e <> EDropStub n) /\ (forall n, e <> EDropProxy n) /\
  (forall it, o <> ORouted it) /\ (forall it, o <> ODropped it).

Inductive astep (A : av) : event -> obs -> av -> Prop :=
| a_quiet e o : quiet e o -> astep A e o A
| a_spawn e a : quiet e OUnit -> astep A e (OSpawned (length (a_conns A)) a) (set_vconns (a_conns A ++ [v_new a]) A)
| a_call e o id k : quiet e o -> a_ep A = EpWait -> astep A e o (set_vep (EpCheck id k) A)
| a_exists ok id k i : a_ep A = EpCheck id k -> a_locked A id = false -> map_get iid_eqb id (a_imap A) = Some i ->
    a_strong A i = true -> astep A (EEp ok) OExists (set_vep EpWait A)
| a_free ok id k : a_ep A = EpCheck id k -> a_locked A id = false ->
    (forall i, map_get iid_eqb id (a_imap A) = Some i -> a_strong A i = false) ->
    astep A (EEp ok) OUnit (set_vep (EpReady id k) A)
| a_early ok id k : a_ep A = EpReady id k -> astep A (EEp ok) OError (set_vep EpWait A)
| a_found ok id k ow : a_ep A = EpReady id k -> astep A (EEp ok) OUnit (set_vep (EpShare ow id) A)
| a_listen ok id k : a_ep A = EpReady id k ->
    astep A (EEp ok) OUnit (set_vep (EpShare (OwnListener (length (a_lsnrs A))) id)
                              (set_vlsnrs (a_lsnrs A ++ [mkVL true [] []]) A))
| a_connect ok id k a : a_ep A = EpReady id k ->
    astep A (EEp ok) (OSpawned (length (a_conns A)) a)
      (set_vep (EpShare (OwnConn (length (a_conns A)) a) id) (set_vconns (a_conns A ++ [v_new a]) A))
| a_share ok id ow : a_ep A = EpShare ow id -> a_locked A id = false ->
    astep A (EEp ok) OUnit
      (set_vep (EpTake ow id (length (a_ifaces A)))
         (set_vimap (map_insert iid_eqb id (length (a_ifaces A)) (a_imap A))
            (set_vifaces (a_ifaces A ++ [mkI id [] 0 true]) A)))
| a_stub ok id l i x : a_ep A = EpTake (OwnListener l) id i -> nth_error (a_lsnrs A) l = Some x -> vl_alive x = true ->
    astep A (EEp ok) (OStub (length (a_stubs A)) id)
      (set_vep EpWait (set_vstubs (a_stubs A ++ [mkVS i l true])
         (set_vlsnrs (upd l (fun x => mkVL (vl_alive x) (vl_cmds x ++ [(id, i)]) (vl_local x)) (a_lsnrs A)) A)))
| a_proxy ok id c a i x : a_ep A = EpTake (OwnConn c a) id i -> nth_error (a_conns A) c = Some x -> v_alive x = true ->
    astep A (EEp ok) (OProxy (length (a_proxies A)) id a)
      (set_vep EpWait (set_vproxies (a_proxies A ++ [mkP i c a true])
         (set_vconns (upd c (fun x => v_with_takes (v_takes x ++ [(id, i)]) x) (a_conns A)) A)))
| a_untaken ok id ow i : a_ep A = EpTake ow id i ->
    astep A (EEp ok) OError (set_vep EpWait (set_vifaces (upd i i_shut (a_ifaces A)) A))
| a_packet c bs ms x : nth_error (a_conns A) c = Some x -> v_alive x = true -> v_recv x = RWait [] ->
    decode bs = Some ms ->
    astep A (EPacket c bs) OUnit (set_vconns (upd c (v_pack c ms) (a_conns A)) A)
| a_end e o c x : nth_error (a_conns A) c = Some x -> v_alive x = true -> quiet e o ->
    astep A e o (set_vconns (upd c v_end (a_conns A)) A)
| a_unknown c x it todo : nth_error (a_conns A) c = Some x -> v_alive x = true -> v_recv x = RWait (it :: todo) ->
    a_locked A (iid_of (it_msg it)) = false ->
    map_get iid_eqb (iid_of (it_msg it)) (a_imap A) = None ->
    astep A (ERoute c) (ODropped it) (set_vconns (upd c (v_with_recv (RWait todo)) (a_conns A)) A)
| a_hold c x it todo i : nth_error (a_conns A) c = Some x -> v_alive x = true -> v_recv x = RWait (it :: todo) ->
    a_locked A (iid_of (it_msg it)) = false ->
    map_get iid_eqb (iid_of (it_msg it)) (a_imap A) = Some i -> a_strong A i = true ->
    astep A (ERoute c) (OHeld it) (set_vconns (upd c (v_with_recv (RHold i it todo)) (a_conns A)) A)
| a_stale c x it todo i : nth_error (a_conns A) c = Some x -> v_alive x = true -> v_recv x = RWait (it :: todo) ->
    a_locked A (iid_of (it_msg it)) = false ->
    map_get iid_eqb (iid_of (it_msg it)) (a_imap A) = Some i -> a_strong A i = false ->
    astep A (ERoute c) (ODropped it)
      (set_vconns (upd c (v_with_recv (RWait todo)) (a_conns A))
         (set_vimap (map_remove iid_eqb (iid_of (it_msg it)) (a_imap A)) A))
| a_put c x it todo i y : nth_error (a_conns A) c = Some x -> v_alive x = true -> v_recv x = RHold i it todo ->
    nth_error (a_ifaces A) i = Some y -> i_rx y = true -> length (i_queue y) < 16 ->
    astep A (ERoute c) (ORouted it)
      (set_vconns (upd c (v_with_recv (RWait todo)) (a_conns A)) (set_vifaces (upd i (i_put it) (a_ifaces A)) A))
| a_shut c x it todo i y : nth_error (a_conns A) c = Some x -> v_alive x = true -> v_recv x = RHold i it todo ->
    nth_error (a_ifaces A) i = Some y -> i_rx y = false ->
    astep A (ERoute c) (ODropped it)
      (set_vconns (upd c (v_with_recv (RWait todo)) (a_conns A))
         (set_vimap (map_remove iid_eqb (iid_of (it_msg it)) (a_imap A)) A))
| a_take c x id i q : nth_error (a_conns A) c = Some x -> v_alive x = true -> v_takes x = (id, i) :: q ->
    astep A (ESender c) OUnit
      (set_vconns (upd c (fun x => v_with_local (map_insert iid_eqb id i (v_local x)) (v_with_takes q x)) (a_conns A)) A)
| a_unlisten e l x : nth_error (a_lsnrs A) l = Some x -> vl_alive x = true -> quiet e OUnit ->
    astep A e OUnit (set_vlsnrs (upd l (fun _ => mkVL false [] []) (a_lsnrs A)) A)
| a_ltake l x id i q : nth_error (a_lsnrs A) l = Some x -> vl_alive x = true -> vl_cmds x = (id, i) :: q ->
    astep A (EListener l) OUnit
      (set_vlsnrs (upd l (fun x => mkVL (vl_alive x) q (map_insert iid_eqb id i (vl_local x))) (a_lsnrs A)) A)
| a_recv n t y it q : nth_error (a_stubs A) n = Some t -> vs_alive t = true ->
    nth_error (a_ifaces A) (vs_iface t) = Some y -> i_queue y = it :: q ->
    astep A (ERecvFrom n) (OMsg it) (set_vifaces (upd (vs_iface t) i_take (a_ifaces A)) A)
| a_precv n p y it q : nth_error (a_proxies A) n = Some p -> px_alive p = true ->
    nth_error (a_ifaces A) (px_iface p) = Some y -> i_queue y = it :: q ->
    astep A (EProxyRecv n) (if N.eqb (px_remote p) (it_addr it) then OMsg it else OUnit)
      (set_vifaces (upd (px_iface p) i_take (a_ifaces A)) A)
| a_drop n t : nth_error (a_stubs A) n = Some t -> vs_alive t = true ->
    astep A (EDropStub n) OUnit
      (set_vifaces (upd (vs_iface t) i_shut (a_ifaces A)) (set_vstubs (upd n vs_end (a_stubs A)) A))
| a_pdrop n p : nth_error (a_proxies A) n = Some p -> px_alive p = true ->
    astep A (EDropProxy n) OUnit
      (set_vifaces (upd (px_iface p) i_shut (a_ifaces A)) (set_vproxies (upd n end_proxy (a_proxies A)) A)).

Ltac cases_in H :=
  repeat (match type of H with
  | context [match ?x with _ => _ end] =>
      lazymatch x with context [match _ with _ => _ end] => fail | _ => destruct x eqn:? end
  end; try discriminate H).
Ltac step_cases H :=
  unfold step, step_ep, step_take, step_route, step_stub, i_recv, push_cmd in H; cases_in H;
  injection H as <- <-.
Ltac quiet := repeat split; intros; try discriminate; try congruence.

Lemma nth_vc s c x : nth_error (r_conns s) c = Some x -> nth_error (a_conns (view s)) c = Some (vc x).
Proof. intros H. cbn. apply map_nth_error. exact H. Qed.
Lemma nth_vl s c x : nth_error (r_lsnrs s) c = Some x -> nth_error (a_lsnrs (view s)) c = Some (vl x).
Proof. intros H. cbn. apply map_nth_error. exact H. Qed.
Lemma nth_vs s c x : nth_error (r_stubs s) c = Some x -> nth_error (a_stubs (view s)) c = Some (vs x).
Proof. intros H. cbn. apply map_nth_error. exact H. Qed.
Lemma len_vc s : length (r_conns s) = length (a_conns (view s)).
Proof. symmetry. apply map_length. Qed.
Lemma len_vl s : length (r_lsnrs s) = length (a_lsnrs (view s)).
Proof. symmetry. apply map_length. Qed.
Lemma len_vs s : length (r_stubs s) = length (a_stubs (view s)).
Proof. symmetry. apply map_length. Qed.

Lemma view_of s p m i c l t x :
  r_ep s = p -> r_imap s = m -> r_ifaces s = i -> map vc (r_conns s) = c -> map vl (r_lsnrs s) = l ->
  map vs (r_stubs s) = t -> r_proxies s = x -> view s = mkA p m i c l t x.
Proof. intros <- <- <- <- <- <- <-. reflexivity. Qed.

Lemma map_stub_pc n p l : map vs (upd n (st_with_pc p) l) = map vs l.
Proof. apply map_upd_id. reflexivity. Qed.

Ltac useless_stub := rewrite ?map_stub_pc; reflexivity.

Lemma live_iface_some s id i : live_iface s id = Some i -> map_get iid_eqb id (r_imap s) = Some i /\ iface_strong s i = true.
Proof. unfold live_iface. destruct (map_get _ _ _) as [j|]; [|discriminate]. destruct (iface_strong s j) eqn:E; [|discriminate]. intros H. injection H as <-. auto. Qed.
Lemma live_iface_none s id : live_iface s id = None -> forall i, map_get iid_eqb id (r_imap s) = Some i -> iface_strong s i = false.
Proof. unfold live_iface. intros H i E. rewrite E in H. destruct (iface_strong s i); [discriminate|reflexivity]. Qed.

Lemma astep_eq A e o B C : astep A e o B -> B = C -> astep A e o C.
Proof. intros H <-. exact H. Qed.

Ltac fact :=
  cbn [a_ep a_imap a_ifaces a_proxies view];
  first [ eassumption | reflexivity
        | apply nth_vc; eassumption | apply nth_vl; eassumption | apply nth_vs; eassumption
        | rewrite <- locked_view; eassumption | rewrite <- strong_view; eassumption
        | cbn; eassumption
        | (cbn; match goal with H : c_cmds _ = _ |- _ => rewrite H end; reflexivity)
        | (apply Nat.ltb_lt; eassumption)
        | solve [quiet] ].
Ltac veq :=
  unfold view, set_vep, set_vimap, set_vifaces, set_vconns, set_vlsnrs, set_vstubs, set_vproxies, upd_conn, upd_iface, upd_lsnr, upd_stub, upd_proxy, spawn;
  cbn [r_open r_datagram r_ep r_listener r_imap r_cmap r_ifaces r_conns r_lsnrs r_stubs r_proxies r_left
       set_ep set_open set_listener set_imap set_cmap set_ifaces set_conns set_lsnrs set_stubs set_proxies set_left
       a_ep a_imap a_ifaces a_conns a_lsnrs a_stubs a_proxies];
  rewrite ?map_length, ?map_app, ?map_stub_pc;
  first [reflexivity | (try apply f_equal; f_equal;
    first [reflexivity
          | (symmetry; apply map_upd_id; intros; cbn; reflexivity)
          | (symmetry; apply map_upd; intros ?x ?Hx; unfold vc, vl, vs; cbn;
             rewrite ?takes_app; try congruence; reflexivity) ])].
Ltac go C := solve [eapply astep_eq; [eapply C; fact | veq]].

Lemma step_view s e s' o : step bk cbk s e = Some (s', o) -> astep (view s) e o (view s').
Proof.
  intros H. destruct e; step_cases H; rewrite ?len_vc, ?len_vl, ?len_vs;
  try match goal with H : live_iface _ _ = Some _ |- _ => apply live_iface_some in H; destruct H end;
  try go a_call; try go a_exists.
  all: try go a_early; try go a_found; try go a_listen; try go a_connect; try go a_share; try go a_stub; try go a_proxy; try go a_untaken.
  all: try go a_packet; try go a_end; try go a_unknown; try go a_hold; try go a_stale; try go a_put; try go a_shut; try go a_take.
  all: try go a_unlisten; try go a_ltake; try go a_recv; try go a_drop; try go a_pdrop; try go a_spawn.
  all: try go a_quiet.
  - eapply astep_eq; [eapply a_free with (k := k); [fact..|]|veq].
    cbn [view a_imap]. intros i Hi. rewrite <- strong_view. eapply live_iface_none; eassumption.
  - eapply astep_eq; [eapply a_proxy; fact|]. unfold view, set_vep, set_vproxies, set_vconns. cbn. f_equal. symmetry. apply map_upd.
    intros x Hx. rewrite Heqo0 in Hx. injection Hx as <-. unfold vc, v_with_takes. cbn. rewrite takes_app. reflexivity.
  - apply a_quiet. quiet. unfold packet_messages. injection H as <- <-. rewrite Heqo1. reflexivity.
  - eapply astep_eq; [apply a_quiet; quiet|]. unfold view. cbn. f_equal. symmetry. apply map_upd_id.
    intros x Hx. rewrite Heqo0 in Hx. injection Hx as <-. unfold vc. cbn. rewrite Heql. reflexivity.
  - eapply astep_eq; [apply a_quiet; quiet|]. unfold view. cbn. rewrite map_stub_pc. f_equal. symmetry. apply map_upd_id.
    intros x Hx. rewrite Heqo1 in Hx. injection Hx as <-. unfold vc. cbn. rewrite takes_app, app_nil_r. reflexivity.
  - eapply astep_eq; [apply a_quiet; quiet|]. unfold view. cbn. f_equal. symmetry. apply map_upd_id.
    intros x Hx. rewrite Heqo1 in Hx. injection Hx as <-. unfold vc. cbn. rewrite takes_app, app_nil_r. reflexivity.
  - assert (E := a_precv (view s) n p i i0 l Heqo0 Heqb Heqo1 Heql). rewrite Heqb0 in E. exact E.
  - assert (E := a_precv (view s) n p i i0 l Heqo0 Heqb Heqo1 Heql). rewrite Heqb0 in E. exact E.
Qed.

(** ** Who owns an interface *)
Definition idof (A : av) (i : nat) : option iid := option_map i_id (nth_error (a_ifaces A) i).
Definition rx (A : av) (i : nat) : Prop := exists y, nth_error (a_ifaces A) i = Some y /\ i_rx y = true.

Inductive held (A : av) (id : iid) (i : nat) : Prop :=
| held_local c x : nth_error (a_conns A) c = Some x -> In (id, i) (v_local x) -> held A id i
| held_take c x : nth_error (a_conns A) c = Some x -> In (id, i) (v_takes x) -> held A id i
| held_recv c x it todo : nth_error (a_conns A) c = Some x -> v_recv x = RHold i it todo ->
    iid_of (it_msg it) = id -> held A id i
| held_llocal l x : nth_error (a_lsnrs A) l = Some x -> In (id, i) (vl_local x) -> held A id i
| held_lcmd l x : nth_error (a_lsnrs A) l = Some x -> In (id, i) (vl_cmds x) -> held A id i
| held_ep o : a_ep A = EpTake o id i -> held A id i.

Record Inv1 (A : av) : Prop := {
  v_dead : forall c x, nth_error (a_conns A) c = Some x -> v_alive x = false ->
             v_takes x = [] /\ v_local x = [] /\ v_recv x = RWait [];
  v_ldead : forall l x, nth_error (a_lsnrs A) l = Some x -> vl_alive x = false -> vl_cmds x = [] /\ vl_local x = [];
  v_ids : forall id i, held A id i -> idof A i = Some id;
  v_map : forall id i, map_get iid_eqb id (a_imap A) = Some i -> idof A i = Some id;
  v_lock : forall c x i it todo, nth_error (a_conns A) c = Some x -> v_recv x = RHold i it todo ->
             map_get iid_eqb (iid_of (it_msg it)) (a_imap A) = Some i;
  v_one : forall c d x y i j it ju todo to, nth_error (a_conns A) c = Some x -> nth_error (a_conns A) d = Some y ->
            v_recv x = RHold i it todo -> v_recv y = RHold j ju to ->
            bk (iid_of (it_msg it)) = bk (iid_of (it_msg ju)) -> c = d }.

Lemma strong_held A i : Inv1 A -> a_strong A i = true <-> exists id, held A id i.
Proof.
  intros V. unfold a_strong. rewrite !orb_true_iff, !existsb_nth. split.
  - intros [[(c & x & Hx & Hh)|(l & x & Hx & Hh)]|Hh].
    + unfold vc_has in Hh. apply andb_true_iff in Hh. destruct Hh as [_ Hh]. apply orb_true_iff in Hh.
      destruct Hh as [Hh|Hh]; [apply orb_true_iff in Hh; destruct Hh as [Hh|Hh]; apply holds_value_in in Hh; destruct Hh as (id & Hh); exists id|].
      * eapply held_local; eassumption.
      * eapply held_take; eassumption.
      * destruct (v_recv x) as [|j it todo] eqn:E; [discriminate|]. cbn in Hh. apply Nat.eqb_eq in Hh. subst j.
        eexists. eapply held_recv; [eassumption..|reflexivity].
    + unfold vl_has in Hh. apply andb_true_iff in Hh. destruct Hh as [_ Hh]. apply orb_true_iff in Hh.
      destruct Hh as [Hh|Hh]; apply holds_value_in in Hh; destruct Hh as (id & Hh); exists id.
      * eapply held_llocal; eassumption.
      * eapply held_lcmd; eassumption.
    + destruct (a_ep A) as [| | | |o id j] eqn:E; try discriminate. cbn in Hh. apply Nat.eqb_eq in Hh. subst j.
      exists id. eapply held_ep. eassumption.
  - intros (id & H). destruct H as [c x Hx Hi|c x Hx Hi|c x it todo Hx Hr _|l x Hx Hi|l x Hx Hi|o Ho].
    + left. left. exists c, x. split; [exact Hx|]. unfold vc_has. destruct (v_alive x) eqn:E.
      * cbn. rewrite (proj2 (holds_value_in i (v_local x))) by eauto. reflexivity.
      * apply (v_dead A V) in Hx; [|exact E]. destruct Hx as (_ & L & _). rewrite L in Hi. destruct Hi.
    + left. left. exists c, x. split; [exact Hx|]. unfold vc_has. destruct (v_alive x) eqn:E.
      * cbn. rewrite (proj2 (holds_value_in i (v_takes x))) by eauto. rewrite orb_true_r. reflexivity.
      * apply (v_dead A V) in Hx; [|exact E]. destruct Hx as (L & _). rewrite L in Hi. destruct Hi.
    + left. left. exists c, x. split; [exact Hx|]. unfold vc_has. destruct (v_alive x) eqn:E.
      * rewrite Hr. cbn. rewrite Nat.eqb_refl, orb_true_r. reflexivity.
      * apply (v_dead A V) in Hx; [|exact E]. destruct Hx as (_ & _ & L). rewrite L in Hr. discriminate.
    + left. right. exists l, x. split; [exact Hx|]. unfold vl_has. destruct (vl_alive x) eqn:E.
      * cbn. rewrite (proj2 (holds_value_in i (vl_local x))) by eauto. reflexivity.
      * apply (v_ldead A V) in Hx; [|exact E]. destruct Hx as (_ & L). rewrite L in Hi. destruct Hi.
    + left. right. exists l, x. split; [exact Hx|]. unfold vl_has. destruct (vl_alive x) eqn:E.
      * cbn. rewrite (proj2 (holds_value_in i (vl_cmds x))) by eauto. rewrite orb_true_r. reflexivity.
      * apply (v_ldead A V) in Hx; [|exact E]. destruct Hx as (L & _). rewrite L in Hi. destruct Hi.
    + right. rewrite Ho. cbn. apply Nat.eqb_refl.
Qed.

Ltac acbn := cbn [a_ep a_imap a_ifaces a_conns a_lsnrs a_stubs a_proxies set_vep set_vimap set_vifaces set_vconns
                  set_vlsnrs set_vstubs set_vproxies v_addr v_alive v_takes v_local v_recv v_count vl_alive vl_cmds vl_local
                  vs_iface vs_lst vs_alive v_with_recv v_with_takes v_with_local v_end v_new v_pack vs_end px_iface px_conn px_remote px_alive end_proxy] in *.
Ltac split_nth := acbn;
  repeat match goal with
  | H : nth_error (upd _ _ _) _ = Some _ |- _ => apply upd_is in H; destruct H as [[? H]|[? (? & ? & ?)]]; try subst
  | H : nth_error (_ ++ [_]) _ = Some _ |- _ => apply nth_snoc in H; destruct H as [H|[? ?]]; try subst
  end; acbn.
Ltac same_nth :=
  repeat match goal with
  | H : nth_error ?l ?n = Some ?x, K : nth_error ?l ?n = Some ?y |- _ =>
      tryif constr_eq x y then fail else (assert (x = y) by congruence; subst y)
  end.

(** Nothing becomes owned that was not, except a new interface. *)
Lemma held_back A e o A' id i : Inv1 A -> astep A e o A' -> held A' id i ->
  held A id i \/ (i = length (a_ifaces A) /\ (exists ow, a_ep A = EpShare ow id /\ a_ep A' = EpTake ow id i) /\
                  a_ifaces A' = a_ifaces A ++ [mkI id [] 0 true] /\ a_imap A' = map_insert iid_eqb id i (a_imap A)).
Proof.
  intros V S H. inversion S; subst; clear S; acbn.
  all: try (left; assumption).
  all: destruct H; split_nth; same_nth; try discriminate; try contradiction.
  all: try solve [left; eauto using held_local, held_take, held_recv, held_llocal, held_lcmd, held_ep].
  - match goal with H : EpTake _ _ _ = EpTake _ _ _ |- _ => injection H as -> -> <- end.
    right. repeat split; eauto.
  - match goal with H : In _ (_ ++ [_]) |- _ => apply in_app_or in H; destruct H as [H|[H|[]]];
      [left; eauto using held_lcmd|left; injection H as <- <-; eauto using held_ep] end.
  - match goal with H : In _ (_ ++ [_]) |- _ => apply in_app_or in H; destruct H as [H|[H|[]]];
      [left; eauto using held_take|left; injection H as <- <-; eauto using held_ep] end.
  - match goal with H : RHold _ _ _ = RHold _ _ _ |- _ => injection H as <- <- <- end. left.
    match goal with H : a_strong A _ = true |- _ => apply (strong_held A _ V) in H; destruct H as (id' & Hh) end.
    assert (E := v_ids A V _ _ Hh).
    match goal with H : map_get _ _ _ = Some _ |- _ => apply (v_map A V) in H; rewrite E in H; injection H as -> end.
    exact Hh.
  - left. match goal with H : In _ (map_insert _ _ _ _) |- _ => apply in_insert in H; destruct H as [H|H];
      [injection H as -> ->|eauto using held_local] end.
    eapply held_take; [eassumption|]. match goal with H : v_takes _ = _ |- _ => rewrite H end. left. reflexivity.
  - left. eapply held_take; [eassumption|]. match goal with H : v_takes _ = _ |- _ => rewrite H end. right. assumption.
  - left. match goal with H : In _ (map_insert _ _ _ _) |- _ => apply in_insert in H; destruct H as [H|H];
      [injection H as -> ->|eauto using held_llocal] end.
    eapply held_lcmd; [eassumption|]. match goal with H : vl_cmds _ = _ |- _ => rewrite H end. left. reflexivity.
  - left. eapply held_lcmd; [eassumption|]. match goal with H : vl_cmds _ = _ |- _ => rewrite H end. right. assumption.
Qed.

(** What happens to the interfaces themselves in a step. *)
Inductive ichange (A A' : av) : Prop :=
| ic_same : a_ifaces A' = a_ifaces A -> ichange A A'
| ic_new id : a_ifaces A' = a_ifaces A ++ [mkI id [] 0 true] -> ichange A A'
| ic_put i it y : a_ifaces A' = upd i (i_put it) (a_ifaces A) -> nth_error (a_ifaces A) i = Some y -> ichange A A'
| ic_take i y : a_ifaces A' = upd i i_take (a_ifaces A) -> nth_error (a_ifaces A) i = Some y -> ichange A A'
| ic_shut i : a_ifaces A' = upd i i_shut (a_ifaces A) -> ichange A A'.
Lemma step_ichange A e o A' : astep A e o A' -> ichange A A'.
Proof.
  intros S. inversion S; subst; acbn;
  first [solve [apply ic_same; reflexivity] | solve [eapply ic_new; reflexivity]
        | solve [eapply ic_put; [reflexivity|eassumption]] | solve [eapply ic_take; [reflexivity|eassumption]]
        | solve [eapply ic_shut; reflexivity]].
Qed.

Lemma idof_later A e o A' i id : astep A e o A' -> idof A i = Some id -> idof A' i = Some id.
Proof.
  intros S H. unfold idof in *. destruct (step_ichange _ _ _ _ S) as [E|id' E|j it y E _|j y E _|j E]; rewrite E.
  1: exact H.
  1: { destruct (nth_error (a_ifaces A) i) as [z|] eqn:Z; [|discriminate]. rewrite (nth_snoc_old _ _ _ _ Z). exact H. }
  all: destruct (Nat.eq_dec i j) as [->|D];
       [rewrite nth_upd_same; destruct (nth_error (a_ifaces A) j); [exact H|discriminate]
       |rewrite nth_upd_other by exact D; exact H].
Qed.
Lemma idof_back A e o A' i id : astep A e o A' -> idof A' i = Some id -> i < length (a_ifaces A) -> idof A i = Some id.
Proof.
  intros S H L. destruct (nth_error (a_ifaces A) i) as [y|] eqn:Y; [|apply nth_error_None in Y; lia].
  assert (K : idof A i = Some (i_id y)) by (unfold idof; rewrite Y; reflexivity).
  rewrite (idof_later _ _ _ _ _ _ S K) in H. congruence.
Qed.
Lemma rx_back A e o A' i : astep A e o A' -> rx A' i ->
  rx A i \/ (i = length (a_ifaces A) /\ exists ow id, a_ep A = EpShare ow id /\ a_ep A' = EpTake ow id i /\
             a_ifaces A' = a_ifaces A ++ [mkI id [] 0 true] /\ a_imap A' = map_insert iid_eqb id i (a_imap A)).
Proof.
  intros S (y & Hy & Hr). unfold rx. inversion S; subst; clear S; split_nth; same_nth; try discriminate.
  all: try solve [left; eauto]. all: try solve [right; eauto 10].
Qed.

Lemma unlocked_other A id c x i it todo : a_locked A id = false -> nth_error (a_conns A) c = Some x ->
  v_recv x = RHold i it todo -> bk (iid_of (it_msg it)) <> bk id.
Proof.
  intros L Hx Hr E. assert (F := existsb_nth_false _ _ _ _ L Hx). unfold v_locks in F. rewrite Hr, E, N.eqb_refl in F.
  discriminate.
Qed.

Definition get A id := map_get iid_eqb id (a_imap A).
Lemma imap_back A e o A' id i : astep A e o A' -> get A' id = Some i ->
  get A id = Some i \/ (i = length (a_ifaces A) /\ exists ow, a_ep A = EpShare ow id /\ a_ep A' = EpTake ow id i /\
                        a_ifaces A' = a_ifaces A ++ [mkI id [] 0 true]).
Proof.
  unfold get. intros S H. inversion S; subst; clear S; acbn; try (left; exact H).
  - destruct (iid_eqb id id0) eqn:E.
    + apply iid_eqb_ok in E. subst id0. rewrite (get_insert_same _ iid_eqb_ok) in H. injection H as <-. right. eauto 10.
    + left. rewrite (get_insert_other _ iid_eqb_ok) in H; [exact H|]. intros ->.
      rewrite (eqb_self _ iid_eqb_ok) in E. discriminate.
  - destruct (iid_eqb id (iid_of (it_msg it))) eqn:E.
    + apply iid_eqb_ok in E. subst id. rewrite get_remove_same in H. discriminate.
    + left. rewrite (get_remove_other _ iid_eqb_ok) in H; [exact H|]. intros ->.
      rewrite (eqb_self _ iid_eqb_ok) in E. discriminate.
  - destruct (iid_eqb id (iid_of (it_msg it))) eqn:E.
    + apply iid_eqb_ok in E. subst id. rewrite get_remove_same in H. discriminate.
    + left. rewrite (get_remove_other _ iid_eqb_ok) in H; [exact H|]. intros ->.
      rewrite (eqb_self _ iid_eqb_ok) in E. discriminate.
Qed.
Inductive mchange (A : av) (o : obs) (A' : av) (id : iid) (i : nat) : Prop :=
| mc_same : get A' id = Some i -> mchange A o A' id i
| mc_share ow : a_ep A = EpShare ow id -> a_locked A id = false -> get A' id = Some (length (a_ifaces A)) -> mchange A o A' id i
| mc_stale it : o = ODropped it -> iid_of (it_msg it) = id -> a_locked A id = false -> a_strong A i = false -> mchange A o A' id i
| mc_shut c x j it todo : o = ODropped it -> nth_error (a_conns A) c = Some x -> v_recv x = RHold j it todo -> iid_of (it_msg it) = id ->
    ~ rx A j -> a_conns A' = upd c (v_with_recv (RWait todo)) (a_conns A) -> mchange A o A' id i.
Lemma imap_change A e o A' id i : astep A e o A' -> get A id = Some i -> mchange A o A' id i.
Proof.
  intros S H. inversion S; subst; clear S; try (apply mc_same; exact H).
  - destruct (iid_eqb id id0) eqn:E.
    + apply iid_eqb_ok in E. subst id0. eapply mc_share; [eassumption..|]. unfold get. acbn.
      apply (get_insert_same _ iid_eqb_ok).
    + apply mc_same. unfold get. acbn. rewrite (get_insert_other _ iid_eqb_ok); [exact H|]. intros ->.
      rewrite (eqb_self _ iid_eqb_ok) in E. discriminate.
  - destruct (iid_eqb id (iid_of (it_msg it))) eqn:E.
    + apply iid_eqb_ok in E. subst id. eapply mc_stale; [reflexivity..|assumption|]. unfold get in H. congruence.
    + apply mc_same. unfold get. acbn. rewrite (get_remove_other _ iid_eqb_ok); [exact H|]. intros ->.
      rewrite (eqb_self _ iid_eqb_ok) in E. discriminate.
  - destruct (iid_eqb id (iid_of (it_msg it))) eqn:E.
    + apply iid_eqb_ok in E. subst id. eapply mc_shut; [reflexivity|eassumption|eassumption|reflexivity| |reflexivity].
      intros (z & Hz & Hr). congruence.
    + apply mc_same. unfold get. acbn. rewrite (get_remove_other _ iid_eqb_ok); [exact H|]. intros ->.
      rewrite (eqb_self _ iid_eqb_ok) in E. discriminate.
Qed.

(** A receiver that holds an entry after a step held it before, or has just locked it. *)
Lemma hold_back A e o A' c x i it todo : astep A e o A' -> nth_error (a_conns A') c = Some x -> v_recv x = RHold i it todo ->
  (exists x0, nth_error (a_conns A) c = Some x0 /\ v_recv x0 = RHold i it todo) \/
  (o = OHeld it /\ a_locked A (iid_of (it_msg it)) = false /\ get A (iid_of (it_msg it)) = Some i /\ a_imap A' = a_imap A /\
   a_strong A i = true /\ exists x0, nth_error (a_conns A) c = Some x0 /\ v_recv x0 = RWait (it :: todo) /\
   a_conns A' = upd c (v_with_recv (RHold i it todo)) (a_conns A)).
Proof.
  intros S Hx Hr. inversion S; subst; clear S; split_nth; same_nth; try discriminate; try solve [left; eauto].
  match goal with H : RHold _ _ _ = RHold _ _ _ |- _ => injection H as <- <- <- end.
  right. repeat split; try assumption. eauto 10.
Qed.

Lemma Inv1_step A e o A' : Inv1 A -> astep A e o A' -> Inv1 A'.
Proof.
  intros V S. constructor.
  - intros c x Hx Hd. assert (K := v_dead A V). inversion S; subst; clear S; split_nth; same_nth;
      try discriminate; try congruence; eauto.
  - intros l x Hx Hd. assert (K := v_ldead A V). inversion S; subst; clear S; split_nth; same_nth;
      try discriminate; try congruence; eauto.
  - intros id i H. destruct (held_back _ _ _ _ _ _ V S H) as [K|(-> & _ & E & _)].
    + eapply idof_later; [exact S|]. apply (v_ids A V). exact K.
    + unfold idof. rewrite E, nth_snoc_new. reflexivity.
  - intros id i H. destruct (imap_back _ _ _ _ _ _ S H) as [K|(-> & ow & _ & _ & E)].
    + eapply idof_later; [exact S|]. apply (v_map A V). exact K.
    + unfold idof. rewrite E, nth_snoc_new. reflexivity.
  - intros c x i it todo Hx Hr. change (get A' (iid_of (it_msg it)) = Some i).
    destruct (hold_back _ _ _ _ _ _ _ _ _ S Hx Hr) as [(x0 & Hx0 & Hr0)|(_ & _ & G & E & _)].
    + assert (K := v_lock A V _ _ _ _ _ Hx0 Hr0).
      destruct (imap_change _ _ _ _ _ _ S K) as [E|ow _ L _|it' _ _ L _|d y j ju to _ Hy Hj Ej Rj Ec]; [exact E| | |].
      * exfalso. eapply unlocked_other; [exact L|exact Hx0|exact Hr0|reflexivity].
      * exfalso. eapply unlocked_other; [exact L|exact Hx0|exact Hr0|reflexivity].
      * exfalso. assert (d = c) by (eapply (v_one A V); [exact Hy|exact Hx0|exact Hj|exact Hr0|congruence]). subst d.
        rewrite Ec, nth_upd_same, Hx0 in Hx. cbn in Hx. injection Hx as <-. discriminate.
    + unfold get. rewrite E. exact G.
  - intros c d x y i j it ju todo to Hx Hy Hr Hs B.
    destruct (hold_back _ _ _ _ _ _ _ _ _ S Hx Hr) as [(x0 & Hx0 & Hr0)|(O & L & G & E & _ & x0 & Hx0 & Hr0 & E')];
    destruct (hold_back _ _ _ _ _ _ _ _ _ S Hy Hs) as [(y0 & Hy0 & Hs0)|(O' & L' & G' & F & _ & y0 & Hy0 & Hs0 & F')].
    + eapply (v_one A V); [exact Hx0|exact Hy0|eassumption..].
    + exfalso. eapply unlocked_other; [exact L'|exact Hx0|exact Hr0|exact B].
    + exfalso. eapply unlocked_other; [exact L|exact Hy0|exact Hs0|symmetry; exact B].
    + destruct (Nat.eq_dec c d) as [|D]; [assumption|exfalso].
      rewrite E', nth_upd_other, Hy0 in Hy by congruence. injection Hy as <-. congruence.
Qed.

(** ** An interface that is owned and read is the one its id is mapped to *)
Record Inv2 (A : av) : Prop := {
  v_reach : forall id i, held A id i -> rx A i -> get A id = Some i;
  v_none : forall id, (exists k, a_ep A = EpReady id k) \/ (exists ow, a_ep A = EpShare ow id) ->
             forall i, held A id i -> ~ rx A i }.

Lemma ep_ready_back A e o A' id : astep A e o A' ->
  (exists k, a_ep A' = EpReady id k) \/ (exists ow, a_ep A' = EpShare ow id) ->
  (exists k, a_ep A = EpReady id k) \/ (exists ow, a_ep A = EpShare ow id) \/
  (forall i, get A id = Some i -> a_strong A i = false).
Proof.
  intros S [(k & H)|(k & H)]; inversion S; subst; clear S; acbn; try discriminate; eauto.
  - injection H as -> ->. eauto.
  - injection H as -> ->. eauto.
  - injection H as _ ->. eauto.
  - injection H as _ ->. eauto.
Qed.

Lemma Inv2_step A e o A' : Inv1 A -> Inv2 A -> astep A e o A' -> Inv2 A'.
Proof.
  intros V W S. constructor.
  - intros id i H R. destruct (held_back _ _ _ _ _ _ V S H) as [K|(-> & _ & _ & E)].
    + destruct (rx_back _ _ _ _ _ S R) as [R0|(-> & _)].
      * assert (G := v_reach A W _ _ K R0).
        destruct (imap_change _ _ _ _ _ _ S G) as [E|ow Eo _ _|it _ _ _ F|d y j ju to _ Hy Hj Ej Rj Ec]; [exact E| | |].
        -- exfalso. eapply (v_none A W); [right; eauto|exact K|exact R0].
        -- assert (a_strong A i = true) by (apply (strong_held A i V); eauto). congruence.
        -- assert (get A id = Some j) by (rewrite <- Ej; eapply (v_lock A V); eassumption).
           assert (i = j) by congruence. subst j. contradiction.
      * exfalso. assert (J := v_ids A V _ _ K). unfold idof in J. rewrite nth_length_none in J. discriminate.
    + unfold get. rewrite E. apply (get_insert_same _ iid_eqb_ok).
  - intros id P i H R. assert (Q := ep_ready_back _ _ _ _ _ S P).
    destruct (held_back _ _ _ _ _ _ V S H) as [K|(-> & (ow & _ & E) & _)].
    + destruct (rx_back _ _ _ _ _ S R) as [R0|(-> & _)].
      * destruct Q as [Q|[Q|Q]].
        -- eapply (v_none A W); [left; exact Q|exact K|exact R0].
        -- eapply (v_none A W); [right; exact Q|exact K|exact R0].
        -- assert (a_strong A i = true) by (apply (strong_held A i V); eauto).
           assert (G := v_reach A W _ _ K R0). apply Q in G. congruence.
      * assert (J := v_ids A V _ _ K). unfold idof in J. rewrite nth_length_none in J. discriminate.
    + destruct P as [(k & P)|(k & P)]; congruence.
Qed.

(** ** Each interface has one reader *)
Inductive reader := RStub (n : nat) | RProxy (n : nat).
Inductive reads_from (A : av) (i : nat) : reader -> bool -> Prop :=
| rf_stub n t : nth_error (a_stubs A) n = Some t -> vs_iface t = i -> reads_from A i (RStub n) (vs_alive t)
| rf_proxy n p : nth_error (a_proxies A) n = Some p -> px_iface p = i -> reads_from A i (RProxy n) (px_alive p).

Record Inv3 (A : av) : Prop := {
  v_rx : forall i k b, reads_from A i k b -> exists y, nth_error (a_ifaces A) i = Some y /\ i_rx y = b;
  v_uniq : forall i k b k' b', reads_from A i k b -> reads_from A i k' b' -> k = k';
  v_taking : forall o id i, a_ep A = EpTake o id i -> rx A i /\ forall k b, ~ reads_from A i k b }.

Lemma reads_back A e o A' i k b : astep A e o A' -> reads_from A' i k b ->
  (exists b0, reads_from A i k b0 /\ (b0 = b \/ (b = false /\ a_ifaces A' = upd i i_shut (a_ifaces A)))) \/
  (b = true /\ a_ifaces A' = a_ifaces A /\ (exists ow id, a_ep A = EpTake ow id i) /\ a_ep A' = EpWait /\
   forall k' b', reads_from A' i k' b' -> reads_from A i k' b' \/ k' = k).
Proof.
  intros S H. destruct H as [n t Ht <-|n p Ht <-]; inversion S; subst; clear S; split_nth; same_nth;
    try solve [left; eexists; split; [eapply rf_stub; [eassumption|reflexivity]|left; reflexivity]];
    try solve [left; eexists; split; [eapply rf_proxy; [eassumption|reflexivity]|left; reflexivity]].
  - right. repeat split; eauto. intros k' b' F. destruct F as [m u Hu Eu|m u Hu Eu]; split_nth.
    + left. eapply rf_stub; eauto.
    + right. reflexivity.
    + left. eapply rf_proxy; eauto.
  - left. eexists. split; [eapply rf_stub; [eassumption|reflexivity]|]. right. split; reflexivity.
  - right. repeat split; eauto. intros k' b' F. destruct F as [m u Hu Eu|m u Hu Eu]; split_nth.
    + left. eapply rf_stub; eauto.
    + left. eapply rf_proxy; eauto.
    + right. reflexivity.
  - left. eexists. split; [eapply rf_proxy; [eassumption|reflexivity]|]. right. split; reflexivity.
Qed.

Lemma rx_step A e o A' i y : astep A e o A' -> nth_error (a_ifaces A) i = Some y ->
  exists y', nth_error (a_ifaces A') i = Some y' /\
   (i_rx y' = i_rx y \/ (a_ifaces A' = upd i i_shut (a_ifaces A) /\ i_rx y' = false)).
Proof.
  intros S Hy. destruct (step_ichange _ _ _ _ S) as [E|id' E|j it z E Hz|j z E Hz|j E]; rewrite E.
  1: eauto.
  1: exists y; split; [apply nth_snoc_old; exact Hy|auto].
  all: destruct (Nat.eq_dec i j) as [->|D];
       [rewrite nth_upd_same, Hy; eexists; split; [reflexivity|auto]|rewrite nth_upd_other by exact D; eauto].
Qed.

(** Only the reader's going away shuts an interface, or [take] failing. *)
Lemma shut_by A e o A' i : astep A e o A' -> a_ifaces A' = upd i i_shut (a_ifaces A) -> rx A i ->
  (exists k, reads_from A i k true /\ reads_from A' i k false) \/ (exists ow id, a_ep A = EpTake ow id i /\ a_ep A' = EpWait /\ a_stubs A' = a_stubs A /\ a_proxies A' = a_proxies A).
Proof.
  intros S E (y & Hy & Hr).
  assert (K : nth_error (a_ifaces A') i = Some (i_shut y)) by (rewrite E, nth_upd_same, Hy; reflexivity).
  inversion S; subst; clear S; acbn.
  all: try solve [exfalso; rewrite Hy in K; injection K as K; apply (f_equal i_rx) in K; cbn in K; congruence].
  - exfalso. apply nth_snoc in K. destruct K as [K|[K _]]; [rewrite Hy in K; injection K as K; apply (f_equal i_rx) in K; cbn in K; congruence|].
    subst i. rewrite nth_length_none in Hy. discriminate.
  - right. destruct (Nat.eq_dec i0 i) as [->|D]; [eauto 10|exfalso].
    rewrite nth_upd_other in K by congruence. rewrite Hy in K. injection K as K. apply (f_equal i_rx) in K. cbn in K. congruence.
  - exfalso. destruct (Nat.eq_dec i0 i) as [->|D].
    + rewrite nth_upd_same, Hy in K. cbn in K. injection K as K _. apply (f_equal (@length item)) in K. rewrite app_length in K. cbn in K. lia.
    + rewrite nth_upd_other in K by congruence. rewrite Hy in K. injection K as K. apply (f_equal i_rx) in K. cbn in K. congruence.
  - exfalso. destruct (Nat.eq_dec (vs_iface t) i) as [<-|D].
    + rewrite nth_upd_same, Hy in K. cbn in K. injection K as K. lia.
    + rewrite nth_upd_other in K by congruence. rewrite Hy in K. injection K as K. apply (f_equal i_rx) in K. cbn in K. congruence.
  - exfalso. destruct (Nat.eq_dec (px_iface p) i) as [<-|D].
    + rewrite nth_upd_same, Hy in K. cbn in K. injection K as K. lia.
    + rewrite nth_upd_other in K by congruence. rewrite Hy in K. injection K as K. apply (f_equal i_rx) in K. cbn in K. congruence.
  - destruct (Nat.eq_dec (vs_iface t) i) as [<-|D].
    + left. exists (RStub n). split; [rewrite <- H0; eapply rf_stub; [eassumption|reflexivity]|].
      change false with (vs_alive (vs_end t)). eapply rf_stub; [acbn; rewrite nth_upd_same, H; reflexivity|reflexivity].
    + exfalso. rewrite nth_upd_other in K by congruence. rewrite Hy in K. injection K as K. apply (f_equal i_rx) in K. cbn in K. congruence.
  - destruct (Nat.eq_dec (px_iface p) i) as [<-|D].
    + left. exists (RProxy n). split; [rewrite <- H0; eapply rf_proxy; [eassumption|reflexivity]|].
      change false with (px_alive (end_proxy p)). eapply rf_proxy; [acbn; rewrite nth_upd_same, H; reflexivity|reflexivity].
    + exfalso. rewrite nth_upd_other in K by congruence. rewrite Hy in K. injection K as K. apply (f_equal i_rx) in K. cbn in K. congruence.
Qed.

Lemma reads_fun A i k b b' : reads_from A i k b -> reads_from A i k b' -> b = b'.
Proof. intros H K. inversion H; subst; inversion K; subst; congruence. Qed.

Lemma taking_back A e o A' ow id i : astep A e o A' -> a_ep A' = EpTake ow id i ->
  (a_ep A = EpTake ow id i /\ (forall k b, reads_from A' i k b -> exists b0, reads_from A i k b0)) \/
  (i = length (a_ifaces A) /\ a_ifaces A' = a_ifaces A ++ [mkI id [] 0 true] /\ a_stubs A' = a_stubs A /\ a_proxies A' = a_proxies A).
Proof.
  intros S H. inversion S; subst; clear S; acbn; try discriminate;
  try solve [left; split; [exact H|]; intros k b F; destruct F as [m u Hu Eu|m u Hu Eu]; split_nth; eauto using rf_stub, rf_proxy].
  right. injection H as -> -> <-. auto.
Qed.

Lemma Inv3_step A e o A' : Inv3 A -> astep A e o A' -> Inv3 A'.
Proof.
  intros V S. constructor.
  - intros i k b H. destruct (reads_back _ _ _ _ _ _ _ S H) as [(b0 & K & [->|[-> E]])|(-> & E & (ow & id & P) & _)].
    + destruct (v_rx A V _ _ _ K) as (y & Hy & Hr). destruct (rx_step _ _ _ _ _ _ S Hy) as (y' & Hy' & [R|[E R]]).
      * exists y'. split; congruence.
      * exists y'. split; [exact Hy'|]. destruct b; [|exact R]. exfalso.
        destruct (shut_by _ _ _ _ _ S E) as [(k' & K1 & K2)|(ow & id & P & _)]; [exists y; auto| |].
        -- assert (k' = k) by (eapply (v_uniq A V); eassumption). subst k'.
           assert (true = false) by (eapply reads_fun; [exact H|exact K2]). discriminate.
        -- destruct (v_taking A V _ _ _ P) as (_ & N). eapply N. exact K.
    + destruct (v_rx A V _ _ _ K) as (y & Hy & Hr). exists (i_shut y). rewrite E, nth_upd_same, Hy. auto.
    + destruct (v_taking A V _ _ _ P) as ((y & Hy & Hr) & _). exists y. rewrite E. auto.
  - intros i k b k' b' H H'.
    destruct (reads_back _ _ _ _ _ _ _ S H) as [(b0 & K & _)|(_ & _ & (ow & id & P) & _ & F)].
    + destruct (reads_back _ _ _ _ _ _ _ S H') as [(b0' & K' & _)|(_ & _ & (ow & id & P) & _ & _)].
      * eapply (v_uniq A V); eassumption.
      * exfalso. destruct (v_taking A V _ _ _ P) as (_ & N). eapply N. exact K.
    + destruct (F _ _ H') as [K'|E]; [|congruence].
      exfalso. destruct (v_taking A V _ _ _ P) as (_ & N). eapply N. exact K'.
  - intros ow id i H. destruct (taking_back _ _ _ _ _ _ _ S H) as [(K & F)|(-> & E & Es & Ep)].
    + destruct (v_taking A V _ _ _ K) as ((y & Hy & Hr) & N). split.
      * destruct (rx_step _ _ _ _ _ _ S Hy) as (y' & Hy' & [R|[E R]]); [exists y'; split; congruence|exfalso].
        destruct (shut_by _ _ _ _ _ S E) as [(k' & K1 & _)|(ow' & id' & _ & P & _)]; [exists y; auto|eapply N; exact K1|congruence].
      * intros k b G. destruct (F _ _ G) as (b0 & G0). eapply N. exact G0.
    + split; [exists (mkI id [] 0 true); rewrite E, nth_snoc_new; auto|].
      intros k b G. assert (G0 : reads_from A (length (a_ifaces A)) k b).
      { destruct G as [n t Ht <-|n p Ht <-]; [rewrite Es in Ht; eapply rf_stub|rewrite Ep in Ht; eapply rf_proxy]; eauto. }
      destruct (v_rx A V _ _ _ G0) as (y & Hy & _). rewrite nth_length_none in Hy. discriminate.
Qed.

(** ** A listener or connection that runs keeps the interfaces it was given *)
Definition settle (q : list (iid * nat)) (m : list (iid * nat)) : list (iid * nat) :=
  fold_left (fun m e => map_insert iid_eqb (fst e) (snd e) m) q m.
Lemma settle_snoc q e m : settle (q ++ [e]) m = map_insert iid_eqb (fst e) (snd e) (settle q m).
Proof. unfold settle. rewrite fold_left_app. reflexivity. Qed.
Lemma get_in {K V} (eqb : K -> K -> bool) (ok : forall a b, eqb a b = true <-> a = b) k v (m : list (K * V)) :
  map_get eqb k m = Some v -> In (k, v) m.
Proof.
  induction m as [|[k' v'] m IH]; cbn; [discriminate|]. destruct (eqb k k') eqn:E.
  - apply ok in E. intros H. left. congruence.
  - intros H. right. apply IH. exact H.
Qed.
Lemma settle_in q m e : In e (settle q m) -> In e q \/ In e m.
Proof.
  revert m. induction q as [|[id i] q IH]; intros m H; [right; exact H|]. cbn in H. apply IH in H.
  destruct H as [H|H]; [left; right; exact H|]. apply in_insert in H. destruct H as [->|H]; [left; left; reflexivity|right; exact H].
Qed.

Record Inv4 (A : av) : Prop := {
  v_listen : forall n t x, nth_error (a_stubs A) n = Some t -> vs_alive t = true -> nth_error (a_lsnrs A) (vs_lst t) = Some x ->
    vl_alive x = true ->
    exists id, idof A (vs_iface t) = Some id /\ map_get iid_eqb id (settle (vl_cmds x) (vl_local x)) = Some (vs_iface t);
  v_linked : forall n p x, nth_error (a_proxies A) n = Some p -> px_alive p = true -> nth_error (a_conns A) (px_conn p) = Some x ->
    v_alive x = true ->
    exists id, idof A (px_iface p) = Some id /\ map_get iid_eqb id (settle (v_takes x) (v_local x)) = Some (px_iface p);
  v_lst : forall n t, nth_error (a_stubs A) n = Some t -> vs_lst t < length (a_lsnrs A);
  v_pcn : forall n p, nth_error (a_proxies A) n = Some p -> px_conn p < length (a_conns A) }.

Lemma settle_step id i q m : settle q (map_insert iid_eqb id i m) = settle ((id, i) :: q) m.
Proof. reflexivity. Qed.
Lemma held_settled A l x id i : nth_error (a_lsnrs A) l = Some x ->
  map_get iid_eqb id (settle (vl_cmds x) (vl_local x)) = Some i -> held A id i.
Proof.
  intros Hx H. apply (get_in _ iid_eqb_ok) in H. apply settle_in in H.
  destruct H; [eapply held_lcmd|eapply held_llocal]; eassumption.
Qed.
Lemma held_csettled A l x id i : nth_error (a_conns A) l = Some x ->
  map_get iid_eqb id (settle (v_takes x) (v_local x)) = Some i -> held A id i.
Proof.
  intros Hx H. apply (get_in _ iid_eqb_ok) in H. apply settle_in in H.
  destruct H; [eapply held_take|eapply held_local]; eassumption.
Qed.

(** What is about to be handed over has no reader yet, so it does not replace one that has. *)
Lemma taking_new A ow id i j k : Inv2 A -> Inv3 A -> a_ep A = EpTake ow id i ->
  held A id j -> reads_from A j k true -> False.
Proof.
  intros W X P H R. destruct (v_taking A X _ _ _ P) as (Ri & N).
  assert (G1 := v_reach A W _ _ (held_ep A id i _ P) Ri).
  assert (G2 : get A id = Some j). { apply (v_reach A W); [exact H|]. destruct (v_rx A X _ _ _ R) as (y & Hy & Hr). exists y. auto. }
  assert (i = j) by congruence. subst j. eapply N. exact R.
Qed.

(** What a listener or a connection keeps for an id stays there while it runs and nothing else is
    handed over for that id. *)
Lemma kept_listener A e o A' l x x' id i : astep A e o A' -> (forall ow j, a_ep A <> EpTake ow id j) ->
  nth_error (a_lsnrs A) l = Some x -> nth_error (a_lsnrs A') l = Some x' -> vl_alive x' = true ->
  map_get iid_eqb id (settle (vl_cmds x) (vl_local x)) = Some i -> map_get iid_eqb id (settle (vl_cmds x') (vl_local x')) = Some i.
Proof.
  intros S NT H H' Ha G. inversion S; subst; clear S; split_nth; same_nth; try discriminate; try assumption.
  all: try solve [rewrite nth_length_none in H; discriminate].
  - cbn [vl_cmds vl_local]. rewrite settle_snoc. cbn [fst snd]. rewrite get_insert_other; [exact G|exact iid_eqb_ok|].
    intros <-. eapply NT. eassumption.
  - cbn [vl_cmds vl_local]. match goal with E : vl_cmds _ = _ :: _ |- _ => rewrite E in G end. exact G.
Qed.
Lemma kept_conn A e o A' l x x' id i : astep A e o A' -> (forall ow j, a_ep A <> EpTake ow id j) ->
  nth_error (a_conns A) l = Some x -> nth_error (a_conns A') l = Some x' -> v_alive x' = true ->
  map_get iid_eqb id (settle (v_takes x) (v_local x)) = Some i -> map_get iid_eqb id (settle (v_takes x') (v_local x')) = Some i.
Proof.
  intros S NT H H' Ha G. inversion S; subst; clear S; split_nth; same_nth; try discriminate; try assumption.
  all: try solve [rewrite nth_length_none in H; discriminate].
  - cbn [v_takes v_local v_with_takes]. rewrite settle_snoc. cbn [fst snd]. rewrite get_insert_other; [exact G|exact iid_eqb_ok|].
    intros <-. eapply NT. eassumption.
  - cbn [v_takes v_local v_with_takes v_with_local]. match goal with E : v_takes _ = _ :: _ |- _ => rewrite E in G end. exact G.
Qed.
(** The endpoint gets past the check of an id only when nothing holds its interface. *)
Lemma ep_past A e o A' id i : Inv1 A -> astep A e o A' -> get A id = Some i -> held A id i ->
  (forall k, a_ep A <> EpReady id k) -> (forall ow, a_ep A <> EpShare ow id) -> (forall ow j, a_ep A <> EpTake ow id j) ->
  (forall k, a_ep A' <> EpReady id k) /\ (forall ow, a_ep A' <> EpShare ow id) /\ (forall ow j, a_ep A' <> EpTake ow id j).
Proof.
  intros V S G Hh N1 N2 N3. assert (St := proj2 (strong_held A i V) (ex_intro _ id Hh)).
  inversion S; subst; clear S; acbn; repeat split; try assumption; try discriminate; intros; intros E; injection E; intros; subst.
  all: try solve [eapply N1; eassumption|eapply N2; eassumption|eapply N3; eassumption].
  match goal with H : forall i, map_get _ _ _ = Some i -> _ |- _ => rewrite (H _ G) in St end. discriminate.
Qed.
Lemma Inv4_step A e o A' : Inv1 A -> Inv2 A -> Inv3 A -> Inv4 A -> astep A e o A' -> Inv4 A'.
Proof.
  intros V W X Y S.
  assert (J : forall i id, idof A i = Some id -> idof A' i = Some id) by (intros; eapply idof_later; eassumption).
  constructor.
  - intros n t x Ht Ha Hx Hb.
    assert (K := v_listen A Y). assert (Z := v_lst A Y n t).
    inversion S; subst; clear S; split_nth; same_nth; try discriminate;
      try solve [destruct (K _ _ _ Ht Ha Hx Hb) as (id' & K1 & K2); exists id'; split; [apply J; exact K1|exact K2]];
      try solve [edestruct K as (id' & K1 & K2); [eassumption..|]; exists id'; split; [apply J; exact K1|first [exact K2|rewrite settle_step; congruence]]];
      try solve [exfalso; apply Z in Ht; lia]; try solve [exfalso; congruence].
    + edestruct K as (id' & K1 & K2); [exact Ht|exact Ha|eassumption|eassumption|]. exists id'. split; [apply J; exact K1|].
      rewrite settle_snoc. cbn [fst snd]. rewrite (get_insert_other _ iid_eqb_ok); [exact K2|]. intros ->.
      eapply taking_new; [exact W|exact X|exact H|eapply held_settled; eassumption|].
      rewrite <- Ha. eapply rf_stub; [exact Ht|reflexivity].
    + exists id. assert (Et : vs_iface t = i) by (match goal with E : t = _ |- _ => rewrite E end; reflexivity). rewrite Et.
      split; [apply J; apply (v_ids A V); eapply held_ep; exact H|].
      rewrite settle_snoc. apply (get_insert_same _ iid_eqb_ok).
  - intros n t x Ht Ha Hx Hb.
    assert (K := v_linked A Y). assert (Z := v_pcn A Y n t).
    inversion S; subst; clear S; split_nth; same_nth; try discriminate;
      try solve [destruct (K _ _ _ Ht Ha Hx Hb) as (id' & K1 & K2); exists id'; split; [apply J; exact K1|exact K2]];
      try solve [edestruct K as (id' & K1 & K2); [eassumption..|]; exists id'; split; [apply J; exact K1|first [exact K2|rewrite settle_step; congruence]]];
      try solve [exfalso; apply Z in Ht; lia]; try solve [exfalso; congruence].
    + edestruct K as (id' & K1 & K2); [exact Ht|exact Ha|eassumption|eassumption|]. exists id'. split; [apply J; exact K1|].
      rewrite settle_snoc. cbn [fst snd]. rewrite (get_insert_other _ iid_eqb_ok); [exact K2|]. intros ->.
      eapply taking_new; [exact W|exact X|exact H|eapply held_csettled; eassumption|].
      rewrite <- Ha. eapply rf_proxy; [exact Ht|reflexivity].
    + exists id. assert (Et : px_iface t = i) by (match goal with E : t = _ |- _ => rewrite E end; reflexivity). rewrite Et.
      split; [apply J; apply (v_ids A V); eapply held_ep; exact H|].
      rewrite settle_snoc. apply (get_insert_same _ iid_eqb_ok).
  - intros n t Ht. assert (Z := v_lst A Y). inversion S; subst; clear S; split_nth; same_nth; rewrite ?length_upd, ?app_length;
      try solve [eapply Z; eassumption]; try solve [eapply Nat.lt_le_trans; [eapply Z; eassumption|lia]].
    + eapply nth_lt. eassumption.
  - intros n t Ht. assert (Z := v_pcn A Y). inversion S; subst; clear S; split_nth; same_nth; rewrite ?length_upd, ?app_length;
      try solve [eapply Z; eassumption]; try solve [eapply Nat.lt_le_trans; [eapply Z; eassumption|lia]].
    + eapply nth_lt. eassumption.
Qed.

(** ** Where messages come from, and in what order they arrive *)
Definition pend (x : vconn) : list item := match v_recv x with RWait todo => todo | RHold _ it todo => it :: todo end.

Lemma decoded_snoc c tr e o :
  decoded c (tr ++ [(e, o)]) = decoded c tr ++ match e with EPacket d bs => if d =? c then packet_messages bs else [] | _ => [] end.
Proof. unfold decoded. rewrite flat_map_app. cbn. rewrite app_nil_r. reflexivity. Qed.
Lemma decoded_later c tr p k m : nth_error (decoded c tr) k = Some m -> nth_error (decoded c (tr ++ [p])) k = Some m.
Proof. intros H. destruct p as [e o]. rewrite decoded_snoc, nth_error_app1; [exact H|]. eapply nth_lt. exact H. Qed.
Lemma decoded_quiet c tr e o o' : quiet e o' -> decoded c (tr ++ [(e, o)]) = decoded c tr.
Proof.
  intros (Q & _). rewrite decoded_snoc. destruct e; try apply app_nil_r.
  destruct (c0 =? c); [|apply app_nil_r]. rewrite (Q _ _ eq_refl). apply app_nil_r.
Qed.

(** What a step does to what connection [c] is still to route and to its count. *)
Inductive pchange (A : av) (tr : list (event * obs)) (e : event) (o : obs) (A' : av) (c : nat) (x' : vconn) : Prop :=
| pc_new a : c = length (a_conns A) -> x' = v_new a -> o = OSpawned c a -> decoded c (tr ++ [(e, o)]) = decoded c tr ->
    pchange A tr e o A' c x'
| pc_same x : nth_error (a_conns A) c = Some x -> pend x' = pend x -> v_addr x' = v_addr x -> v_count x' = v_count x ->
    decoded c (tr ++ [(e, o)]) = decoded c tr -> pchange A tr e o A' c x'
| pc_end x : nth_error (a_conns A) c = Some x -> pend x' = [] -> v_addr x' = v_addr x -> v_count x' = v_count x ->
    decoded c (tr ++ [(e, o)]) = decoded c tr -> v_alive x' = false -> pchange A tr e o A' c x'
| pc_pop x it : nth_error (a_conns A) c = Some x -> e = ERoute c -> o = ORouted it \/ o = ODropped it ->
    pend x = it :: pend x' -> v_addr x' = v_addr x -> v_count x' = v_count x ->
    decoded c (tr ++ [(e, o)]) = decoded c tr -> pchange A tr e o A' c x'
| pc_pack x ms : nth_error (a_conns A) c = Some x -> pend x = [] -> pend x' = number c (v_addr x) (v_count x) ms ->
    v_addr x' = v_addr x -> v_count x' = v_count x + length ms -> decoded c (tr ++ [(e, o)]) = decoded c tr ++ ms ->
    pchange A tr e o A' c x'.
Lemma decoded_other c d bs o tr : d <> c -> decoded c (tr ++ [(EPacket d bs, o)]) = decoded c tr.
Proof. intros H. rewrite decoded_snoc. apply Nat.eqb_neq in H. rewrite H. apply app_nil_r. Qed.
Lemma step_pchange A tr e o A' c x' : astep A e o A' -> nth_error (a_conns A') c = Some x' -> pchange A tr e o A' c x'.
Proof.
  intros S H. inversion S; subst; clear S; split_nth; same_nth;
  first [ solve [eapply pc_same; [eassumption|reflexivity..|first [eapply decoded_quiet; eassumption|rewrite decoded_snoc; apply app_nil_r]]]
        | solve [eapply pc_new; [reflexivity..|rewrite decoded_snoc; first [apply app_nil_r|idtac]]]
        | solve [eapply pc_end; [eassumption|reflexivity|reflexivity|reflexivity|eapply decoded_quiet; eassumption|reflexivity]]
        | solve [eapply pc_pop; [eassumption|reflexivity|eauto|unfold pend; match goal with H : v_recv _ = _ |- _ => rewrite H end; reflexivity|reflexivity|reflexivity|rewrite decoded_snoc; apply app_nil_r]]
        | idtac ].
  - eapply pc_new; [reflexivity..|eapply decoded_quiet; eassumption].
  - eapply pc_same; [eassumption|reflexivity..|]. apply decoded_other. congruence.
  - eapply pc_pack with (ms := ms); [eassumption|unfold pend; rewrite H2; reflexivity|reflexivity..|].
    rewrite decoded_snoc, Nat.eqb_refl. unfold packet_messages. rewrite H3. reflexivity.
  - eapply pc_same; [eassumption|unfold pend; rewrite H2; reflexivity|reflexivity|reflexivity|rewrite decoded_snoc; apply app_nil_r].
Qed.

(** What routing does to the message routed. *)
Lemma pop_spec A c o A' x it : astep A (ERoute c) o A' -> nth_error (a_conns A) c = Some x -> o = ORouted it \/ o = ODropped it ->
  (o = ORouted it /\ exists j todo y, v_recv x = RHold j it todo /\ nth_error (a_ifaces A) j = Some y /\
     a_ifaces A' = upd j (i_put it) (a_ifaces A)) \/
  (o = ODropped it /\ a_ifaces A' = a_ifaces A /\
     (get A (iid_of (it_msg it)) = None \/
      (exists j, get A (iid_of (it_msg it)) = Some j /\ a_strong A j = false) \/
      (exists j todo y, v_recv x = RHold j it todo /\ nth_error (a_ifaces A) j = Some y /\ i_rx y = false))).
Proof.
  intros S H Ho. inversion S; subst; clear S;
    try solve [match goal with Q : quiet _ _ |- _ => destruct Q as (_ & _ & _ & _ & _ & _ & _ & Q1 & Q2); destruct Ho as [->| ->]; [edestruct Q1|edestruct Q2]; reflexivity end];
    try solve [destruct Ho; discriminate]; destruct Ho as [E|E]; try discriminate E; injection E as ->; same_nth.
  - right. auto.
  - right. eauto 10.
  - left. eauto 10.
  - right. eauto 15.
Qed.
Lemma spawned_is A e c a A' : astep A e (OSpawned c a) A' -> exists x, nth_error (a_conns A') c = Some x /\ v_addr x = a.
Proof.
  intros S. inversion S; subst; clear S;
    try solve [match goal with Q : quiet _ _ |- _ => destruct Q as (_ & _ & Q & _); edestruct Q; reflexivity end].
  - eexists. split; [apply nth_snoc_new|reflexivity].
  - eexists. split; [apply nth_snoc_new|reflexivity].
  - match goal with H : (if ?b then _ else _) = _ |- _ => destruct b; discriminate end.
Qed.
(** After a message was dropped its id is not registered. *)
Lemma dropped_free A c it A' : astep A (ERoute c) (ODropped it) A' -> get A' (iid_of (it_msg it)) = None.
Proof.
  intros S. inversion S; subst; clear S;
    try solve [match goal with Q : quiet _ _ |- _ => destruct Q as (_ & _ & _ & _ & _ & _ & _ & _ & Q); edestruct Q; reflexivity end].
  - assumption.
  - unfold get. acbn. apply get_remove_same.
  - unfold get. acbn. apply get_remove_same.
Qed.
(** What runs or exists now did before, if it was there. *)
Lemma alive_back A e o A' c x x' : astep A e o A' -> nth_error (a_conns A) c = Some x -> nth_error (a_conns A') c = Some x' ->
  v_alive x' = true -> v_alive x = true.
Proof.
  intros S H H' E. inversion S; subst; clear S; split_nth; same_nth; try assumption; try discriminate.
  all: try solve [rewrite nth_length_none in H; discriminate].
Qed.
Lemma listens_back A e o A' c x x' : astep A e o A' -> nth_error (a_lsnrs A) c = Some x -> nth_error (a_lsnrs A') c = Some x' ->
  vl_alive x' = true -> vl_alive x = true.
Proof.
  intros S H H' E. inversion S; subst; clear S; split_nth; same_nth; try assumption; try discriminate.
  all: try solve [rewrite nth_length_none in H; discriminate].
Qed.
Lemma exists_back A e o A' c x x' : astep A e o A' -> nth_error (a_stubs A) c = Some x -> nth_error (a_stubs A') c = Some x' ->
  vs_alive x' = true -> vs_alive x = true.
Proof.
  intros S H H' E. inversion S; subst; clear S; split_nth; same_nth; try assumption; try discriminate.
  all: try solve [rewrite nth_length_none in H; discriminate].
Qed.
Lemma pexists_back A e o A' c x x' : astep A e o A' -> nth_error (a_proxies A) c = Some x -> nth_error (a_proxies A') c = Some x' ->
  px_alive x' = true -> px_alive x = true.
Proof.
  intros S H H' E. inversion S; subst; clear S; split_nth; same_nth; try assumption; try discriminate.
  all: try solve [rewrite nth_length_none in H; discriminate].
Qed.
Lemma number_spec c a n ms : forall it, In it (number c a n ms) ->
  it_conn it = c /\ it_addr it = a /\ n <= it_no it /\ nth_error ms (it_no it - n) = Some (it_msg it).
Proof.
  revert n. induction ms as [|m ms IH]; intros n it H; [destruct H|]. cbn in H. destruct H as [<-|H].
  - cbn. rewrite Nat.sub_diag. auto.
  - apply IH in H. destruct H as (H1 & H2 & H3 & H4). repeat split; try assumption; try lia.
    replace (it_no it - n) with (S (it_no it - S n)) by lia. exact H4.
Qed.
Lemma number_sorted c a n ms : StronglySorted lt (map it_no (number c a n ms)).
Proof.
  revert n. induction ms as [|m ms IH]; intros n; cbn; constructor; [apply IH|].
  apply Forall_forall. intros k Hk. apply in_map_iff in Hk. destruct Hk as (it & <- & Hi).
  apply number_spec in Hi. lia.
Qed.

Record Inv5 (tr : list (event * obs)) (A : av) : Prop := {
  v_cnt : forall c x, nth_error (a_conns A) c = Some x -> length (decoded c tr) = v_count x;
  v_cnt0 : forall c, nth_error (a_conns A) c = None -> decoded c tr = [];
  v_opened : forall c x, nth_error (a_conns A) c = Some x -> opened c (v_addr x) tr;
  v_pend : forall c x it, nth_error (a_conns A) c = Some x -> In it (pend x) ->
    it_conn it = c /\ it_addr it = v_addr x /\ nth_error (decoded c tr) (it_no it) = Some (it_msg it);
  v_psort : forall c x, nth_error (a_conns A) c = Some x -> StronglySorted lt (map it_no (pend x));
  v_log : forall i y it, nth_error (a_ifaces A) i = Some y -> In it (i_log y) ->
    iid_of (it_msg it) = i_id y /\ nth_error (decoded (it_conn it) tr) (it_no it) = Some (it_msg it) /\
    exists x, nth_error (a_conns A) (it_conn it) = Some x /\ it_addr it = v_addr x /\
              forall p, In p (pend x) -> it_no it < it_no p;
  v_pos : forall i j y z p q it ju, nth_error (a_ifaces A) i = Some y -> nth_error (a_ifaces A) j = Some z ->
    nth_error (i_log y) p = Some it -> nth_error (i_log z) q = Some ju -> which it = which ju -> i = j /\ p = q;
  v_ord : forall i y p q it ju, nth_error (a_ifaces A) i = Some y -> p < q ->
    nth_error (i_log y) p = Some it -> nth_error (i_log y) q = Some ju -> it_conn it = it_conn ju -> it_no it < it_no ju;
  v_cap : forall i y, nth_error (a_ifaces A) i = Some y -> i_next y <= length (i_log y) <= i_next y + 16 }.

(** A log entry after a step was there before, or is the message just routed. *)
Lemma log_back A e o A' i y' p it : astep A e o A' -> nth_error (a_ifaces A') i = Some y' -> nth_error (i_log y') p = Some it ->
  (exists y, nth_error (a_ifaces A) i = Some y /\ nth_error (i_log y) p = Some it /\ i_id y' = i_id y) \/
  (exists c x y todo, e = ERoute c /\ o = ORouted it /\ nth_error (a_conns A) c = Some x /\ v_recv x = RHold i it todo /\
     a_conns A' = upd c (v_with_recv (RWait todo)) (a_conns A) /\
     nth_error (a_ifaces A) i = Some y /\ p = length (i_log y) /\ y' = i_put it y /\ length (i_queue y) < 16).
Proof.
  intros S Hy Hp. inversion S; subst; clear S; split_nth; same_nth; try solve [left; eauto].
  all: try solve [destruct p; discriminate].
  all: try solve [left; eexists; split; [eassumption|]; split; [exact Hp|reflexivity]].
  cbn [i_log i_put] in Hp. apply nth_snoc in Hp. destruct Hp as [Hp|[-> ->]].
  - left. eexists. split; [eassumption|]. split; [exact Hp|reflexivity].
  - right. eauto 20.
Qed.

Lemma i_id_later A e o A' i y y' : astep A e o A' -> nth_error (a_ifaces A) i = Some y -> nth_error (a_ifaces A') i = Some y' -> i_id y' = i_id y.
Proof.
  intros S H H'. assert (K : idof A i = Some (i_id y)) by (unfold idof; rewrite H; reflexivity).
  apply (idof_later _ _ _ _ _ _ S) in K. unfold idof in K. rewrite H' in K. cbn in K. congruence.
Qed.

Lemma sorted_head x l : StronglySorted lt (x :: l) -> forall y, In y l -> x < y.
Proof. intros H. inversion H; subst. apply Forall_forall. assumption. Qed.

Lemma conn_later A e o A' c x : astep A e o A' -> nth_error (a_conns A) c = Some x -> exists x', nth_error (a_conns A') c = Some x' /\ v_addr x' = v_addr x.
Proof.
  intros S H. inversion S; subst; clear S; acbn; try solve [eauto];
  try solve [exists x; split; [apply nth_snoc_old; exact H|reflexivity]];
  match goal with |- exists x', nth_error (upd ?d ?f _) _ = _ /\ _ =>
    destruct (Nat.eq_dec c d) as [->|D]; [rewrite nth_upd_same, H; eexists; split; reflexivity|rewrite nth_upd_other by exact D; eauto] end.
Qed.

Lemma Inv5_step tr A e o A' : Inv1 A -> Inv5 tr A -> astep A e o A' -> Inv5 (tr ++ [(e, o)]) A'.
Proof.
  intros V X S. constructor.
  - intros c x' Hx. destruct (step_pchange A tr _ _ _ _ _ S Hx) as [a -> -> _ D|x H P Ad C D|x H P Ad C D|x it H _ _ P Ad C D|x ms H P P' Ad C D]; rewrite D.
    + rewrite (v_cnt0 _ _ X) by apply nth_length_none. reflexivity.
    + rewrite C. apply (v_cnt _ _ X). exact H.
    + rewrite C. apply (v_cnt _ _ X). exact H.
    + rewrite C. apply (v_cnt _ _ X). exact H.
    + rewrite app_length, C, (v_cnt _ _ X _ _ H). reflexivity.
  - intros c Hc. destruct (nth_error (a_conns A) c) as [x|] eqn:E.
    + destruct (conn_later _ _ _ _ _ _ S E) as (x' & E' & _). congruence.
    + assert (K := v_cnt0 _ _ X _ E). rewrite decoded_snoc, K. cbn. inversion S; subst; clear S; try reflexivity.
      all: try solve [match goal with Q : quiet _ _ |- _ => destruct Q as (Q & _); destruct e; try reflexivity;
                        rewrite (Q _ _ eq_refl); destruct (_ =? _); reflexivity end].
      destruct (c0 =? c) eqn:F; [|reflexivity]. apply Nat.eqb_eq in F. congruence.
  - intros c x' Hx. unfold opened.
    destruct (step_pchange A tr _ _ _ _ _ S Hx) as [a -> -> -> D|x H P Ad C D|x H P Ad C D|x it H _ _ P Ad C D|x ms H P P' Ad C D].
    1: exists e; apply in_or_app; right; left; reflexivity.
    all: rewrite Ad; destruct (v_opened _ _ X _ _ H) as (e' & He); exists e'; apply in_or_app; left; exact He.
  - intros c x' it Hx Hi.
    destruct (step_pchange A tr _ _ _ _ _ S Hx) as [a -> -> _ D|x H P Ad C D|x H P Ad C D|x ju H _ _ P Ad C D|x ms H P P' Ad C D].
    + destruct Hi.
    + rewrite P in Hi. destruct (v_pend _ _ X _ _ _ H Hi) as (K1 & K2 & K3). rewrite D. repeat split; congruence.
    + rewrite P in Hi. destruct Hi.
    + destruct (v_pend _ _ X c x it H) as (K1 & K2 & K3); [rewrite P; right; exact Hi|]. rewrite D. repeat split; congruence.
    + rewrite P' in Hi. apply number_spec in Hi. destruct Hi as (K1 & K2 & K3 & K4). repeat split; [exact K1|congruence|].
      rewrite D. rewrite nth_error_app2; rewrite (v_cnt _ _ X _ _ H); assumption.
  - intros c x' Hx.
    destruct (step_pchange A tr _ _ _ _ _ S Hx) as [a -> -> _ D|x H P Ad C D|x H P Ad C D|x ju H _ _ P Ad C D|x ms H P P' Ad C D].
    + constructor.
    + rewrite P. apply (v_psort _ _ X _ _ H).
    + rewrite P. constructor.
    + assert (K := v_psort _ _ X _ _ H). rewrite P in K. inversion K. assumption.
    + rewrite P'. apply number_sorted.
  - intros i y' it Hy Hi. apply In_nth_error in Hi. destruct Hi as (p & Hp).
    destruct (log_back _ _ _ _ _ _ _ _ S Hy Hp) as [(y & Hy0 & Hp0 & Ei)|(c & x & y & todo & Ee & Eo & Hx & Hr & Ec & Hy0 & Ep & Ey & _)].
    + destruct (v_log _ _ X _ _ it Hy0 (nth_error_In _ _ Hp0)) as (L1 & L2 & x & Hx & L3 & L4).
      split; [congruence|]. split; [apply decoded_later; exact L2|].
      destruct (conn_later _ _ _ _ _ _ S Hx) as (x' & Hx' & Ad). exists x'. split; [exact Hx'|]. split; [congruence|].
      intros q Hq.
      destruct (step_pchange A tr _ _ _ _ _ S Hx') as [a E _ _ _|x1 H P _ C D|x1 H P _ C D|x1 ju H _ _ P _ C D|x1 ms H P P' _ C D].
      * exfalso. rewrite E in Hx. rewrite nth_length_none in Hx. discriminate.
      * same_nth. apply L4. rewrite <- P. exact Hq.
      * rewrite P in Hq. destruct Hq.
      * same_nth. apply L4. rewrite P. right. exact Hq.
      * same_nth. rewrite P' in Hq. apply number_spec in Hq. destruct Hq as (_ & _ & Hq & _).
        eapply Nat.lt_le_trans; [|exact Hq]. rewrite <- (v_cnt _ _ X _ _ Hx). eapply nth_lt. exact L2.
    + subst y'. assert (Hin : In it (pend x)) by (unfold pend; rewrite Hr; left; reflexivity).
      destruct (v_pend _ _ X _ _ _ Hx Hin) as (K1 & K2 & K3).
      split; [|split].
      * assert (G := v_ids A V _ _ (held_recv A _ i c x it todo Hx Hr eq_refl)). unfold idof in G. rewrite Hy0 in G.
        cbn in G |- *. congruence.
      * apply decoded_later. rewrite K1. exact K3.
      * rewrite K1. exists (v_with_recv (RWait todo) x). rewrite Ec, nth_upd_same, Hx. split; [reflexivity|]. split; [exact K2|].
        intros q Hq. assert (P := v_psort _ _ X _ _ Hx). unfold pend in P. rewrite Hr in P. cbn [map] in P.
        apply (sorted_head _ _ P). apply in_map. exact Hq.
  - intros i j y' z' p q it ju Hy Hz Hp Hq E.
    destruct (log_back _ _ _ _ _ _ _ _ S Hy Hp) as [(y & Hy0 & Hp0 & _)|(c & x & y & todo & Ee & Eo & Hx & Hr & Ec & Hy0 & Ep & Ey & _)];
    destruct (log_back _ _ _ _ _ _ _ _ S Hz Hq) as [(z & Hz0 & Hq0 & _)|(d & w & z & to & Fe & Fo & Hw & Hs & Fc & Hz0 & Fp & Fy & _)].
    + eapply (v_pos _ _ X); eassumption.
    + exfalso. destruct (v_log _ _ X _ _ it Hy0 (nth_error_In _ _ Hp0)) as (_ & _ & x & Hx & _ & L).
      assert (Hin : In ju (pend w)) by (unfold pend; rewrite Hs; left; reflexivity).
      destruct (v_pend _ _ X _ _ _ Hw Hin) as (K1 & _). unfold which in E. injection E as E1 E2.
      assert (x = w) by congruence. subst x. apply L in Hin. lia.
    + exfalso. destruct (v_log _ _ X _ _ ju Hz0 (nth_error_In _ _ Hq0)) as (_ & _ & w & Hw & _ & L).
      assert (Hin : In it (pend x)) by (unfold pend; rewrite Hr; left; reflexivity).
      destruct (v_pend _ _ X _ _ _ Hx Hin) as (K1 & _). unfold which in E. injection E as E1 E2.
      assert (x = w) by congruence. subst x. apply L in Hin. lia.
    + assert (c = d) by congruence. subst d. assert (x = w) by congruence. subst w.
      assert (i = j) by congruence. subst j. assert (y = z) by congruence. subst z. split; [reflexivity|congruence].
  - intros i y' p q it ju Hy L Hp Hq E.
    destruct (log_back _ _ _ _ _ _ _ _ S Hy Hp) as [(y & Hy0 & Hp0 & _)|(c & x & y & todo & Ee & Eo & Hx & Hr & Ec & Hy0 & Ep & Ey & _)];
    destruct (log_back _ _ _ _ _ _ _ _ S Hy Hq) as [(z & Hz0 & Hq0 & _)|(d & w & z & to & Fe & Fo & Hw & Hs & Fc & Hz0 & Fp & Fy & _)].
    + same_nth. eapply (v_ord _ _ X); [exact Hy0|exact L|exact Hp0|exact Hq0|exact E].
    + destruct (v_log _ _ X _ _ it Hy0 (nth_error_In _ _ Hp0)) as (_ & _ & x & Hx & _ & K).
      assert (Hin : In ju (pend w)) by (unfold pend; rewrite Hs; left; reflexivity).
      destruct (v_pend _ _ X _ _ _ Hw Hin) as (K1 & _).
      assert (x = w) by congruence. subst x. apply K. exact Hin.
    + exfalso. assert (y = z) by congruence. subst z. subst p. apply nth_lt in Hq0. lia.
    + assert (y = z) by congruence. subst z. lia.
  - intros i y' Hy. assert (K := v_cap _ _ X). inversion S; subst; clear S; split_nth; same_nth; try solve [eapply K; eassumption];
      try solve [cbn; lia]; unfold i_queue in *; cbn [i_log i_next i_put i_take i_shut];
      match goal with H : nth_error (a_ifaces A) _ = Some ?x |- context [i_log ?x] => specialize (K _ _ H) end;
      try exact K; rewrite ?app_length; cbn [length];
      try (match goal with H : skipn _ _ = _ :: _ |- _ => apply (f_equal (@length item)) in H; cbn [length] in H end);
      rewrite ?skipn_length in *; lia.
Qed.

(** ** What the readers have read *)
Lemma stub_got_snoc n tr e o :
  stub_got n (tr ++ [(e, o)]) = stub_got n tr ++ match e, o with ERecvFrom k, OMsg it => if k =? n then [it] else [] | _, _ => [] end.
Proof. unfold stub_got. rewrite flat_map_app. cbn. rewrite app_nil_r. reflexivity. Qed.
Lemma proxy_got_snoc n tr e o :
  proxy_got n (tr ++ [(e, o)]) = proxy_got n tr ++ match e, o with EProxyRecv k, OMsg it => if k =? n then [it] else [] | _, _ => [] end.
Proof. unfold proxy_got. rewrite flat_map_app. cbn. rewrite app_nil_r. reflexivity. Qed.
Lemma all_got_snoc tr e o : all_got (tr ++ [(e, o)]) = all_got tr ++ match o with OMsg it => [it] | _ => [] end.
Proof. unfold all_got. rewrite flat_map_app. cbn. rewrite app_nil_r. reflexivity. Qed.

Definition taken (y : iface) : list item := firstn (i_next y) (i_log y).
Definition mine (a : N) (its : list item) : list item := filter (fun it => N.eqb a (it_addr it)) its.

Record Inv6 (tr : list (event * obs)) (A : av) : Prop := {
  v_served : forall n id, served n id tr -> exists t, nth_error (a_stubs A) n = Some t /\ idof A (vs_iface t) = Some id;
  v_proxied : forall n id a, proxied n id a tr ->
    exists p, nth_error (a_proxies A) n = Some p /\ px_remote p = a /\ idof A (px_iface p) = Some id;
  v_got : forall n t y, nth_error (a_stubs A) n = Some t -> nth_error (a_ifaces A) (vs_iface t) = Some y -> stub_got n tr = taken y;
  v_pgot : forall n p y, nth_error (a_proxies A) n = Some p -> nth_error (a_ifaces A) (px_iface p) = Some y ->
    proxy_got n tr = mine (px_remote p) (taken y);
  v_got0 : forall n, nth_error (a_stubs A) n = None -> stub_got n tr = [];
  v_pgot0 : forall n, nth_error (a_proxies A) n = None -> proxy_got n tr = [];
  v_unread : forall i y, nth_error (a_ifaces A) i = Some y -> (forall k b, ~ reads_from A i k b) -> i_next y = 0;
  v_all : forall it, In it (all_got tr) -> exists i y p, nth_error (a_ifaces A) i = Some y /\ p < i_next y /\ nth_error (i_log y) p = Some it;
  v_nodup : NoDup (map which (all_got tr)) }.

(** What a step does to what has been taken out of an interface. *)
Inductive tchange (A : av) (e : event) (o : obs) (A' : av) (i : nat) (y' : iface) : Prop :=
| tc_new id : nth_error (a_ifaces A) i = None -> y' = mkI id [] 0 true -> a_stubs A' = a_stubs A -> a_proxies A' = a_proxies A -> tchange A e o A' i y'
| tc_same y : nth_error (a_ifaces A) i = Some y -> i_next y' = i_next y -> (exists more, i_log y' = i_log y ++ more) -> tchange A e o A' i y'
| tc_stub y n t it : nth_error (a_ifaces A) i = Some y -> nth_error (a_stubs A) n = Some t -> vs_iface t = i ->
    e = ERecvFrom n -> o = OMsg it -> nth_error (i_log y) (i_next y) = Some it -> y' = i_take y -> tchange A e o A' i y'
| tc_proxy y n p it : nth_error (a_ifaces A) i = Some y -> nth_error (a_proxies A) n = Some p -> px_iface p = i ->
    e = EProxyRecv n -> o = (if N.eqb (px_remote p) (it_addr it) then OMsg it else OUnit) ->
    nth_error (i_log y) (i_next y) = Some it -> y' = i_take y -> tchange A e o A' i y'.
Lemma skipn_head {B} n (l : list B) x q : skipn n l = x :: q -> nth_error l n = Some x.
Proof. revert l. induction n as [|n IH]; intros [|y l] H; cbn in *; try discriminate; [congruence|apply IH; exact H]. Qed.
Lemma step_tchange A e o A' i y' : astep A e o A' -> nth_error (a_ifaces A') i = Some y' -> tchange A e o A' i y'.
Proof.
  intros S H. inversion S; subst; clear S; split_nth; same_nth;
    try solve [eapply tc_same; [eassumption|reflexivity|exists []; symmetry; apply app_nil_r]].
  - eapply tc_new; [apply nth_length_none|reflexivity..].
  - eapply tc_same; [eassumption|reflexivity|eexists; reflexivity].
  - eapply tc_stub; [eassumption|eassumption|reflexivity..|eapply skipn_head; eassumption|reflexivity].
  - eapply tc_proxy; [eassumption|eassumption|reflexivity..|eapply skipn_head; eassumption|reflexivity].
Qed.
Lemma taken_same tr A e o A' i y y' : Inv5 tr A -> nth_error (a_ifaces A) i = Some y -> i_next y' = i_next y ->
  (exists more, i_log y' = i_log y ++ more) -> astep A e o A' -> taken y' = taken y.
Proof.
  intros V H E (more & L) _. unfold taken. rewrite E, L, firstn_app. assert (K := v_cap _ _ V _ _ H).
  replace (i_next y - length (i_log y)) with 0 by lia. cbn. apply app_nil_r.
Qed.
Lemma firstn_more {B} n (l : list B) x : nth_error l n = Some x -> firstn (S n) l = firstn n l ++ [x].
Proof. revert l. induction n as [|n IH]; intros [|y l] H; cbn in *; try discriminate; [congruence|]. f_equal. apply IH. exact H. Qed.
Lemma mine_app a p q : mine a (p ++ q) = mine a p ++ mine a q.
Proof. apply filter_app. Qed.

Lemma stub_later A e o A' n t : astep A e o A' -> nth_error (a_stubs A) n = Some t ->
  exists t', nth_error (a_stubs A') n = Some t' /\ vs_iface t' = vs_iface t /\ vs_lst t' = vs_lst t.
Proof.
  intros S H. inversion S; subst; clear S; acbn; try solve [eauto].
  - exists t. split; [apply nth_snoc_old; exact H|auto].
  - destruct (Nat.eq_dec n n0) as [->|D]; [rewrite nth_upd_same, H; eexists; split; [reflexivity|auto]|rewrite nth_upd_other by exact D; eauto].
Qed.
Lemma proxy_later A e o A' n p : astep A e o A' -> nth_error (a_proxies A) n = Some p ->
  exists p', nth_error (a_proxies A') n = Some p' /\ px_iface p' = px_iface p /\ px_remote p' = px_remote p /\ px_conn p' = px_conn p.
Proof.
  intros S H. inversion S; subst; clear S; acbn; try solve [eauto].
  - exists p. split; [apply nth_snoc_old; exact H|auto].
  - destruct (Nat.eq_dec n n0) as [->|D]; [rewrite nth_upd_same, H; eexists; split; [reflexivity|auto]|rewrite nth_upd_other by exact D; eauto].
Qed.
Lemma stub_back A e o A' n t : astep A e o A' -> nth_error (a_stubs A') n = Some t ->
  (exists t0, nth_error (a_stubs A) n = Some t0 /\ vs_iface t = vs_iface t0 /\ vs_lst t = vs_lst t0) \/
  (n = length (a_stubs A) /\ a_ifaces A' = a_ifaces A /\ (exists id, a_ep A = EpTake (OwnListener (vs_lst t)) id (vs_iface t) /\ o = OStub n id)).
Proof.
  intros S H. inversion S; subst; clear S; split_nth; same_nth; try solve [left; eauto]. right. eauto.
Qed.
Lemma proxy_back A e o A' n p : astep A e o A' -> nth_error (a_proxies A') n = Some p ->
  (exists p0, nth_error (a_proxies A) n = Some p0 /\ px_iface p = px_iface p0 /\ px_remote p = px_remote p0 /\ px_conn p = px_conn p0) \/
  (n = length (a_proxies A) /\ a_ifaces A' = a_ifaces A /\ (exists id, a_ep A = EpTake (OwnConn (px_conn p) (px_remote p)) id (px_iface p) /\ o = OProxy n id (px_remote p))).
Proof.
  intros S H. inversion S; subst; clear S; split_nth; same_nth; try solve [left; eauto 10]. right. eauto.
Qed.
Lemma reader_later A e o A' i k b : astep A e o A' -> reads_from A i k b -> exists b', reads_from A' i k b'.
Proof.
  intros S H. destruct H as [n t Ht <-|n p Ht <-].
  - destruct (stub_later _ _ _ _ _ _ S Ht) as (t' & Ht' & E & _). exists (vs_alive t'). eapply rf_stub; eassumption.
  - destruct (proxy_later _ _ _ _ _ _ S Ht) as (t' & Ht' & E & _). exists (px_alive t'). eapply rf_proxy; eassumption.
Qed.
Lemma iface_later A e o A' i y : astep A e o A' -> nth_error (a_ifaces A) i = Some y ->
  exists y' more, nth_error (a_ifaces A') i = Some y' /\ i_id y' = i_id y /\ i_next y <= i_next y' /\ i_log y' = i_log y ++ more.
Proof.
  intros S Hy. destruct (step_ichange _ _ _ _ S) as [E|id' E|j it z E Hz|j z E Hz|j E]; rewrite E.
  1: exists y, []; rewrite app_nil_r; auto.
  1: exists y, []; rewrite app_nil_r; split; [apply nth_snoc_old; exact Hy|auto].
  all: destruct (Nat.eq_dec i j) as [->|D];
       [rewrite nth_upd_same, Hy|rewrite nth_upd_other by exact D; exists y, []; rewrite app_nil_r; auto].
  - exists (i_put it y), [it]. cbn. auto.
  - exists (i_take y), []. rewrite app_nil_r. cbn. auto.
  - exists (i_shut y), []. rewrite app_nil_r. cbn. auto.
Qed.

Lemma quiet_msg e o : quiet e o -> match o with OMsg _ => False | _ => True end.
Proof. intros (_ & Q & _). destruct o; try exact I. exact (Q _ eq_refl). Qed.

Lemma stub_got_step tr A e o A' n : astep A e o A' ->
  stub_got n (tr ++ [(e, o)]) = stub_got n tr \/
  (exists t y it, e = ERecvFrom n /\ o = OMsg it /\ nth_error (a_stubs A) n = Some t /\ nth_error (a_ifaces A) (vs_iface t) = Some y /\
     a_ifaces A' = upd (vs_iface t) i_take (a_ifaces A)).
Proof.
  intros S. rewrite stub_got_snoc. inversion S; subst; clear S; try (left; destruct e; apply app_nil_r); try (left; apply app_nil_r).
  - left. match goal with Q : quiet _ _ |- _ => apply quiet_msg in Q end. destruct e, o; try apply app_nil_r. contradiction.
  - left. match goal with Q : quiet _ _ |- _ => apply quiet_msg in Q end. destruct e, o; try apply app_nil_r. contradiction.
  - left. match goal with Q : quiet _ _ |- _ => apply quiet_msg in Q end. destruct e, o; try apply app_nil_r. contradiction.
  - destruct (n0 =? n) eqn:E; [|left; apply app_nil_r]. apply Nat.eqb_eq in E. subst n0. right. eauto 10.
Qed.
Lemma proxy_got_step tr A e o A' n : astep A e o A' ->
  proxy_got n (tr ++ [(e, o)]) = proxy_got n tr \/
  (exists p y it, e = EProxyRecv n /\ o = OMsg it /\ nth_error (a_proxies A) n = Some p /\ nth_error (a_ifaces A) (px_iface p) = Some y /\
     a_ifaces A' = upd (px_iface p) i_take (a_ifaces A)).
Proof.
  intros S. rewrite proxy_got_snoc. inversion S; subst; clear S; try (left; destruct e; apply app_nil_r); try (left; apply app_nil_r).
  - left. match goal with Q : quiet _ _ |- _ => apply quiet_msg in Q end. destruct e, o; try apply app_nil_r. contradiction.
  - left. match goal with Q : quiet _ _ |- _ => apply quiet_msg in Q end. destruct e, o; try apply app_nil_r. contradiction.
  - left. match goal with Q : quiet _ _ |- _ => apply quiet_msg in Q end. destruct e, o; try apply app_nil_r. contradiction.
  - destruct (N.eqb (px_remote p) (it_addr it)); [|left; apply app_nil_r].
    destruct (n0 =? n) eqn:E; [|left; apply app_nil_r]. apply Nat.eqb_eq in E. subst n0. right. eauto 10.
Qed.

Lemma in_snoc {B} (x : B) l y : In x (l ++ [y]) -> In x l \/ x = y.
Proof. intros H. apply in_app_or in H. destruct H as [H|[H|[]]]; auto. Qed.

Lemma msg_back A e it A' : astep A e (OMsg it) A' ->
  exists i y, nth_error (a_ifaces A) i = Some y /\ nth_error (i_log y) (i_next y) = Some it /\ a_ifaces A' = upd i i_take (a_ifaces A).
Proof.
  intros S. inversion S; subst; clear S; try solve [match goal with Q : quiet _ _ |- _ => apply quiet_msg in Q; contradiction end].
  - eexists. eexists. split; [eassumption|]. split; [eapply skipn_head; eassumption|reflexivity].
  - match goal with H : (if ?b then _ else _) = _ |- _ => destruct b; [injection H as <-|discriminate] end.
    eexists. eexists. split; [eassumption|]. split; [eapply skipn_head; eassumption|reflexivity].
Qed.

Lemma Inv6_step tr A e o A' : Inv1 A -> Inv3 A -> Inv5 tr A -> Inv6 tr A -> astep A e o A' -> Inv6 (tr ++ [(e, o)]) A'.
Proof.
  intros V W X Y S. constructor.
  - intros n id (e' & He). apply in_snoc in He. destruct He as [He|He].
    + destruct (v_served _ _ Y n id) as (t & Ht & Hi); [exists e'; exact He|].
      destruct (stub_later _ _ _ _ _ _ S Ht) as (t' & Ht' & E & _). exists t'. split; [exact Ht'|]. rewrite E.
      eapply idof_later; eassumption.
    + injection He as -> <-. assert (J : forall i id, idof A i = Some id -> idof A' i = Some id) by (intros; eapply idof_later; eassumption).
      inversion S; subst; try solve [match goal with Q : quiet _ (OStub _ _) |- _ => destruct Q as (_ & _ & _ & Q & _); exfalso; eapply Q; reflexivity end].
      * exists (mkVS i l true). acbn. split; [apply nth_snoc_new|]. apply J. apply (v_ids A V). eapply held_ep. eassumption.
      * match goal with H : (if ?b then _ else _) = _ |- _ => destruct b; discriminate end.
  - intros n id a (e' & He). apply in_snoc in He. destruct He as [He|He].
    + destruct (v_proxied _ _ Y n id a) as (t & Ht & Hr & Hi); [exists e'; exact He|].
      destruct (proxy_later _ _ _ _ _ _ S Ht) as (t' & Ht' & E & R & _). exists t'. split; [exact Ht'|]. split; [congruence|]. rewrite E.
      eapply idof_later; eassumption.
    + injection He as -> <-. assert (J : forall i id, idof A i = Some id -> idof A' i = Some id) by (intros; eapply idof_later; eassumption).
      inversion S; subst; try solve [match goal with Q : quiet _ (OProxy _ _ _) |- _ => destruct Q as (_ & _ & _ & _ & Q & _); exfalso; eapply Q; reflexivity end].
      * exists (mkP i c a true). acbn. split; [apply nth_snoc_new|]. split; [reflexivity|]. apply J. apply (v_ids A V). eapply held_ep. eassumption.
      * match goal with H : (if ?b then _ else _) = _ |- _ => destruct b; discriminate end.
  - intros n t' y' Ht Hy. destruct (stub_back _ _ _ _ _ _ S Ht) as [(t & Ht0 & Et & _)|(-> & Ei & (id & P & Eo))].
    + assert (R : reads_from A (vs_iface t) (RStub n) (vs_alive t)) by (eapply rf_stub; [exact Ht0|reflexivity]).
      destruct (v_rx _ W _ _ _ R) as (y & Hy0 & _). rewrite Et in Hy.
      assert (G := v_got _ _ Y _ _ _ Ht0 Hy0).
      destruct (step_tchange _ _ _ _ _ _ S Hy) as [id N _ _ _|y1 H1 En El|y1 m u it H1 Hu Eu Ee Eo Hn Ey|y1 m u it H1 Hu Eu Ee Eo Hn Ey].
      * congruence.
      * same_nth. rewrite (taken_same _ _ _ _ _ _ _ _ X Hy0 En El S).
        destruct (stub_got_step tr _ _ _ _ n S) as [->|(t1 & y1 & it & Ee & Eo & Ht1 & Hy1 & Ei)]; [exact G|exfalso].
        same_nth. rewrite Ei, nth_upd_same, Hy0 in Hy. injection Hy as <-. cbn in En. lia.
      * same_nth. assert (m = n).
        { assert (Q : RStub m = RStub n) by (eapply (v_uniq _ W); [eapply rf_stub; [exact Hu|exact Eu]|exact R]). congruence. }
        subst m e o. rewrite stub_got_snoc, Nat.eqb_refl, G. subst y'. unfold taken. cbn [i_next i_log i_take].
        rewrite (firstn_more _ _ _ Hn). reflexivity.
      * exfalso. assert (Q : RProxy m = RStub n) by (eapply (v_uniq _ W); [eapply rf_proxy; [exact Hu|exact Eu]|exact R]). discriminate.
    + rewrite stub_got_snoc, (v_got0 _ _ Y) by apply nth_length_none. subst o.
      rewrite Ei in Hy. destruct (v_taking _ W _ _ _ P) as (_ & N).
      assert (Z := v_unread _ _ Y _ _ Hy N). unfold taken. rewrite Z. destruct e; reflexivity.
  - intros n t' y' Ht Hy. destruct (proxy_back _ _ _ _ _ _ S Ht) as [(t & Ht0 & Et & Er & _)|(-> & Ei & (id & P & Eo))].
    + assert (R : reads_from A (px_iface t) (RProxy n) (px_alive t)) by (eapply rf_proxy; [exact Ht0|reflexivity]).
      destruct (v_rx _ W _ _ _ R) as (y & Hy0 & _). rewrite Et in Hy. rewrite Er.
      assert (G := v_pgot _ _ Y _ _ _ Ht0 Hy0).
      destruct (step_tchange _ _ _ _ _ _ S Hy) as [id N _ _ _|y1 H1 En El|y1 m u it H1 Hu Eu Ee Eo Hn Ey|y1 m u it H1 Hu Eu Ee Eo Hn Ey].
      * congruence.
      * same_nth. rewrite (taken_same _ _ _ _ _ _ _ _ X Hy0 En El S).
        destruct (proxy_got_step tr _ _ _ _ n S) as [->|(t1 & y1 & it & Ee & Eo & Ht1 & Hy1 & Ei)]; [exact G|exfalso].
        same_nth. rewrite Ei, nth_upd_same, Hy0 in Hy. injection Hy as <-. cbn in En. lia.
      * exfalso. assert (Q : RStub m = RProxy n) by (eapply (v_uniq _ W); [eapply rf_stub; [exact Hu|exact Eu]|exact R]). discriminate.
      * same_nth. assert (m = n).
        { assert (Q : RProxy m = RProxy n) by (eapply (v_uniq _ W); [eapply rf_proxy; [exact Hu|exact Eu]|exact R]). congruence. }
        subst m. same_nth. subst e. rewrite proxy_got_snoc, G. subst y' o. unfold taken. cbn [i_next i_log i_take].
        rewrite (firstn_more _ _ _ Hn), mine_app. f_equal. unfold mine. cbn [filter].
        destruct (N.eqb (px_remote t) (it_addr it)); [rewrite Nat.eqb_refl|]; reflexivity.
    + rewrite proxy_got_snoc, (v_pgot0 _ _ Y) by apply nth_length_none. subst o.
      rewrite Ei in Hy. destruct (v_taking _ W _ _ _ P) as (_ & N).
      assert (Z := v_unread _ _ Y _ _ Hy N). unfold taken. rewrite Z. destruct e; reflexivity.
  - intros n Hn. destruct (nth_error (a_stubs A) n) as [t|] eqn:E.
    + destruct (stub_later _ _ _ _ _ _ S E) as (t' & E' & _). congruence.
    + destruct (stub_got_step tr _ _ _ _ n S) as [->|(t & y & it & _ & _ & Ht & _)]; [apply (v_got0 _ _ Y _ E)|congruence].
  - intros n Hn. destruct (nth_error (a_proxies A) n) as [t|] eqn:E.
    + destruct (proxy_later _ _ _ _ _ _ S E) as (t' & E' & _). congruence.
    + destruct (proxy_got_step tr _ _ _ _ n S) as [->|(t & y & it & _ & _ & Ht & _)]; [apply (v_pgot0 _ _ Y _ E)|congruence].
  - intros i y' Hy N. destruct (step_tchange _ _ _ _ _ _ S Hy) as [id Hn -> _ _|y1 H1 En El|y1 m u it H1 Hu Eu Ee Eo Hn Ey|y1 m u it H1 Hu Eu Ee Eo Hn Ey].
    + reflexivity.
    + rewrite En. apply (v_unread _ _ Y _ _ H1). intros k b R. destruct (reader_later _ _ _ _ _ _ _ S R) as (b' & R'). eapply N. exact R'.
    + exfalso. destruct (reader_later _ _ _ _ _ _ _ S (rf_stub A i m u Hu Eu)) as (b' & R'). eapply N. exact R'.
    + exfalso. destruct (reader_later _ _ _ _ _ _ _ S (rf_proxy A i m u Hu Eu)) as (b' & R'). eapply N. exact R'.
  - intros it Hi. rewrite all_got_snoc in Hi. apply in_app_or in Hi. destruct Hi as [Hi|Hi].
    + destruct (v_all _ _ Y _ Hi) as (i & y & p & Hy & Hp & Hl).
      destruct (iface_later _ _ _ _ _ _ S Hy) as (y' & more & Hy' & _ & En & El). exists i, y', p.
      repeat split; [exact Hy'|lia|]. rewrite El. rewrite nth_error_app1; [exact Hl|eapply nth_lt; exact Hl].
    + destruct o; try destruct Hi as [<-|[]]; try destruct Hi.
      destruct (msg_back _ _ _ _ S) as (i & y & Hy & Hl & E). exists i, (i_take y), (i_next y).
      rewrite E, nth_upd_same, Hy. repeat split; [cbn; lia|exact Hl].
  - rewrite all_got_snoc, map_app. destruct o; try (rewrite app_nil_r; exact (v_nodup _ _ Y)).
    cbn. destruct (msg_back _ _ _ _ S) as (i & y & Hy & Hl & E).
    apply (NoDup_Add (a := which it) (l := map which (all_got tr)) (l' := map which (all_got tr) ++ [which it])).
    { rewrite <- (app_nil_r (map which (all_got tr))) at 1. apply Add_app. }
    split; [exact (v_nodup _ _ Y)|]. intros Hin. apply in_map_iff in Hin. destruct Hin as (ju & Ew & Hj).
    destruct (v_all _ _ Y _ Hj) as (j & z & p & Hz & Hp & Hk).
    destruct (v_pos _ _ X _ _ _ _ _ _ _ _ Hz Hy Hk Hl Ew) as (Ei & Ep). subst j. same_nth. lia.
Qed.

(** ** Everything together, for histories *)
Record Inv (tr : list (event * obs)) (A : av) : Prop := {
  in1 : Inv1 A; in2 : Inv2 A; in3 : Inv3 A; in4 : Inv4 A; in5 : Inv5 tr A; in6 : Inv6 tr A }.
Lemma Inv_init dg : Inv [] (view (rt_init dg)).
Proof.
  assert (N : forall {B} n (x : B), nth_error [] n = Some x -> False) by (intros B [|n] x; discriminate).
  constructor.
  - constructor; cbn; intros; try discriminate; try (exfalso; eapply N; eassumption).
    match goal with H : held _ _ _ |- _ => destruct H; cbn in *; try discriminate; exfalso; eapply N; eassumption end.
  - constructor; cbn; intros.
    + match goal with H : held _ _ _ |- _ => destruct H; cbn in *; try discriminate; exfalso; eapply N; eassumption end.
    + match goal with H : _ \/ _ |- _ => destruct H as [(? & H)|(? & H)]; discriminate end.
  - constructor; cbn; intros; try discriminate;
    match goal with H : reads_from _ _ _ _ |- _ => destruct H; cbn in *; exfalso; eapply N; eassumption end.
  - constructor; cbn; intros; exfalso; eapply N; eassumption.
  - constructor; cbn; intros; try reflexivity; exfalso; eapply N; eassumption.
  - constructor; cbn; intros; try reflexivity; try (exfalso; eapply N; eassumption).
    + match goal with H : served _ _ _ |- _ => destruct H as (? & []) end.
    + match goal with H : proxied _ _ _ _ |- _ => destruct H as (? & []) end.
    + contradiction.
    + constructor.
Qed.
Lemma Inv_step tr A e o A' : Inv tr A -> astep A e o A' -> Inv (tr ++ [(e, o)]) A'.
Proof.
  intros [V1 V2 V3 V4 V5 V6] S. constructor.
  - eapply Inv1_step; eassumption.
  - eapply Inv2_step; eassumption.
  - eapply Inv3_step; eassumption.
  - eapply Inv4_step; eassumption.
  - eapply Inv5_step; eassumption.
  - eapply Inv6_step; eassumption.
Qed.
Lemma history_inv dg tr s : history bk cbk dg tr s -> Inv tr (view s).
Proof.
  induction 1 as [|tr s e s' o _ IH S]; [apply Inv_init|]. eapply Inv_step; [exact IH|]. apply step_view. exact S.
Qed.
End Locks.
