(** Proofs of the statements in PropertiesUdp.v. *)
From Coq Require Import List NArith Bool PeanoNat Sorted Lia.
From Verif Require Import MapModel EndpointProofs UdpModel UdpSpec UdpProofs UdpInv.
Import ListNotations.
Open Scope nat_scope.

(** Histories in two parts. *)
Inductive exec (s : udp) : list (event * obs) -> udp -> Prop :=
| exec_nil : exec s [] s
| exec_step tr s1 e s' o : exec s tr s1 -> step s1 e = Some (s', o) -> exec s (tr ++ [(e, o)]) s'.

Lemma snoc_nil {A} (l : list A) x : l ++ [x] <> [].
Proof. destruct l; discriminate. Qed.
Lemma history_snoc tr e o s' : history (tr ++ [(e, o)]) s' -> exists s, history tr s /\ step s e = Some (s', o).
Proof.
  intros H. inversion H as [E|tr0 s0 e0 s1 o0 H0 St E].
  - symmetry in E. apply snoc_nil in E. destruct E.
  - apply app_inj_tail in E as [-> [= -> ->]]. exists s0. split; assumption.
Qed.
Lemma history_split tr1 tr2 s : history (tr1 ++ tr2) s -> exists s1, history tr1 s1 /\ exec s1 tr2 s.
Proof.
  revert s. induction tr2 as [|[e o] tr2 IH] using rev_ind; intros s H.
  - rewrite app_nil_r in H. exists s. split; [exact H|constructor].
  - rewrite app_assoc in H. apply history_snoc in H as (s0 & H0 & St). destruct (IH _ H0) as (s1 & H1 & X).
    exists s1. split; [exact H1|]. econstructor; eassumption.
Qed.
Lemma exec_join tr1 tr2 s1 s : history tr1 s1 -> exec s1 tr2 s -> history (tr1 ++ tr2) s.
Proof.
  intros H X. induction X as [|tr s2 e s' o X IH St]; [rewrite app_nil_r; exact H|].
  rewrite app_assoc. econstructor; eassumption.
Qed.
(** Induction along the second part of a history. *)
Lemma exec_ind_inv (P : list (event * obs) -> udp -> Prop) tr1 s1 :
  history tr1 s1 -> P [] s1 ->
  (forall tr s e o s', inv (tr1 ++ tr) s -> stepped s e o s' -> P tr s -> P (tr ++ [(e, o)]) s') ->
  forall tr s, exec s1 tr s -> P tr s.
Proof.
  intros H P0 PS tr s X. induction X as [|tr s2 e s' o X IH St]; [exact P0|].
  eapply PS; [|apply step_inv; exact St|exact IH]. apply inv_history. eapply exec_join; eassumption.
Qed.
Lemma exec_one s e o tr s' : exec s ((e, o) :: tr) s' -> exists s1, step s e = Some (s1, o) /\ exec s1 tr s'.
Proof.
  revert s'. induction tr as [|[e1 o1] tr IH] using rev_ind; intros s' X.
  - inversion X as [|tr0 s0 e0 s1 o0 X0 St E]. change [(e, o)] with ([] ++ [(e, o)]) in E.
    apply app_inj_tail in E as [-> [= -> ->]]. inversion X0 as [|? ? ? ? ? ? ? E]; [subst|apply snoc_nil in E; destruct E].
    exists s'. split; [exact St|constructor].
  - inversion X as [|tr0 s0 e0 s1 o0 X0 St E]. rewrite app_comm_cons in E.
    apply app_inj_tail in E as [-> [= -> ->]]. destruct (IH _ X0) as (s2 & St2 & X2).
    exists s2. split; [exact St2|]. econstructor; eassumption.
Qed.

(** C41. *)
Lemma receiver_in_order tr s c a : history tr s -> In (c, a) (opened tr) ->
  exists sent rest, Forall (arrived a tr) sent /\ in_order sent /\ reads sent (received c tr) rest.
Proof.
  intros H Ho. assert (I := inv_history _ _ H). destruct (i_opened _ _ I _ _ Ho) as (ch & Hc & A).
  destruct (i_chan _ _ I _ _ Hc) as (F & S & R & _). exists (c_sent ch), (skipn (c_next ch) (c_sent ch)).
  rewrite A in F. repeat split; assumption.
Qed.
Lemma at_most_once tr s : history tr s -> NoDup (map p_no (delivered tr)).
Proof. intros H. exact (i_once _ _ (inv_history _ _ H)). Qed.
Lemma connections_distinct tr s : history tr s -> NoDup (map fst (opened tr)).
Proof.
  intros H. assert (D := i_ids _ _ (inv_history _ _ H)). rewrite map_app in D. revert D. generalize (map fst (queued s)).
  induction (map fst (opened tr)) as [|x l IH]; intros q D; [constructor|]. inversion D; subst. constructor; [|eapply IH; eassumption].
  intros Hi. apply H2. apply in_app_iff. left. exact Hi.
Qed.

(** Capacities. *)
Definition has_cap (s : udp) (c k : nat) : Prop := exists ch, nth_error (u_chans s) c = Some ch /\ c_cap ch = k.
Lemma has_cap_grows s s' c k : grows s s' -> has_cap s c k -> has_cap s' c k.
Proof. intros G (ch & H & A). destruct (G _ _ H) as (ch' & H' & _ & A'). exists ch'. split; [exact H'|congruence]. Qed.
Lemma inv_grows tr s e o s' : inv tr s -> stepped s e o s' -> grows s s'.
Proof. intros I S. exact (step_grows _ _ _ _ S (fun c ch H => proj1 (proj2 (proj2 (proj2 (i_chan _ _ I c ch H)))))). Qed.

Record caps (tr : list (event * obs)) (s : udp) : Prop := mkCaps {
  k_connect : forall a c, In (EConnect a, OConnected c) tr -> has_cap s c 8;
  k_accept : forall l c a, In (EAccept l, OAccepted c a) tr -> has_cap s c 32;
  k_queue : forall c a, In (c, a) (queued s) -> has_cap s c 32;
  k_task : match u_task s with Queued _ _ c | Sent _ c => has_cap s c 32 | _ => True end
}.
Lemma caps_history tr s : history tr s -> caps tr s.
Proof.
  intros H. refine (exec_ind_inv caps [] udp_init history_nil _ _ tr s _).
  - constructor; cbn; try contradiction. exact I.
  - clear. intros tr s e o s' I S [K1 K2 K3 K4]. assert (G := inv_grows _ _ _ _ _ I S).
    assert (up : forall c k, has_cap s c k -> has_cap s' c k) by (intros; eapply has_cap_grows; eassumption).
    constructor.
    + intros a c Hi. apply in_app_iff in Hi as [Hi|[[= -> ->]|[]]]; [apply up; eapply K1; exact Hi|].
      inversion S; subst. exists (mkC a 8 [] 0 true). split; [fields; apply nth_app_last|reflexivity].
    + intros l c a Hi. apply in_app_iff in Hi as [Hi|[[= -> ->]|[]]]; [apply up; eapply K2; exact Hi|].
      apply up. inversion S as [| | | | | | | | | | | | | | | | |l0 x c0 a0 q Hl Hx Hq|l0 x o0 Hl Hx Hq Ho| | | |]; subst.
      * apply (K3 c a). apply in_flat_map. exists x. split; [exact (nth_error_In _ _ Hl)|]. rewrite Hq. left. reflexivity.
      * destruct Ho; discriminate.
    + intros c a Hi.
      assert (Q : In (c, a) (queued s) \/ nth_error (u_chans s') c = Some (mkC a 32 [] 0 true)).
      { destruct S; try (left; exact Hi); fields.
        - destruct (queued_set l x (mkL (l_cap x) (l_queue x ++ [(length (u_chans s), a0)]) true) s
            (set_lst s l (mkL (l_cap x) (l_queue x ++ [(length (u_chans s), a0)]) true)) H1 eq_refl) as (q1 & q2 & E1 & E2). cbn [l_queue] in E2.
          assert (Hi' : In (c, a) (q1 ++ (l_queue x ++ [(length (u_chans s), a0)]) ++ q2)) by (rewrite <- E2; exact Hi).
          rewrite !in_app_iff in Hi'. cbn [In] in Hi'. rewrite E1, !in_app_iff.
          destruct Hi' as [?|[[?|[[= <- <-]|[]]]|?]]; try tauto. right. apply nth_app_last.
        - left. unfold queued in *. fields. rewrite flat_map_app in Hi. cbn in Hi. rewrite app_nil_r in Hi. exact Hi.
        - left. destruct (queued_set l x (mkL (l_cap x) q true) s (set_lst s l (mkL (l_cap x) q true)) H eq_refl) as (q1 & q2 & E1 & E2).
          rewrite E2 in Hi. rewrite E1, H1. cbn [l_queue] in Hi. rewrite !in_app_iff in *. cbn [In]. tauto.
        - left. destruct (drop_all_other (l_queue x) (set_lst s l (mkL (l_cap x) [] false))) as (_ & _ & _ & _ & EL & _ & _).
          destruct (queued_set l x (mkL (l_cap x) [] false) s (set_lst s l (mkL (l_cap x) [] false)) H eq_refl) as (q1 & q2 & E1 & E2).
          unfold queued in Hi at 1. rewrite EL in Hi. unfold queued in E2 at 1. rewrite E2 in Hi. rewrite E1. cbn in Hi. rewrite !in_app_iff in *. tauto. }
      destruct Q as [Q|Q]; [apply up; eapply K3; exact Q|]. eexists. split; [exact Q|reflexivity].
    + revert K4. destruct S; fields; intros K4; try exact Logic.I; try (rewrite H in K4; try (apply up; exact K4); exact Logic.I).
      * exists (mkC a 32 [] 0 true). split; [fields; apply nth_app_last|reflexivity].
      * destruct (u_task s); try exact Logic.I; apply up; exact K4.
      * destruct (u_task s); try exact Logic.I; apply up; exact K4.
      * destruct (u_task s); try exact Logic.I; apply up; exact K4.
      * destruct (u_task s); try exact Logic.I; apply up; exact K4.
      * destruct (u_task s); try exact Logic.I; apply up; exact K4.
      * destruct (u_task s); try exact Logic.I; apply up; exact K4.
      * destruct (u_task s); try exact Logic.I; apply up; exact K4.
      * destruct (drop_all_other (l_queue x) (set_lst s l (mkL (l_cap x) [] false))) as (_ & _ & _ & -> & _). fields.
        destruct (u_task s); try exact Logic.I; apply up; exact K4.
      * destruct (u_task s); try exact Logic.I; apply up; exact K4.
  - destruct (history_split [] tr s H) as (s1 & H1 & X). inversion H1 as [E|? ? ? ? ? ? ? E]; [subst; exact X|]. apply snoc_nil in E. destruct E.
Qed.

(** C44. *)
Lemma recv_due tr s c ch s' o : inv tr s -> nth_error (u_chans s) c = Some ch -> step s (ERecv c) = Some (s', o) ->
  o = due (c_cap ch) (negb (has_sender s c)) (skipn (c_next ch) (c_sent ch)).
Proof.
  intros I Hc St. cbn [step] in St. rewrite Hc in St. destruct (_ && _); [|discriminate].
  destruct (chan_recv _ ch) as [ch' o'] eqn:R. injection St as <- <-.
  destruct (i_chan _ _ I _ _ Hc) as (_ & _ & _ & D & _). destruct (recv_cases _ _ _ _ R D) as (_ & _ & _ & _ & _ & E & _). exact E.
Qed.
Lemma lossy_queue tr s c a : history tr s -> In (c, a) (opened tr) ->
  exists cap sent rest,
    (In (EConnect a, OConnected c) tr -> cap = 8) /\ (forall l, In (EAccept l, OAccepted c a) tr -> cap = 32) /\
    Forall (arrived a tr) sent /\ in_order sent /\ reads sent (received c tr) rest /\
    forall s' o, step s (ERecv c) = Some (s', o) -> o = due cap false rest \/ (rest = [] /\ o = OClosed).
Proof.
  intros H Ho. assert (I := inv_history _ _ H). assert (K := caps_history _ _ H). destruct (i_opened _ _ I _ _ Ho) as (ch & Hc & A).
  destruct (i_chan _ _ I _ _ Hc) as (F & S & R & _). exists (c_cap ch), (c_sent ch), (skipn (c_next ch) (c_sent ch)).
  split; [intros Hi; destruct (k_connect _ _ K _ _ Hi) as (x & X & E); congruence|].
  split; [intros l Hi; destruct (k_accept _ _ K _ _ _ Hi) as (x & X & E); congruence|].
  rewrite A in F. split; [exact F|]. split; [exact S|]. split; [exact R|].
  intros s' o St. rewrite (recv_due _ _ _ _ _ _ I Hc St). unfold due.
  destruct (_ <? _); [left; reflexivity|]. destruct (skipn _ _); [|left; reflexivity].
  destruct (negb _); [right; split; reflexivity|left; reflexivity].
Qed.

(** A channel without senders stays without, and gets nothing more. *)
Lemma existsb_receiver c (m : list (N * nat)) : existsb (fun e => snd e =? c) m = true <-> exists a, In (a, c) m.
Proof.
  rewrite existsb_exists. split.
  - intros ((a & k) & Hi & E). apply Nat.eqb_eq in E. cbn in E. subst. exists a. exact Hi.
  - intros (a & Hi). exists (a, c). split; [exact Hi|apply Nat.eqb_refl].
Qed.
Lemma existsb_no_receiver c (m : list (N * nat)) : existsb (fun e => snd e =? c) m = false <-> forall a, ~ In (a, c) m.
Proof.
  rewrite <- not_true_iff_false, existsb_receiver. split; [intros H a Hi; apply H; exists a; exact Hi|intros H (a & Hi); exact (H a Hi)].
Qed.
Definition held (t : task) (c : nat) : bool :=
  match t with Got _ _ c' | Queued _ _ c' | Sent _ c' => c' =? c | _ => false end.
Lemma has_sender_held s c : has_sender s c = (shared s && existsb (fun e => snd e =? c) (u_receivers s)) || held (u_task s) c.
Proof. reflexivity. Qed.

Lemma orphan_step s e o s' c : stepped s e o s' -> c < length (u_chans s) -> has_sender s c = false -> has_sender s' c = false.
Proof.
  intros S Hc. rewrite !has_sender_held, !orb_false_iff, !andb_false_iff. unfold shared. intros [M T].
  destruct S; fields; try (rewrite H in M, T); cbn [held] in *; try (split; [exact M|first [exact T|reflexivity]]).
  - split; [|reflexivity]. destruct M as [M|M]; [left|right; exact M]. rewrite orb_true_r in M. discriminate.
  - split; [exact M|]. rewrite orb_true_r in M. destruct M as [M|M]; [discriminate|].
    apply Nat.eqb_neq. intros ->. apply (proj1 (existsb_no_receiver _ _) M a). apply map_get_in. exact H0.
  - split; [|reflexivity]. destruct M as [M|M]; [left; exact M|right].
    apply existsb_no_receiver. intros b Hi. apply in_map_remove in Hi as [Hi _]. exact (proj1 (existsb_no_receiver _ _) M b Hi).
  - split; [exact M|]. apply Nat.eqb_neq. lia.
  - rewrite orb_true_r in *. split; [|reflexivity]. destruct M as [M|M]; [discriminate|right].
    apply existsb_no_receiver. intros b Hi. apply in_map_insert in Hi as [[-> ->]|[Hi _]]; [rewrite Nat.eqb_refl in T; discriminate|].
    exact (proj1 (existsb_no_receiver _ _) M b Hi).
  - rewrite H in *. cbn [orb] in *. split; [|exact T]. destruct M as [M|M]; [discriminate|right].
    apply existsb_no_receiver. intros b Hi. apply in_map_insert in Hi as [[-> ->]|[Hi _]]; [lia|].
    exact (proj1 (existsb_no_receiver _ _) M b Hi).
  - destruct (drop_all_other (l_queue x) (set_lst s l (mkL (l_cap x) [] false))) as (-> & -> & _ & -> & _). fields. split; assumption.
  - split; [|exact T]. rewrite H in M. destruct M as [M|M]; [discriminate|right; exact M].
Qed.

Lemma orphan_sent tr s e o s' c ch : inv tr s -> stepped s e o s' -> has_sender s c = false -> nth_error (u_chans s) c = Some ch ->
  exists ch', nth_error (u_chans s') c = Some ch' /\ c_sent ch' = c_sent ch /\ c_next ch <= c_next ch' <= length (c_sent ch).
Proof.
  intros I S Hs Hc. rewrite has_sender_held, orb_false_iff in Hs. destruct Hs as [_ Hh].
  destruct (i_chan _ _ I _ _ Hc) as (_ & _ & _ & D & _).
  assert (same : exists ch', Some ch = Some ch' /\ c_sent ch' = c_sent ch /\ c_next ch <= c_next ch' <= length (c_sent ch)).
  { exists ch. repeat split; lia. }
  destruct S; fields; try (rewrite Hc; exact same).
  - rewrite H in Hh. cbn in Hh. apply Nat.eqb_neq in Hh. rewrite set_nth_other by congruence. rewrite Hc. exact same.
  - rewrite (nth_app_old _ _ _ _ Hc). exact same.
  - rewrite H in Hh. cbn in Hh. apply Nat.eqb_neq in Hh. rewrite set_nth_other by congruence. rewrite Hc. exact same.
  - rewrite (nth_app_old _ _ _ _ Hc). exact same.
  - destruct (Nat.eq_dec c c0) as [->|Hd]; [|rewrite set_nth_other by exact Hd; rewrite Hc; exact same].
    rewrite Hc in H. injection H as <-. destruct (recv_cases _ _ _ _ H2 D) as (_ & _ & E3 & _ & E5 & _).
    exists ch'. rewrite set_nth_same by (exact (nth_lt _ _ _ Hc)). repeat split; [exact E3|lia..].
  - destruct (Nat.eq_dec c c0) as [->|Hd]; [|rewrite set_nth_other by exact Hd; rewrite Hc; exact same].
    rewrite Hc in H. injection H as <-. exists (drop_rx ch). rewrite set_nth_same by (exact (nth_lt _ _ _ Hc)). split; [reflexivity|]. cbn [drop_rx c_sent c_next]. split; [reflexivity|lia].
  - rewrite (drop_all_chan (l_queue x) (set_lst s l (mkL (l_cap x) [] false)) c ch Hc).
    eexists. split; [reflexivity|]. destruct (existsb _ _); cbn [drop_rx c_sent c_next]; (split; [reflexivity|lia]).
Qed.

(** C43. *)
Lemma closed_is_final tr1 c tr2 s : history (tr1 ++ (ERecv c, OClosed) :: tr2) s -> Forall (eq OClosed) (received c tr2).
Proof.
  intros H. change ((ERecv c, OClosed) :: tr2) with ([(ERecv c, OClosed)] ++ tr2) in H. rewrite app_assoc in H.
  destruct (history_split _ _ _ H) as (s2 & H2 & X). destruct (history_snoc _ _ _ _ H2) as (s1 & H1 & St).
  assert (I1 := inv_history _ _ H1).
  refine (proj1 (exec_ind_inv (fun tr s => Forall (eq OClosed) (received c tr) /\ has_sender s c = false /\
    exists ch, nth_error (u_chans s) c = Some ch /\ c_next ch = length (c_sent ch)) _ _ H2 _ _ _ _ X)).
  - split; [constructor|]. apply step_inv in St. inversion St as [| | | | | | | | | | | | | | | | | | |c0 ch o0 ch' Hc Hr Hw R| | |]; subst.
    destruct (i_chan _ _ I1 _ _ Hc) as (_ & _ & _ & D & _). destruct (recv_cases _ _ _ _ R D) as (_ & _ & _ & _ & _ & _ & _ & E & E' & ->).
    split; [apply negb_true_iff in E; exact E|]. exists ch. fields. rewrite set_nth_same by (exact (nth_lt _ _ _ Hc)). split; [reflexivity|].
    assert (L := skipn_length (c_next ch) (c_sent ch)). rewrite E' in L. cbn in L. lia.
  - clear. intros tr s e o s' I S (F & Hs & ch & Hc & Hn).
    split; [|split; [eapply orphan_step; [exact S|exact (nth_lt _ _ _ Hc)|exact Hs]|]].
    + rewrite received_app. apply Forall_app. split; [exact F|]. destruct S; cbn [received]; try constructor.
      destruct (Nat.eqb_spec c0 c) as [->|_]; [|constructor]. rewrite Hc in H. injection H as <-.
      assert (D : c_next ch <= length (c_sent ch)) by lia.
      destruct (recv_cases _ _ _ _ H2 D) as (_ & _ & _ & _ & _ & E6 & _). rewrite Hs in E6. rewrite Hn, skipn_all in E6. cbn in E6.
      subst o. constructor; [reflexivity|constructor].
    + destruct (orphan_sent _ _ _ _ _ _ _ I S Hs Hc) as (ch' & Hc' & E1 & E2). exists ch'. split; [exact Hc'|]. rewrite E1. lia.
Qed.

Lemma reads_in sent os rest p : reads sent os rest -> In (OData p) os -> In p sent.
Proof.
  induction 1; cbn; intros Hi; try contradiction.
  - destruct Hi as [[= ->]|Hi]; [left; reflexivity|right; auto].
  - destruct Hi as [Hi|Hi]; [discriminate|]. apply in_app_iff. right. auto.
  - destruct Hi as [Hi|Hi]; [discriminate|auto].
  - destruct Hi as [Hi|Hi]; [discriminate|auto].
Qed.
Lemma received_in c o tr : In (ERecv c, o) tr -> In o (received c tr).
Proof.
  induction tr as [|[e o'] tr IH]; cbn; intros Hi; [contradiction|].
  destruct Hi as [[= -> ->]|Hi]; [rewrite Nat.eqb_refl; left; reflexivity|]. specialize (IH Hi).
  destruct e; try exact IH. destruct (_ =? _); [right|]; exact IH.
Qed.
Lemma opened_in a c tr : In (EConnect a, OConnected c) tr -> In (c, a) (opened tr).
Proof.
  induction tr as [|[e o'] tr IH]; cbn; intros Hi; [contradiction|].
  destruct Hi as [[= -> ->]|Hi]; [left; reflexivity|]. specialize (IH Hi).
  destruct e, o'; try exact IH; right; exact IH.
Qed.
Lemma accepted_in l a c tr : In (EAccept l, OAccepted c a) tr -> In (c, a) (opened tr).
Proof.
  induction tr as [|[e o'] tr IH]; cbn; intros Hi; [contradiction|].
  destruct Hi as [[= -> ->]|Hi]; [left; reflexivity|]. specialize (IH Hi).
  destruct e, o'; try exact IH; right; exact IH.
Qed.

(** [superseded n c s]: [c] is out of the map for good and only an old datagram can still reach it. *)
Definition superseded (n c : nat) (s : udp) : Prop :=
  (forall b, ~ In (b, c) (u_receivers s)) /\
  match u_task s with
  | Queued _ _ c' | Sent _ c' => c' <> c
  | Got p _ c' => c' = c -> p_no p < n
  | _ => True
  end /\
  exists ch, nth_error (u_chans s) c = Some ch /\ Forall (fun p => p_no p < n) (c_sent ch).

Lemma superseded_step tr n c s e o s' : inv tr s -> stepped s e o s' -> superseded n c s -> superseded n c s'.
Proof.
  intros I S (M & T & ch & Hc & F).
  assert (keep : (forall b, ~ In (b, c) (u_receivers s)) -> superseded n c s -> True) by (intros; exact Logic.I). clear keep.
  assert (Hl := nth_lt _ _ _ Hc). destruct S; unfold superseded; fields; try (rewrite H in T);
    try (split; [exact M|split; [first [exact T|exact Logic.I]|exists ch; split; assumption]]).
  - split; [exact M|]. split; [|exists ch; split; assumption]. intros ->. exfalso. apply (M a). apply map_get_in. exact H0.
  - split; [exact M|]. split; [exact Logic.I|]. destruct (Nat.eq_dec c c0) as [->|Hd].
    + rewrite Hc in H0. injection H0 as <-. eexists. rewrite set_nth_same by exact Hl. split; [reflexivity|]. cbn [c_sent].
      apply Forall_app. split; [exact F|]. repeat constructor. apply T. reflexivity.
    + exists ch. rewrite set_nth_other by exact Hd. split; assumption.
  - split; [|split; [exact Logic.I|exists ch; split; assumption]]. intros b Hi. apply in_map_remove in Hi as [Hi _]. exact (M b Hi).
  - split; [exact M|]. split; [lia|]. exists ch. split; [apply nth_app_old; exact Hc|exact F].
  - split; [exact M|]. split; [exact T|]. exists ch. rewrite set_nth_other by congruence. split; assumption.
  - split; [|split; [exact Logic.I|exists ch; split; assumption]]. intros b Hi. apply in_map_insert in Hi as [[-> ->]|[Hi _]]; [contradiction|exact (M b Hi)].
  - split; [|split; [exact T|exists ch; split; [apply nth_app_old; exact Hc|exact F]]].
    intros b Hi. apply in_map_insert in Hi as [[-> ->]|[Hi _]]; [lia|exact (M b Hi)].
  - split; [exact M|]. split; [exact T|]. destruct (Nat.eq_dec c c0) as [->|Hd].
    + rewrite Hc in H. injection H as <-. destruct (i_chan _ _ I _ _ Hc) as (_ & _ & _ & D & _).
      destruct (recv_cases _ _ _ _ H2 D) as (_ & _ & E3 & _). exists ch'. rewrite set_nth_same by exact Hl. rewrite E3. split; [reflexivity|exact F].
    + exists ch. rewrite set_nth_other by exact Hd. split; assumption.
  - split; [exact M|]. split; [exact T|]. destruct (Nat.eq_dec c c0) as [->|Hd].
    + rewrite Hc in H. injection H as <-. exists (drop_rx ch). rewrite set_nth_same by exact Hl. split; [reflexivity|exact F].
    + exists ch. rewrite set_nth_other by exact Hd. split; assumption.
  - destruct (drop_all_other (l_queue x) (set_lst s l (mkL (l_cap x) [] false))) as (_ & -> & _ & -> & _).
    split; [exact M|]. split; [exact T|]. rewrite (drop_all_chan (l_queue x) (set_lst s l (mkL (l_cap x) [] false)) c ch Hc).
    eexists. split; [reflexivity|]. destruct (existsb _ _); exact F.
Qed.

Lemma supersedes tr1 c1 a tr2 c2 tr3 s :
  history (tr1 ++ (EConnect a, OConnected c1) :: tr2 ++ (EConnect a, OConnected c2) :: tr3) s ->
  superseded (length (arrivals (tr1 ++ tr2))) c1 s.
Proof.
  intros H. set (t1 := tr1 ++ (EConnect a, OConnected c1) :: tr2).
  assert (Et : tr1 ++ (EConnect a, OConnected c1) :: tr2 ++ (EConnect a, OConnected c2) :: tr3 =
               (t1 ++ [(EConnect a, OConnected c2)]) ++ tr3).
  { unfold t1. rewrite <- !app_assoc. cbn [app]. reflexivity. }
  rewrite Et in *.
  destruct (history_split _ _ _ H) as (s2 & H2 & X). destruct (history_snoc _ _ _ _ H2) as (s1 & H1 & St).
  assert (I1 := inv_history _ _ H1). assert (K1 := caps_history _ _ H1).
  assert (In1 : In (EConnect a, OConnected c1) t1) by (unfold t1; apply in_app_iff; right; left; reflexivity).
  assert (Sup : superseded (length (arrivals t1)) c1 s2).
  { destruct (k_connect _ _ K1 _ _ In1) as (ch & Hc & Cap). destruct (i_opened _ _ I1 _ _ (opened_in _ _ _ In1)) as (ch' & Hc' & A).
    rewrite Hc in Hc'. injection Hc' as <-. assert (Hl := nth_lt _ _ _ Hc).
    apply step_inv in St. inversion St as [| | | | | | | | | | | | | |a0 Hop E1 E2 E3| | | | | | | |]. subst. unfold superseded. fields.
    split.
    { intros b Hi. apply in_map_insert in Hi as [[_ Hi]|[Hi Hb]]; [lia|]. destruct (i_map _ _ I1 _ _ Hi) as (x & Hx & Ax). congruence. }
    split.
    { assert (KT := k_task _ _ K1). assert (IT := i_task _ _ I1). destruct (u_task s1); try exact Logic.I.
      - intros ->. destruct IT as [IT _]. exact (arrived_lt _ _ _ IT).
      - intros ->. destruct KT as (x & Hx & Ex). congruence.
      - intros ->. destruct KT as (x & Hx & Ex). congruence. }
    exists ch. split; [apply nth_app_old; exact Hc|].
    destruct (i_chan _ _ I1 _ _ Hc) as (F & _). eapply Forall_impl; [|exact F]. intros p Hp. exact (arrived_lt _ _ _ Hp). }
  assert (Ea : length (arrivals t1) = length (arrivals (tr1 ++ tr2))).
  { unfold t1. rewrite !arrivals_app, !app_length. reflexivity. }
  rewrite <- Ea.
  exact (exec_ind_inv (fun _ s => superseded (length (arrivals t1)) c1 s) _ _ H2 Sup
    (fun tr s e o s' I S P => superseded_step _ _ _ _ _ _ _ I S P) _ _ X).
Qed.
Lemma superseded_alone n c s : superseded n c s -> u_task s = Idle -> has_sender s c = false.
Proof.
  intros (M & _) Ti. rewrite has_sender_held, Ti. cbn [held]. rewrite orb_false_r. apply andb_false_iff. right. apply existsb_no_receiver. exact M.
Qed.
Lemma second_connect tr1 c1 a tr2 c2 tr3 s :
  history (tr1 ++ (EConnect a, OConnected c1) :: tr2 ++ (EConnect a, OConnected c2) :: tr3) s ->
  (forall p, In (ERecv c1, OData p) (tr1 ++ (EConnect a, OConnected c1) :: tr2 ++ (EConnect a, OConnected c2) :: tr3) ->
     p_no p < length (arrivals (tr1 ++ tr2))) /\
  (forall s' o, u_task s = Idle -> step s (ERecv c1) = Some (s', o) -> o <> OPending).
Proof.
  intros H. pose proof (supersedes _ _ _ _ _ _ _ H) as Sup. assert (I := inv_history _ _ H). pose proof Sup as (M & T & ch & Hc & F). split.
  - intros p Hp. apply received_in in Hp. destruct (i_chan _ _ I _ _ Hc) as (_ & _ & R & _).
    rewrite Forall_forall in F. apply F. eapply reads_in; eassumption.
  - intros s' o Ti St'. rewrite (recv_due _ _ _ _ _ _ I Hc St'), (superseded_alone _ _ _ Sup Ti).
    unfold due. destruct (_ <? _); [discriminate|]. destruct (skipn _ _); discriminate.
Qed.

Lemma run_history es tr s s' tr' : history tr s -> run s es = Some (s', tr') -> history (tr ++ tr') s'.
Proof.
  revert tr s s' tr'. induction es as [|e es IH]; intros tr s s' tr' H R; cbn [run] in R.
  - injection R as <- <-. rewrite app_nil_r. exact H.
  - destruct (step s e) as [[s1 o]|] eqn:St; [|discriminate].
    destruct (run s1 es) as [[s2 t2]|] eqn:R2; [|discriminate]. injection R as <- <-. cbn [fst snd].
    change ((e, o) :: t2) with ([(e, o)] ++ t2). rewrite app_assoc. eapply IH; [|exact R2]. econstructor; eassumption.
Qed.

(** A connection made while the task is not busy with its peer stays registered. *)
Definition registered (k n c : nat) (a : N) (tr : list (event * obs)) (s : udp) : Prop :=
  map_get N.eqb a (u_receivers s) = Some c /\
  exists ch pending, nth_error (u_chans s) c = Some ch /\ c_rx ch = true /\ c_cap ch = k /\ c_addr ch = a /\
    c_sent ch ++ pending = packets_from a n tr /\
    match u_task s with
    | Idle | Stopped => pending = []
    | Arrived p b => (b = a /\ pending = [p]) \/ (b <> a /\ pending = [])
    | Got p b c' => (b = a /\ c' = c /\ pending = [p]) \/ (b <> a /\ c' <> c /\ pending = [])
    | Failed _ b | NewConn _ b => b <> a /\ pending = []
    | Queued _ b c' => b <> a /\ c' <> c /\ pending = []
    | Sent b _ => b <> a /\ pending = []
    end.

Lemma queued_step_new tr s e o s' c b : inv tr s -> stepped s e o s' -> In (c, b) (queued s') ->
  In (c, b) (queued s) \/ c = length (u_chans s).
Proof.
  intros I S Hi. destruct S; try (left; exact Hi); fields.
  - destruct (queued_set l x (mkL (l_cap x) (l_queue x ++ [(length (u_chans s), a)]) true) s
      (set_lst s l (mkL (l_cap x) (l_queue x ++ [(length (u_chans s), a)]) true)) H1 eq_refl) as (q1 & q2 & E1 & E2). cbn [l_queue] in E2.
    assert (Hi' : In (c, b) (q1 ++ (l_queue x ++ [(length (u_chans s), a)]) ++ q2)) by (rewrite <- E2; exact Hi).
    rewrite !in_app_iff in Hi'. cbn [In] in Hi'. rewrite E1, !in_app_iff.
    destruct Hi' as [?|[[?|[[= <- <-]|[]]]|?]]; tauto.
  - left. unfold queued in *. fields. rewrite flat_map_app in Hi. cbn in Hi. rewrite app_nil_r in Hi. exact Hi.
  - left. destruct (queued_set l x (mkL (l_cap x) q true) s (set_lst s l (mkL (l_cap x) q true)) H eq_refl) as (q1 & q2 & E1 & E2).
    rewrite E2 in Hi. rewrite E1, H1. cbn [l_queue] in Hi. rewrite !in_app_iff in *. cbn [In]. tauto.
  - left. destruct (drop_all_other (l_queue x) (set_lst s l (mkL (l_cap x) [] false))) as (_ & _ & _ & _ & EL & _ & _).
    destruct (queued_set l x (mkL (l_cap x) [] false) s (set_lst s l (mkL (l_cap x) [] false)) H eq_refl) as (q1 & q2 & E1 & E2).
    unfold queued in Hi at 1. rewrite EL in Hi. unfold queued in E2 at 1. rewrite E2 in Hi. rewrite E1. cbn in Hi. rewrite !in_app_iff in *. tauto.
Qed.

Lemma registered_step tr1 k n c a tr s e o s' :
  inv (tr1 ++ tr) s -> stepped s e o s' -> n + length (arrivals tr) = u_count s ->
  (forall c', (e, o) <> (EConnect a, OConnected c')) -> e <> EDropReceiver c ->
  (forall l, e = EDropListener l -> forall x b, nth_error (u_lsts s) l = Some x -> ~ In (c, b) (l_queue x)) ->
  registered k n c a tr s -> registered k n c a (tr ++ [(e, o)]) s'.
Proof.
  intros I S Hn Hne Hnd Nl (M & ch & pend & Hc & Rx & Cap & Ad & E & T).
  assert (Hl := nth_lt _ _ _ Hc).
  unfold registered. rewrite packets_from_app.
  assert (NE : forall b j, b <> a -> map_get N.eqb a (map_insert N.eqb b j (u_receivers s)) = Some c).
  { intros b j Hb. rewrite get_insert_other; [exact M|apply N.eqb_eq|congruence]. }
  assert (other : forall c', c' <> c -> is_chan s c' a -> True) by (intros; exact Logic.I). clear other.
  destruct S; cbn [packets_from]; rewrite ?app_nil_r; fields; try (rewrite H in T).
  - (* packet *)
    subst pend. rewrite app_nil_r in E. split; [exact M|].
    destruct (N.eqb_spec a a0) as [<-|Hd].
    + exists ch, [mkP (u_count s) (firstn 1400 data)]. rewrite Hn, E. repeat split; try assumption. left. split; reflexivity.
    + exists ch, []. rewrite !app_nil_r. repeat split; try assumption. right. split; [congruence|reflexivity].
  - split; [exact M|]. exists ch, pend. repeat split; assumption.
  - (* found *)
    split; [exact M|]. exists ch, pend. repeat split; try assumption.
    destruct T as [[-> ->]|[Hb ->]].
    + left. rewrite M in H0. injection H0 as <-. repeat split.
    + right. repeat split; [exact Hb|]. intros ->. destruct (i_map _ _ I a0 c (map_get_in _ _ _ H0)) as (x & Hx & Ax). congruence.
  - (* not found *)
    split; [exact M|]. exists ch, pend. repeat split; try assumption; destruct T as [[-> ->]|[Hb ->]]; congruence.
  - (* deliver *)
    split; [exact M|]. destruct T as [(-> & -> & ->)|(Hb & Hd & ->)].
    + rewrite Hc in H0. injection H0 as <-. eexists. exists []. rewrite set_nth_same by exact Hl. split; [reflexivity|].
      cbn [c_rx c_cap c_addr c_sent]. rewrite app_nil_r. repeat split; assumption.
    + exists ch, []. rewrite set_nth_other by congruence. repeat split; assumption.
  - (* fail *)
    split; [exact M|]. exists ch, pend. destruct T as [(-> & -> & ->)|(Hb & Hd & ->)]; [congruence|]. repeat split; assumption.
  - (* remove *)
    destruct T as [Hb ->]. split; [rewrite get_remove_other; [exact M|apply N.eqb_eq|congruence]|]. exists ch, []. repeat split; assumption.
  - destruct T as [Hb ->]. split; [exact M|]. exists ch, []. repeat split; assumption.
  - (* queue *)
    destruct T as [Hb ->]. split; [exact M|]. exists ch, []. split; [apply nth_app_old; exact Hc|]. repeat split; try assumption. lia.
  - destruct T as [Hb ->]. split; [exact M|]. exists ch, []. repeat split; assumption.
  - destruct T as [Hb ->]. split; [exact M|]. exists ch, []. repeat split; assumption.
  - (* first *)
    destruct T as (Hb & Hd & ->). split; [exact M|]. exists ch, []. rewrite set_nth_other by congruence. repeat split; assumption.
  - destruct T as (Hb & Hd & ->). split; [exact M|]. exists ch, []. repeat split; assumption.
  - (* register *)
    destruct T as (Hb & ->). split; [apply NE; exact Hb|]. exists ch, []. repeat split; assumption.
  - (* connect *)
    assert (Ha : a0 <> a) by (intros ->; exact (Hne _ eq_refl)).
    split; [apply NE; exact Ha|]. exists ch, pend. split; [apply nth_app_old; exact Hc|]. repeat split; assumption.
  - split; [exact M|]. exists ch, pend. repeat split; assumption.
  - split; [exact M|]. exists ch, pend. repeat split; assumption.
  - split; [exact M|]. exists ch, pend. repeat split; assumption.
  - split; [exact M|]. exists ch, pend. repeat split; assumption.
  - (* recv *)
    split; [exact M|]. destruct (Nat.eq_dec c c0) as [->|Hd].
    + rewrite Hc in H. injection H as <-. destruct (i_chan _ _ I _ _ Hc) as (_ & _ & _ & D & _).
      destruct (recv_cases _ _ _ _ H2 D) as (E1 & E2 & E3 & E4 & _). exists ch', pend. rewrite set_nth_same by exact Hl.
      rewrite E1, E2, E3, E4. repeat split; assumption.
    + exists ch, pend. rewrite set_nth_other by exact Hd. repeat split; assumption.
  - (* drop receiver *)
    split; [exact M|]. exists ch, pend. rewrite set_nth_other by congruence. repeat split; assumption.
  - (* drop listener *)
    destruct (drop_all_other (l_queue x) (set_lst s l (mkL (l_cap x) [] false))) as (_ & -> & _ & -> & _). fields.
    split; [exact M|]. exists ch, pend.
    rewrite (drop_all_chan (l_queue x) (set_lst s l (mkL (l_cap x) [] false)) c ch Hc).
    destruct (existsb (fun e => fst e =? c) (l_queue x)) eqn:EX; [exfalso|repeat split; assumption].
    apply existsb_queue in EX as (b & EX). exact (Nl _ eq_refl _ _ H EX).
  - split; [exact M|]. exists ch, pend. repeat split; assumption.
Qed.

Lemma waiting_not s c : (forall b, ~ In (c, b) (queued s)) -> waiting s c = false.
Proof.
  intros Q. apply not_true_iff_false. intros W. unfold waiting in W. apply existsb_exists in W as (x & Hx & W).
  apply existsb_queue in W as (b & Hb). apply (Q b). apply in_flat_map. exists x. split; assumption.
Qed.

Lemma nothing_lost tr1 s1 a c tr2 s :
  history tr1 s1 -> quiet s1 a ->
  history (tr1 ++ (EConnect a, OConnected c) :: tr2) s ->
  (forall c', ~ In (EConnect a, OConnected c') tr2) -> (forall o, ~ In (EDropReceiver c, o) tr2) ->
  exists done pending rest,
    packets_from a (length (arrivals tr1)) tr2 = done ++ pending /\ length pending <= 1 /\ (quiet s a -> pending = []) /\
    reads done (received c tr2) rest /\
    exists s', step s (ERecv c) = Some (s', due 8 (negb (shared s)) rest).
Proof.
  intros H1 Qs H Nc Nd. change ((EConnect a, OConnected c) :: tr2) with ([(EConnect a, OConnected c)] ++ tr2) in H. rewrite app_assoc in H.
  destruct (history_split _ _ _ H) as (s2 & H2 & X). destruct (history_snoc _ _ _ _ H2) as (s1' & H1' & St).
  assert (s1' = s1).
  { clear - H1 H1'. revert s1 s1' H1 H1'. induction tr1 as [|[e o] tr IH] using rev_ind; intros s1 s1' A B.
    - inversion A as [|? ? ? ? ? ? ? E]; [|apply snoc_nil in E; destruct E]. inversion B as [|? ? ? ? ? ? ? E]; [reflexivity|apply snoc_nil in E; destruct E].
    - apply history_snoc in A as (x & A & Sa). apply history_snoc in B as (y & B & Sb). rewrite (IH _ _ A B) in Sb. congruence. }
  subst s1'. assert (I1 := inv_history _ _ H1). apply step_inv in St.
  inversion St as [| | | | | | | | | | | | | |a0 Hop E1 E2 E3| | | | | | | |]. clear E1. rename E2 into Ec. subst s2. rewrite Ec in *. symmetry in Ec.
  set (n := length (arrivals tr1)) in *.
  assert (R0 : registered 8 n c a [] (set_receivers (add_chan s1 (mkC a 8 [] 0 true)) (map_insert N.eqb a c (u_receivers s1)))).
  { unfold registered. fields. split; [apply get_insert_same; apply N.eqb_eq|].
    exists (mkC a 8 [] 0 true), []. split; [rewrite Ec; apply nth_app_last|]. repeat split.
    assert (IT := i_task _ _ I1). unfold quiet in Qs. destruct (u_task s1); try reflexivity.
    - right. split; [exact Qs|reflexivity].
    - right. repeat split; [exact Qs|]. destruct IT as [_ (x & Hx & _)]. apply nth_lt in Hx. lia.
    - split; [exact Qs|reflexivity].
    - split; [exact Qs|reflexivity].
    - repeat split; [exact Qs|]. destruct IT as [_ (x & Hx & _)]. apply nth_lt in Hx. lia.
    - split; [exact Qs|reflexivity]. }
  assert (Q0 : forall b, ~ In (c, b) (queued (set_receivers (add_chan s1 (mkC a 8 [] 0 true)) (map_insert N.eqb a c (u_receivers s1))))).
  { intros b Hi. destruct (i_queue _ _ I1 c b Hi) as (x & Hx & _). apply nth_lt in Hx. lia. }
  assert (R : (forall b, ~ In (c, b) (queued s)) /\ registered 8 n c a tr2 s).
  { clear St Qs Hop. revert Nc Nd.
    refine (exec_ind_inv (fun tr s => (forall c', ~ In (EConnect a, OConnected c') tr) -> (forall o, ~ In (EDropReceiver c, o) tr) ->
      (forall b, ~ In (c, b) (queued s)) /\ registered 8 n c a tr s) _ _ H2 (fun _ _ => conj Q0 R0) _ _ _ X).
    intros tr s0 e o s' I S P Nc Nd.
    destruct P as [Q P]; [intros c' Hi; apply (Nc c')|intros o' Hi; apply (Nd o')|]; try (apply in_app_iff; left; exact Hi).
    split.
    { intros b Hi. destruct (queued_step_new _ _ _ _ _ _ _ I S Hi) as [Hi'| K]; [exact (Q b Hi')|].
      destruct P as (_ & ch & pend & Hc & _). apply nth_lt in Hc. lia. }
    eapply registered_step; [exact I|exact S|..|exact P].
    - assert (C := i_count _ _ I). rewrite !arrivals_app, !app_length in C. cbn in C. unfold n. lia.
    - intros c' E. apply (Nc c'). apply in_app_iff. right. left. exact E.
    - intros ->. apply (Nd o). apply in_app_iff. right. left. reflexivity.
    - intros l _ x b Hx Hi. apply (Q b). apply in_flat_map. exists x. split; [exact (nth_error_In _ _ Hx)|exact Hi]. }
  destruct R as (Q & M & ch & pend & Hc & Rx & Cap & Ad & E & T).
  assert (I := inv_history _ _ H). destruct (i_chan _ _ I _ _ Hc) as (_ & _ & Rd & D & _).
  exists (c_sent ch), pend, (skipn (c_next ch) (c_sent ch)).
  split; [symmetry; exact E|].
  split. { destruct (u_task s); try (subst pend; cbn; lia); intuition (subst; cbn; lia). }
  split. { unfold quiet. intros Hq. destruct (u_task s); try assumption; intuition (subst; try congruence). }
  split.
  - rewrite !received_app in Rd. rewrite (i_nobody _ _ I1 c) in Rd by lia. cbn [received app] in Rd. exact Rd.
  - cbn [step]. rewrite Hc, Rx, (waiting_not _ _ Q). cbn [andb negb].
    destruct (chan_recv (negb (has_sender s c)) ch) as [ch' o] eqn:K.
    destruct (recv_cases _ _ _ _ K D) as (_ & _ & _ & _ & _ & -> & _). exists (set_chan s c ch'). do 2 f_equal. rewrite Cap.
    f_equal. f_equal. rewrite has_sender_held.
    assert (EX : existsb (fun e => snd e =? c) (u_receivers s) = true).
    { apply existsb_receiver. exists a. apply map_get_in. exact M. }
    rewrite EX, andb_true_r. destruct (shared s) eqn:Sh; [reflexivity|].
    unfold shared in Sh. apply orb_false_iff in Sh as [_ Sh]. destruct (u_task s); discriminate || reflexivity.
Qed.

(** The two races. *)
Lemma race_lost : exists tr s s' c a, history tr s /\ u_open s = true /\ u_task s = Idle /\
  In (EConnect a, OConnected c) tr /\ (forall c', In (EConnect a, OConnected c') tr -> c' = c) /\
  (forall o, ~ In (EDropReceiver c, o) tr) /\ received c tr = [] /\ step s (ERecv c) = Some (s', OClosed).
Proof.
  destruct (run udp_init [EListen 1; EPacket 5%N [1%N]; ETask; EConnect 5%N; ETask; ETask; ETask]) as [[s tr]|] eqn:R; [|discriminate].
  assert (H := run_history _ _ _ _ _ history_nil R). cbn [app] in H.
  vm_compute in R. injection R as <- <-. eexists. eexists. eexists. exists 0, 5%N. split; [exact H|].
  split; [reflexivity|]. split; [reflexivity|]. split; [cbn; tauto|].
  split; [cbn; intros c' X; repeat (destruct X as [X|X]; [inversion X; reflexivity|]); destruct X|].
  split; [cbn; intros o X; repeat (destruct X as [X|X]; [inversion X|]); destruct X|]. split; [reflexivity|]. reflexivity.
Qed.
Lemma race_removed : exists tr1 tr2 s s' c a, history (tr1 ++ (EConnect a, OConnected c) :: tr2) s /\ u_open s = true /\ u_task s = Idle /\
  u_listener s = None /\ (forall c', ~ In (EConnect a, OConnected c') tr2) /\ (forall o, ~ In (EDropReceiver c, o) tr2) /\
  tr2 = [(ETask, OUnit); (ETask, OUnit)] /\ step s (ERecv c) = Some (s', OClosed).
Proof.
  destruct (run udp_init [EConnect 5%N; EDropReceiver 0; EPacket 5%N [1%N]; ETask; ETask; EConnect 5%N; ETask; ETask]) as [[s tr]|] eqn:R; [|discriminate].
  assert (H := run_history _ _ _ _ _ history_nil R). cbn [app] in H. vm_compute in R. injection R as <- <-.
  exists [(EConnect 5%N, OConnected 0); (EDropReceiver 0, OUnit); (EPacket 5%N [1%N], OUnit); (ETask, OUnit); (ETask, OUnit)], [(ETask, OUnit); (ETask, OUnit)].
  eexists. eexists. exists 1, 5%N. split; [exact H|]. split; [reflexivity|]. split; [reflexivity|]. split; [reflexivity|].
  split; [cbn; intros c' X; repeat (destruct X as [X|X]; [inversion X|]); destruct X|].
  split; [cbn; intros o X; repeat (destruct X as [X|X]; [inversion X|]); destruct X|]. split; reflexivity.
Qed.

(** ** The receiver task *)

Lemma option_map_task s s' : task_step s = Some s' -> step s ETask = Some (s', OUnit).
Proof. intros H. cbn [step]. rewrite H. reflexivity. Qed.

Lemma run_task n s s1 r : task_step s = Some s1 -> run s1 (repeat ETask n) = Some r ->
  run s (repeat ETask (S n)) = Some (fst r, (ETask, OUnit) :: snd r).
Proof. intros H R. cbn [repeat run]. rewrite (option_map_task _ _ H), R. reflexivity. Qed.

(** How far the task is from waiting. *)
Definition left (t : task) : nat :=
  match t with Idle | Stopped => 0 | Sent _ _ => 1 | Queued _ _ _ => 2 | NewConn _ _ => 3 | Failed _ _ => 4 | Got _ _ _ => 5 | Arrived _ _ => 6 end.

Lemma task_moves tr s : inv tr s -> left (u_task s) <> 0 -> exists s', task_step s = Some s' /\ left (u_task s') < left (u_task s).
Proof.
  intros I L. assert (T := i_task _ _ I). unfold task_step. destruct (u_task s) as [|p a|p a c|p a|p a|p a c|a c|] eqn:E; cbn [left] in L; try congruence.
  - eexists. split; [reflexivity|]. fields. destruct (map_get N.eqb a (u_receivers s)); cbn; lia.
  - destruct T as (_ & ch & Hc & _). rewrite Hc. eexists. split; [reflexivity|]. destruct (chan_send ch p); fields; cbn; lia.
  - eexists. split; [reflexivity|]. fields. cbn. lia.
  - destruct (u_listener s) as [l|] eqn:El; [|eexists; split; [reflexivity|]; fields; cbn; lia].
    assert (Hl := i_listener _ _ I _ El). destruct (nth_error (u_lsts s) l) as [x|] eqn:Ex; [|apply nth_error_None in Ex; lia].
    destruct (l_rx x); [destruct (length (l_queue x) <? l_cap x)|]; (eexists; split; [reflexivity|]; fields; cbn; lia).
  - destruct T as (_ & ch & Hc & _). rewrite Hc. eexists. split; [reflexivity|]. fields. cbn. lia.
  - eexists. split; [reflexivity|]. fields. cbn. lia.
Qed.

Lemma task_returns tr s : history tr s -> exists n s' tr', n <= 6 /\ run s (repeat ETask n) = Some (s', tr') /\
  (u_task s' = Idle \/ u_task s' = Stopped).
Proof.
  intros H. assert (B : left (u_task s) <= 6) by (destruct (u_task s); cbn; lia).
  enough (E : exists n s' tr', n <= left (u_task s) /\ run s (repeat ETask n) = Some (s', tr') /\ (u_task s' = Idle \/ u_task s' = Stopped)).
  { destruct E as (n & s' & tr' & L & E). exists n, s', tr'. split; [lia|exact E]. }
  clear B. assert (K : left (u_task s) <= left (u_task s)) by lia. revert K. generalize (left (u_task s)) at 2 3 as k. intros k. revert s tr H.
  induction k as [|k IH]; intros s tr H K.
  - exists 0, s, []. split; [lia|]. split; [reflexivity|]. destruct (u_task s); cbn in K; try lia; tauto.
  - destruct (Nat.eq_dec (left (u_task s)) 0) as [Hz|Hz].
    { exists 0, s, []. split; [lia|]. split; [reflexivity|]. destruct (u_task s); cbn in Hz; try lia; tauto. }
    destruct (task_moves _ _ (inv_history _ _ H)) as (s1 & St & L); [exact Hz|].
    destruct (IH s1 (tr ++ [(ETask, OUnit)])) as (n & s' & tr' & L' & R & D); [econstructor; [exact H|apply option_map_task; exact St]|lia|].
    exists (S n), s', ((ETask, OUnit) :: tr'). split; [lia|]. split; [|exact D]. exact (run_task _ _ _ _ St R).
Qed.

Lemma set_nth_snoc {A} (l : list A) x y : set_nth (length l) y (l ++ [x]) = l ++ [y].
Proof. unfold set_nth. rewrite firstn_app, firstn_all, Nat.sub_diag, skipn_app, skipn_all, Nat.sub_diag. cbn. rewrite app_nil_r. reflexivity. Qed.

(** ** One datagram, handled without interruption *)

Lemma new_peer s a d l x :
  u_task s = Idle -> unknown_peer s a -> u_listener s = Some l ->
  (forall c, map_get N.eqb a (u_receivers s) = Some c -> c < length (u_chans s)) ->
  nth_error (u_lsts s) l = Some x -> l_rx x = true -> length (l_queue x) < l_cap x ->
  let c := length (u_chans s) in
  exists n s' tr', run s (EPacket a d :: repeat ETask n) = Some (s', tr') /\ u_task s' = Idle /\
    u_open s' = u_open s /\ u_listener s' = u_listener s /\
    u_chans s' = u_chans s ++ [mkC a 32 [mkP (u_count s) (firstn 1400 d)] 0 true] /\
    u_lsts s' = set_nth l (mkL (l_cap x) (l_queue x ++ [(c, a)]) true) (u_lsts s) /\
    map_get N.eqb a (u_receivers s') = Some c /\
    (forall b, b <> a -> map_get N.eqb b (u_receivers s') = map_get N.eqb b (u_receivers s)).
Proof.
  intros T U L B Hx Rx Q c. apply Nat.ltb_lt in Q.
  set (p := mkP (u_count s) (firstn 1400 d)).
  assert (K : forall rs, (map_get N.eqb a rs = map_get N.eqb a (map_remove N.eqb a rs) \/ True) ->
    run (mkU (u_open s) rs (u_listener s) (NewConn p a) (u_chans s) (u_lsts s) (S (u_count s))) (repeat ETask 3) =
    Some (mkU (u_open s) (map_insert N.eqb a c rs) (u_listener s) Idle (u_chans s ++ [mkC a 32 [p] 0 true])
           (set_nth l (mkL (l_cap x) (l_queue x ++ [(c, a)]) true) (u_lsts s)) (S (u_count s)), [(ETask, OUnit); (ETask, OUnit); (ETask, OUnit)])).
  { intros rs _. cbn [repeat run step option_map].
    unfold task_step at 1. cbn [u_task]. fields. rewrite L, Hx, Rx, Q. cbn [option_map].
    unfold task_step at 1. fields. rewrite nth_app_last. cbn [chan_send c_rx option_map].
    unfold chan_send. fields. cbn [c_rx c_addr c_cap c_sent c_next app].
    unfold task_step at 1. fields. cbn [option_map fst snd]. unfold set_task, set_receivers, set_chan, add_chan, set_lst. fields. rewrite set_nth_snoc. reflexivity. }
  destruct (map_get N.eqb a (u_receivers s)) as [c0|] eqn:M.
  - assert (Hc0 := B _ eq_refl). destruct (nth_error (u_chans s) c0) as [ch|] eqn:E0; [|apply nth_error_None in E0; lia].
    assert (R0 := U _ M _ E0).
    exists 6. eexists. eexists. split.
    { change (repeat ETask 6) with ([ETask; ETask; ETask] ++ repeat ETask 3). cbn [run step app]. rewrite T.
      cbn [step]. unfold task_step at 1. fields. rewrite M. cbn [option_map].
      unfold task_step at 1. fields. rewrite E0. unfold chan_send. rewrite R0. cbn [option_map].
      unfold task_step at 1. fields. cbn [option_map]. unfold set_task, set_receivers. fields. fold p. cbn [run step].
      rewrite K by tauto. cbn [option_map fst snd]. reflexivity. }
    fields. repeat split; [apply get_insert_same; apply N.eqb_eq|]. intros b Hb.
    rewrite get_insert_other; [|apply N.eqb_eq|exact Hb]. apply get_remove_other; [apply N.eqb_eq|exact Hb].
  - exists 4. eexists. eexists. split.
    { change (repeat ETask 4) with ([ETask] ++ repeat ETask 3). cbn [run step app]. rewrite T.
      cbn [step]. unfold task_step at 1. fields. rewrite M. cbn [option_map]. unfold set_task. fields. fold p. cbn [run step].
      rewrite K by tauto. cbn [option_map fst snd]. reflexivity. }
    fields. repeat split; [apply get_insert_same; apply N.eqb_eq|]. intros b Hb. apply get_insert_other; [apply N.eqb_eq|exact Hb].
Qed.

Lemma mapped_exists tr s a c : history tr s -> map_get N.eqb a (u_receivers s) = Some c -> c < length (u_chans s).
Proof. intros H M. destruct (i_map _ _ (inv_history _ _ H) _ _ (map_get_in _ _ _ M)) as (ch & Hc & _). exact (nth_lt _ _ _ Hc). Qed.

Lemma new_peer_queued tr s a d l x :
  history tr s -> u_task s = Idle -> unknown_peer s a -> u_listener s = Some l ->
  nth_error (u_lsts s) l = Some x -> l_rx x = true -> length (l_queue x) < l_cap x ->
  let c := length (u_chans s) in
  exists n s' tr', run s (EPacket a d :: repeat ETask n) = Some (s', tr') /\ u_task s' = Idle /\
    u_open s' = u_open s /\ u_listener s' = u_listener s /\
    u_chans s' = u_chans s ++ [mkC a 32 [mkP (u_count s) (firstn 1400 d)] 0 true] /\
    u_lsts s' = set_nth l (mkL (l_cap x) (l_queue x ++ [(c, a)]) true) (u_lsts s) /\
    map_get N.eqb a (u_receivers s') = Some c /\
    (forall b, b <> a -> map_get N.eqb b (u_receivers s') = map_get N.eqb b (u_receivers s)).
Proof. intros H T U L Hx Rx Q. apply new_peer; try assumption. intros c Hc. eapply mapped_exists; eassumption. Qed.

Lemma nobody_listens tr s a d :
  history tr s -> u_task s = Idle -> unknown_peer s a ->
  (forall l x, u_listener s = Some l -> nth_error (u_lsts s) l = Some x -> l_rx x = false \/ l_cap x <= length (l_queue x)) ->
  exists n s' tr', run s (EPacket a d :: repeat ETask n) = Some (s', tr') /\ u_task s' = Idle /\
    u_open s' = u_open s /\ u_chans s' = u_chans s /\ u_lsts s' = u_lsts s /\
    (u_listener s' = u_listener s \/
     u_listener s' = None /\ exists l x, u_listener s = Some l /\ nth_error (u_lsts s) l = Some x /\ l_rx x = false) /\
    map_get N.eqb a (u_receivers s') = None /\
    (forall b, b <> a -> map_get N.eqb b (u_receivers s') = map_get N.eqb b (u_receivers s)).
Proof.
  intros H T U L. set (p := mkP (u_count s) (firstn 1400 d)).
  assert (K : exists ls, (ls = u_listener s \/ ls = None /\ exists l x, u_listener s = Some l /\ nth_error (u_lsts s) l = Some x /\ l_rx x = false) /\
    forall rs, task_step (mkU (u_open s) rs (u_listener s) (NewConn p a) (u_chans s) (u_lsts s) (S (u_count s))) =
               Some (mkU (u_open s) rs ls Idle (u_chans s) (u_lsts s) (S (u_count s)))).
  { destruct (u_listener s) as [l|] eqn:El.
    - assert (Hl := i_listener _ _ (inv_history _ _ H) _ El). destruct (nth_error (u_lsts s) l) as [x|] eqn:Ex; [|apply nth_error_None in Ex; lia].
      specialize (L _ _ eq_refl Ex). destruct (l_rx x) eqn:Rx.
      + exists (Some l). split; [left; reflexivity|]. intros rs. unfold task_step. fields. rewrite Ex, Rx.
        destruct L as [L|L]; [discriminate|]. apply Nat.ltb_ge in L. rewrite L. reflexivity.
      + exists None. split; [right; split; [reflexivity|]; exists l, x; auto|]. intros rs. unfold task_step. fields. rewrite Ex, Rx. reflexivity.
    - exists None. split; [left; reflexivity|]. intros rs. reflexivity. }
  destruct K as (ls & Hls & K).
  destruct (map_get N.eqb a (u_receivers s)) as [c0|] eqn:M.
  - assert (Hc0 := mapped_exists _ _ _ _ H M). destruct (nth_error (u_chans s) c0) as [ch|] eqn:E0; [|apply nth_error_None in E0; lia].
    assert (R0 := U _ M _ E0).
    exists 4. eexists. eexists. split.
    { cbn [run step app repeat]. rewrite T.
      cbn [step]. unfold task_step at 1. fields. rewrite M. cbn [option_map].
      unfold task_step at 1. fields. rewrite E0. unfold chan_send. rewrite R0. cbn [option_map].
      unfold task_step at 1. fields. cbn [option_map]. unfold set_task, set_receivers. fields. fold p.
      rewrite K. cbn [option_map fst snd]. reflexivity. }
    fields. repeat split; [exact Hls|apply get_remove_same; apply N.eqb_eq|]. intros b Hb. apply get_remove_other; [apply N.eqb_eq|exact Hb].
  - exists 2. eexists. eexists. split.
    { cbn [run step app repeat]. rewrite T.
      cbn [step]. unfold task_step at 1. fields. rewrite M. cbn [option_map]. unfold set_task. fields. fold p.
      rewrite K. cbn [option_map fst snd]. reflexivity. }
    fields. repeat split; [exact Hls|exact M].
Qed.

Lemma known_peer tr s a d c ch :
  history tr s -> u_task s = Idle -> map_get N.eqb a (u_receivers s) = Some c ->
  nth_error (u_chans s) c = Some ch -> c_rx ch = true ->
  exists n s' tr', run s (EPacket a d :: repeat ETask n) = Some (s', tr') /\ u_task s' = Idle /\
    u_open s' = u_open s /\ u_receivers s' = u_receivers s /\ u_listener s' = u_listener s /\ u_lsts s' = u_lsts s /\
    nth_error (u_chans s') c = Some (mkC (c_addr ch) (c_cap ch) (c_sent ch ++ [mkP (u_count s) (firstn 1400 d)]) (c_next ch) true) /\
    (forall k, k <> c -> nth_error (u_chans s') k = nth_error (u_chans s) k).
Proof.
  intros H T M Hc R. exists 2. eexists. eexists. split.
  { cbn [run step app repeat]. rewrite T. cbn [step]. unfold task_step at 1. fields. rewrite M. cbn [option_map].
    unfold task_step at 1. fields. rewrite Hc. unfold chan_send. rewrite R. cbn [option_map fst snd]. reflexivity. }
  fields. repeat split.
  - apply set_nth_same. exact (nth_lt _ _ _ Hc).
  - intros k Hk. apply set_nth_other. exact Hk.
Qed.

(** ** The first datagram of an accepted connection *)

Definition first_is (c : nat) (a : N) (p : packet) (s : udp) : Prop :=
  exists ch, nth_error (u_chans s) c = Some ch /\ c_rx ch = true /\ c_addr ch = a /\ c_cap ch = 32 /\
    ((exists more, c_sent ch = p :: more) \/ (c_sent ch = [] /\ u_task s = Queued p a c)).

Lemma first_step tr c a p s e o s' :
  inv tr s -> stepped s e o s' -> first_is c a p s -> e <> EDropReceiver c ->
  (forall l, e = EDropListener l -> forall x b, nth_error (u_lsts s) l = Some x -> ~ In (c, b) (l_queue x)) ->
  first_is c a p s'.
Proof.
  intros I S (ch & Hc & R & A & Cap & F) Nd Nl. assert (Hl := nth_lt _ _ _ Hc).
  destruct S; unfold first_is; fields;
    try (exists ch; repeat split; try assumption; destruct F as [F|[F1 F2]]; [left; exact F|right; split; congruence || assumption]);
    try solve [exists ch; repeat split; assumption].
  - (* deliver *)
    destruct (Nat.eq_dec c c0) as [<-|Hd].
    + rewrite Hc in H0. injection H0 as <-. eexists. rewrite set_nth_same by exact Hl. split; [reflexivity|]. cbn [c_rx c_addr c_cap c_sent].
      repeat split; try assumption. left. destruct F as [(more & ->)|[_ F]]; [exists (more ++ [p0]); reflexivity|congruence].
    + exists ch. rewrite set_nth_other by congruence. repeat split; try assumption. destruct F as [F|[F1 F2]]; [left; exact F|congruence].
  - exists ch. split; [apply nth_app_old; exact Hc|]. repeat split; try assumption. destruct F as [F|[F1 F2]]; [left; exact F|congruence].
  - (* first *)
    destruct (Nat.eq_dec c c0) as [<-|Hd].
    + rewrite Hc in H0. injection H0 as <-. eexists. rewrite set_nth_same by exact Hl. split; [reflexivity|]. cbn [c_rx c_addr c_cap c_sent].
      repeat split; try assumption. left. destruct F as [(more & ->)|[-> F]]; [exists (more ++ [p0]); reflexivity|]. rewrite H in F. injection F as -> _. exists []. reflexivity.
    + exists ch. rewrite set_nth_other by congruence. repeat split; try assumption. destruct F as [F|[F1 F2]]; [left; exact F|congruence].
  - (* connect *)
    exists ch. split; [apply nth_app_old; exact Hc|]. repeat split; try assumption.
  - (* recv *)
    destruct (Nat.eq_dec c c0) as [<-|Hd].
    + rewrite Hc in H. injection H as <-. destruct (i_chan _ _ I _ _ Hc) as (_ & _ & _ & D & _).
      destruct (recv_cases _ _ _ _ H2 D) as (E1 & E2 & E3 & E4 & _). exists ch'. rewrite set_nth_same by exact Hl.
      rewrite E1, E2, E3, E4. repeat split; assumption.
    + exists ch. rewrite set_nth_other by exact Hd. repeat split; assumption.
  - (* drop receiver *)
    exists ch. rewrite set_nth_other by congruence. repeat split; assumption.
  - (* drop listener *)
    destruct (drop_all_other (l_queue x) (set_lst s l (mkL (l_cap x) [] false))) as (_ & _ & _ & -> & _). fields.
    exists ch. rewrite (drop_all_chan (l_queue x) (set_lst s l (mkL (l_cap x) [] false)) c ch Hc).
    destruct (existsb (fun e => fst e =? c) (l_queue x)) eqn:EX; [exfalso|repeat split; assumption].
    apply existsb_queue in EX as (b & EX). exact (Nl _ eq_refl _ _ H EX).
Qed.

Lemma queue_listed s l x c b : nth_error (u_lsts s) l = Some x -> In (c, b) (l_queue x) -> In (c, b) (queued s).
Proof. intros H Hi. apply in_flat_map. exists x. split; [exact (nth_error_In _ _ H)|exact Hi]. Qed.

Lemma nodup_l {A} (u v : list A) : NoDup (u ++ v) -> NoDup u.
Proof.
  induction u as [|x u IH]; intros N; [constructor|]. cbn in N. inversion N; subst. constructor; [|apply IH; assumption].
  intros Hi. apply H1. apply in_app_iff. left. exact Hi.
Qed.
Lemma nodup_r {A} (u v : list A) : NoDup (u ++ v) -> NoDup v.
Proof. induction u as [|x u IH]; intros N; [exact N|]. cbn in N. inversion N; subst. apply IH. assumption. Qed.
Lemma nodup_apart {A} (u v : list A) x : NoDup (u ++ v) -> In x u -> ~ In x v.
Proof.
  induction u as [|y u IH]; intros N Hi; [destruct Hi|]. cbn in N. inversion N; subst. destruct Hi as [->|Hi].
  - intros Hv. apply H1. apply in_app_iff. right. exact Hv.
  - apply IH; assumption.
Qed.
Lemma in_fst {A B} (q : list (A * B)) c b : In (c, b) q -> In c (map fst q).
Proof. intros H. apply in_map_iff. exists (c, b). split; [reflexivity|exact H]. Qed.
Lemma nodup_queue {A B} (q1 q q2 : list (A * B)) c b b' : NoDup (map fst (q1 ++ q ++ q2)) -> In (c, b) q -> ~ In (c, b') (q1 ++ q2).
Proof.
  intros N Hi Hj. rewrite !map_app in N. apply in_app_iff in Hj as [Hj|Hj]; apply in_fst in Hi, Hj.
  - apply (nodup_apart _ _ c N Hj). apply in_app_iff. left. exact Hi.
  - apply nodup_r in N. exact (nodup_apart _ _ c N Hi Hj).
Qed.

Lemma queued_first tr s : history tr s -> forall c a, In (c, a) (queued s) -> exists p, first_is c a p s /\ arrived a tr p.
Proof.
  intros H. induction H as [|tr s e s' o H IH St]; [intros c a []|].
  assert (I := inv_history _ _ H). assert (I' := inv_history _ _ (history_step _ _ _ _ _ H St)). apply step_inv in St.
  intros c a Hi. destruct (queued_step_new _ _ _ _ _ _ _ I St Hi) as [Hi'|Hn].
  - destruct (IH _ _ Hi') as (p & F & Ap). exists p. split; [|apply arrived_more; exact Ap].
    eapply first_step; [exact I|exact St|exact F|..].
    + intros ->. inversion St as [| | | | | | | | | | | | | | | | | | | |? ? ? ? W| |]; subst. exact (waiting_false _ _ W _ Hi').
    + intros l -> x b Hx Hb. inversion St as [| | | | | | | | | | | | | | | | | | | | |? x' Hx' Rx'|]; subst. rewrite Hx in Hx'. injection Hx' as <-.
      destruct (drop_all_other (l_queue x) (set_lst s l (mkL (l_cap x) [] false))) as (_ & _ & _ & _ & EL & _ & _).
      destruct (queued_set l x (mkL (l_cap x) [] false) s (set_lst s l (mkL (l_cap x) [] false)) Hx eq_refl) as (q1 & q2 & E1 & E2).
      unfold queued in Hi at 1. rewrite EL in Hi. unfold queued in E2 at 1. rewrite E2 in Hi. cbn in Hi.
      assert (N := i_ids _ _ I). rewrite map_app in N. apply nodup_r in N. rewrite E1 in N. exact (nodup_queue _ _ _ _ _ _ N Hb Hi).
  - assert (Old : In (c, a) (queued s) -> False).
    { intros Hq. destruct (i_queue _ _ I _ _ Hq) as (ch & Hc & _). apply nth_lt in Hc. lia. }
    assert (T := i_task _ _ I). destruct St; try (exfalso; apply Old; exact Hi).
    + rewrite H0 in T. destruct (i_queue _ _ I' _ _ Hi) as (ch & Hc & Ac). fields. subst c. rewrite nth_app_last in Hc. injection Hc as <-. cbn in Ac. subst a0.
      exists p. split; [|apply arrived_more; exact T]. eexists. fields. rewrite nth_app_last. split; [reflexivity|]. repeat split. right. split; reflexivity.
    + exfalso. apply Old. unfold queued in *. fields. rewrite flat_map_app in Hi. cbn in Hi. rewrite app_nil_r in Hi. exact Hi.
    + exfalso. destruct (i_queue _ _ I' _ _ Hi) as (ch & Hc & _). fields. apply nth_lt in Hc. lia.
    + exfalso. destruct (i_queue _ _ I' _ _ Hi) as (ch' & Hc & _). apply nth_lt in Hc.
      destruct (drop_all_other (l_queue x) (set_lst s l (mkL (l_cap x) [] false))) as (_ & _ & _ & _ & _ & _ & EL).
      rewrite EL in Hc. fields. lia.
Qed.

Lemma queued_unread tr s : history tr s -> forall c a, In (c, a) (queued s) -> received c tr = [].
Proof.
  intros H. induction H as [|tr s e s' o H IH St]; [intros c a []|].
  assert (I := inv_history _ _ H). apply step_inv in St. intros c a Hi. rewrite received_app.
  destruct (queued_step_new _ _ _ _ _ _ _ I St Hi) as [Hi'|Hn].
  - rewrite (IH _ _ Hi'). destruct St; try reflexivity. cbn [received app]. destruct (Nat.eqb_spec c0 c) as [->|]; [|reflexivity].
    exfalso. eapply waiting_false; eassumption.
  - rewrite (i_nobody _ _ I c) by lia. destruct St; try reflexivity. cbn [received app]. destruct (Nat.eqb_spec c0 c) as [->|]; [|reflexivity].
    apply nth_lt in H0. lia.
Qed.

Lemma sent_grows tr s e o s' c ch : inv tr s -> stepped s e o s' -> nth_error (u_chans s) c = Some ch ->
  exists ch' ys, nth_error (u_chans s') c = Some ch' /\ c_sent ch' = c_sent ch ++ ys.
Proof.
  intros I S Hc. assert (Hl := nth_lt _ _ _ Hc).
  assert (Same : nth_error (u_chans s') c = Some ch -> exists ch' ys, nth_error (u_chans s') c = Some ch' /\ c_sent ch' = c_sent ch ++ ys).
  { intros E. exists ch, []. rewrite app_nil_r. auto. }
  assert (Set' : forall k x y, nth_error (u_chans s) k = Some x -> (exists ys, c_sent y = c_sent x ++ ys) ->
    exists ch' ys, nth_error (set_nth k y (u_chans s)) c = Some ch' /\ c_sent ch' = c_sent ch ++ ys).
  { intros k x y Hk (ys & E). destruct (Nat.eq_dec c k) as [<-|Hd].
    - exists y, ys. rewrite set_nth_same by exact Hl. split; [reflexivity|congruence].
    - exists ch, []. rewrite set_nth_other by exact Hd. rewrite app_nil_r. auto. }
  destruct S; fields; try (apply Same; exact Hc); try (apply Same; apply nth_app_old; exact Hc);
    try (eapply Set'; [eassumption|]; cbn [c_sent drop_rx]; first [eexists; reflexivity|exists []; rewrite app_nil_r; reflexivity]).
  - eapply Set'; [eassumption|]. exists []. rewrite app_nil_r. destruct (i_chan _ _ I _ _ H) as (_ & _ & _ & D & _).
    destruct (recv_cases _ _ _ _ H2 D) as (_ & _ & E & _). exact E.
  - rewrite (drop_all_chan (l_queue x) (set_lst s l (mkL (l_cap x) [] false)) c ch Hc).
    destruct (existsb _ _); eexists; exists []; rewrite app_nil_r; split; reflexivity.
Qed.

Lemma accepted_first tr0 l c a tr1 s :
  history (tr0 ++ (EAccept l, OAccepted c a) :: tr1) s -> (forall o, ~ In (EDropReceiver c, o) tr1) ->
  exists p, arrived a tr0 p /\
    ((exists more rest, Forall (arrived a (tr0 ++ (EAccept l, OAccepted c a) :: tr1)) more /\ in_order (p :: more) /\
        reads (p :: more) (received c tr1) rest) \/
     (u_task s = Queued p a c /\ Forall (eq OPending) (received c tr1))).
Proof.
  intros H Nd. assert (H' := H). change ((EAccept l, OAccepted c a) :: tr1) with ([(EAccept l, OAccepted c a)] ++ tr1) in H'. rewrite app_assoc in H'.
  destruct (history_split _ _ _ H') as (s2 & H2 & X). destruct (history_snoc _ _ _ _ H2) as (s1 & H1 & St).
  assert (I1 := inv_history _ _ H1). assert (I2 := inv_history _ _ H2). apply step_inv in St.
  inversion St as [| | | | | | | | | | | | | | | | |l' x c' a' q Hx Rx Q E1 E2 E3|l' x o' Hx Rx Q D| | | |]; [|destruct D; congruence]. subst l' c' a'.
  assert (Hq : In (c, a) (queued s1)) by (eapply queue_listed; [exact Hx|rewrite Q; left; reflexivity]).
  destruct (queued_first _ _ H1 _ _ Hq) as (p & F & Ap). exists p. split; [exact Ap|].
  assert (F2 : first_is c a p s2) by (eapply first_step; [exact I1|exact St|exact F|discriminate|intros ? [=]]).
  assert (F3 : first_is c a p s /\ ((exists ch, nth_error (u_chans s) c = Some ch /\ c_sent ch = []) -> Forall (eq OPending) (received c tr1))).
  { clear E3 St H H'. revert Nd.
    refine (exec_ind_inv (fun tr s => (forall o, ~ In (EDropReceiver c, o) tr) ->
      first_is c a p s /\ ((exists ch, nth_error (u_chans s) c = Some ch /\ c_sent ch = []) -> Forall (eq OPending) (received c tr))) _ _ H2
      (fun _ => conj F2 (fun _ => Forall_nil _)) _ _ _ X).
    intros tr s0 e o s' I S P Nd.
    destruct P as [P W]. { intros o' Hi. apply (Nd o'). apply in_app_iff. left. exact Hi. }
    split.
    2:{ intros (ch' & Hc' & E'). destruct P as (ch & Hc & R & A & Cap & F3). destruct (sent_grows _ _ _ _ _ _ _ I S Hc) as (ch2 & ys & Hc2 & G).
        rewrite Hc' in Hc2. injection Hc2 as <-. rewrite E' in G. symmetry in G. apply app_eq_nil in G as [G _].
        rewrite received_app. apply Forall_app. split; [apply W; exists ch; auto|].
        destruct F3 as [(more & F3)|[_ T]]; [congruence|].
        destruct S; cbn [received]; try constructor. destruct (Nat.eqb_spec c0 c) as [->|]; [|constructor]. constructor; [|constructor].
        rewrite Hc in H. injection H as <-. destruct (i_chan _ _ I _ _ Hc) as (_ & _ & _ & D & _).
        destruct (recv_cases _ _ _ _ H4 D) as (_ & _ & _ & _ & _ & -> & _). rewrite Cap, G, skipn_nil.
        unfold has_sender. rewrite T, Nat.eqb_refl, orb_true_r. reflexivity. }
    eapply first_step; [exact I|exact S|exact P|..].
    - intros ->. apply (Nd o). apply in_app_iff. right. left. reflexivity.
    - intros l' -> x' b Hx' Hb. assert (N := i_ids _ _ I). rewrite map_app in N.
      apply (nodup_apart _ _ c N).
      + apply (in_fst _ c a). rewrite !opened_app, !in_app_iff. left. right. left. reflexivity.
      + apply (in_fst _ c b). eapply queue_listed; eassumption. }
  assert (I := inv_history _ _ H'). destruct F3 as ((ch & Hc & R & A & Cap & F3) & W).
  destruct (i_chan _ _ I _ _ Hc) as (Fa & Or & Rd & _ & _).
  assert (Z : received c (tr0 ++ [(EAccept l, OAccepted c a)]) = []).
  { rewrite received_app. cbn [received]. rewrite app_nil_r. apply (queued_unread _ _ H1 _ _ Hq). }
  rewrite received_app, Z in Rd. cbn [app] in Rd. rewrite <- app_assoc in Fa. cbn [app] in Fa. rewrite A in Fa.
  destruct F3 as [(more & E)|[E T]].
  - left. rewrite E in Rd, Or, Fa. exists more. eexists. split; [inversion Fa; assumption|]. split; [exact Or|exact Rd].
  - right. split; [exact T|]. apply W. exists ch. auto.
Qed.

(** ** After [recv_from] has failed *)

Lemma stopped_forever tr1 o tr2 s : history (tr1 ++ (EError, o) :: tr2) s ->
  u_task s = Stopped /\ (forall a d o', ~ In (EPacket a d, o') tr2).
Proof.
  intros H. change ((EError, o) :: tr2) with ([(EError, o)] ++ tr2) in H. rewrite app_assoc in H.
  destruct (history_split _ _ _ H) as (s2 & H2 & X). destruct (history_snoc _ _ _ _ H2) as (s1 & H1 & St). apply step_inv in St.
  refine (exec_ind_inv (fun tr s => u_task s = Stopped /\ (forall a d o', ~ In (EPacket a d, o') tr)) _ _ H2 _ _ _ _ X).
  - inversion St; subst. split; [reflexivity|intros ? ? ? []].
  - intros tr s0 e o' s' I S [T P]. split.
    + destruct S; fields; try congruence. destruct (drop_all_other (l_queue x) (set_lst s0 l (mkL (l_cap x) [] false))) as (_ & _ & _ & -> & _). exact T.
    + intros a d o2 Hi. apply in_app_iff in Hi as [Hi|[[= -> ->]|[]]]; [exact (P _ _ _ Hi)|]. inversion S; subst. congruence.
Qed.

Lemma no_packets_from a n tr : (forall b d o, ~ In (EPacket b d, o) tr) -> packets_from a n tr = [].
Proof.
  revert n. induction tr as [|[e o] tr IH]; intros n N; [reflexivity|].
  assert (N' : forall b d o, ~ In (EPacket b d, o) tr) by (intros b d o' Hi; exact (N b d o' (or_intror Hi))).
  destruct e; cbn [packets_from]; try (apply IH; exact N'). destruct (N _ _ _ (or_introl eq_refl)).
Qed.

Lemma reads_none q os r : reads q os r -> q = [] -> r = [].
Proof.
  induction 1; intros E; try discriminate; try (apply IHreads; assumption); [exact E|].
  apply app_eq_nil in E as [_ E]. apply IHreads. exact E.
Qed.

Lemma silent tr1 o tr2 a c tr3 s :
  history (tr1 ++ (EError, o) :: tr2 ++ (EConnect a, OConnected c) :: tr3) s ->
  (forall c', ~ In (EConnect a, OConnected c') tr3) -> (forall o, ~ In (EDropReceiver c, o) tr3) -> u_open s = true ->
  exists s', step s (ERecv c) = Some (s', OPending).
Proof.
  intros H Nc Nd Op. destruct (stopped_forever _ _ _ _ H) as [T NP].
  assert (E : tr1 ++ (EError, o) :: tr2 ++ (EConnect a, OConnected c) :: tr3 = (tr1 ++ (EError, o) :: tr2) ++ (EConnect a, OConnected c) :: tr3)
    by (rewrite <- app_assoc; reflexivity).
  rewrite E in H. destruct (history_split _ _ _ H) as (s1 & H1 & _). destruct (stopped_forever _ _ _ _ H1) as [T1 _].
  assert (Q : quiet s1 a) by (unfold quiet; rewrite T1; exact Logic.I).
  destruct (nothing_lost _ _ _ _ _ _ H1 Q H Nc Nd) as (done & pend & rest & Ep & _ & _ & Rd & s' & St).
  exists s'. rewrite St. rewrite no_packets_from in Ep.
  - symmetry in Ep. apply app_eq_nil in Ep as [Ep _]. rewrite (reads_none _ _ _ Rd Ep). unfold due, shared. rewrite Op. reflexivity.
  - intros b d o' Hi. apply (NP b d o'). apply in_app_iff. right. right. exact Hi.
Qed.

(** ** What a receiver gets, directly *)

Lemma reads_forall P q os r : reads q os r -> Forall P q -> Forall P (data_of os).
Proof.
  induction 1; intros F; cbn [data_of]; try (apply IHreads; assumption); [constructor| |].
  - inversion F; subst. constructor; [assumption|apply IHreads; assumption].
  - apply Forall_app in F as [_ F]. apply IHreads. exact F.
Qed.
Lemma sorted_app_r q1 q2 : in_order (q1 ++ q2) -> in_order q2.
Proof. induction q1 as [|x q1 IH]; intros H; [exact H|]. inversion H; subst. apply IH. assumption. Qed.
Lemma reads_ordered q os r : reads q os r -> in_order q -> in_order (data_of os).
Proof.
  induction 1; intros F; cbn [data_of]; try (apply IHreads; assumption); [constructor| |].
  - inversion F; subst. constructor; [apply IHreads; assumption|]. eapply reads_forall; eassumption.
  - apply IHreads. exact (sorted_app_r _ _ F).
Qed.
Lemma only_from_peer tr s c a : history tr s -> In (c, a) (opened tr) ->
  Forall (arrived a tr) (data_of (received c tr)) /\ in_order (data_of (received c tr)).
Proof.
  intros H Hi. destruct (receiver_in_order _ _ _ _ H Hi) as (sent & rest & F & O & R).
  split; [eapply reads_forall|eapply reads_ordered]; eassumption.
Qed.

Lemma backlog_bounded tr s l x : history tr s -> nth_error (u_lsts s) l = Some x -> length (l_queue x) <= l_cap x.
Proof. intros H Hx. exact (i_room _ _ (inv_history _ _ H) _ _ Hx). Qed.

Lemma not_yet_there : exists tr s s' s'' l c a p, history (tr ++ [(EAccept l, OAccepted c a)]) s /\
  arrived a tr p /\ received c tr = [] /\ step s (ERecv c) = Some (s', OPending) /\
  run s' [ETask; ERecv c] = Some (s'', [(ETask, OUnit); (ERecv c, OData p)]).
Proof.
  destruct (run udp_init [EListen 1; EPacket 5%N [1%N]; ETask; ETask; EAccept 0]) as [[s tr]|] eqn:R; [|discriminate].
  assert (H := run_history _ _ _ _ _ history_nil R). cbn [app] in H. vm_compute in R. injection R as <- <-.
  exists [(EListen 1, OListening 0); (EPacket 5%N [1%N], OUnit); (ETask, OUnit); (ETask, OUnit)].
  eexists. eexists. eexists. exists 0, 0, 5%N, (mkP 0 [1%N]). split; [exact H|]. split; [reflexivity|]. split; [reflexivity|]. split; reflexivity.
Qed.

(** ** Accepted connections *)

(** The datagram the task is handling is the last that arrived. *)
Lemma in_hand tr s : history tr s ->
  match u_task s with
  | Arrived p a | Got p a _ | Failed p a | NewConn p a | Queued p a _ =>
      exists tr0 d u, tr = tr0 ++ (EPacket a d, OUnit) :: u /\ arrivals u = [] /\ p = mkP (length (arrivals tr0)) (firstn 1400 d)
  | _ => True
  end.
Proof.
  intros H. induction H as [|tr s e s' o H IH St]; [exact Logic.I|].
  assert (I := inv_history _ _ H). apply step_inv in St.
  assert (K : forall p a, (exists tr0 d u, tr = tr0 ++ (EPacket a d, OUnit) :: u /\ arrivals u = [] /\ p = mkP (length (arrivals tr0)) (firstn 1400 d)) ->
    arrivals [(e, o)] = [] ->
    exists tr0 d u, tr ++ [(e, o)] = tr0 ++ (EPacket a d, OUnit) :: u /\ arrivals u = [] /\ p = mkP (length (arrivals tr0)) (firstn 1400 d)).
  { intros p a (tr0 & d & u & -> & U & P) A. exists tr0, d, (u ++ [(e, o)]). rewrite <- app_assoc. split; [reflexivity|].
    rewrite arrivals_app, U, A. split; [reflexivity|exact P]. }
  destruct St; fields; try (rewrite H0 in IH); try exact Logic.I; try (apply K; [exact IH|reflexivity]);
    try solve [destruct (u_task s); try exact Logic.I; apply K; try exact IH; reflexivity].
  - exists tr, data, []. split; [reflexivity|]. split; [reflexivity|]. rewrite (i_count _ _ I). reflexivity.
  - destruct (drop_all_other (l_queue x) (set_lst s l (mkL (l_cap x) [] false))) as (_ & _ & _ & -> & _). fields.
    destruct (u_task s); try exact Logic.I; apply K; try exact IH; reflexivity.
Qed.

Definition owed (n : nat) (p : packet) (c : nat) (a : N) (tr : list (event * obs)) (s : udp) : Prop :=
  registered 32 n c a tr s \/
  (packets_from a n tr = [p] /\
   exists ch, nth_error (u_chans s) c = Some ch /\ c_rx ch = true /\ c_cap ch = 32 /\ c_addr ch = a /\
     ((u_task s = Queued p a c /\ c_sent ch = []) \/ (u_task s = Sent a c /\ c_sent ch = [p]))).

Lemma owed_step tr1 n p c a tr s e o s' :
  inv (tr1 ++ tr) s -> stepped s e o s' -> n + length (arrivals tr) = u_count s ->
  (forall c', (e, o) <> (EConnect a, OConnected c')) -> e <> EDropReceiver c ->
  (forall l, e = EDropListener l -> forall x b, nth_error (u_lsts s) l = Some x -> ~ In (c, b) (l_queue x)) ->
  owed n p c a tr s -> owed n p c a (tr ++ [(e, o)]) s'.
Proof.
  intros I S Hn Hne Hnd Nl [R|(P & ch & Hc & Rx & Cap & Ad & T)]; [left; eapply registered_step; eassumption|].
  assert (Hl := nth_lt _ _ _ Hc).
  assert (T' : u_task s = Queued p a c \/ u_task s = Sent a c) by tauto.
  assert (A : arrivals [(e, o)] = []) by (destruct S; try reflexivity; destruct T'; congruence).
  assert (P' : packets_from a n (tr ++ [(e, o)]) = [p]).
  { rewrite packets_from_app, P. destruct e; try reflexivity. discriminate A. }
  assert (KE : u_task s' = u_task s -> nth_error (u_chans s') c = Some ch -> owed n p c a (tr ++ [(e, o)]) s').
  { intros E1 E2. right. split; [exact P'|]. exists ch. rewrite E1. repeat split; assumption. }
  destruct S; fields; try (destruct T'; congruence); try (apply KE; [reflexivity|exact Hc]).
  - (* first *)
    destruct T as [[T E]|[T E]]; [|congruence]. rewrite T in H. injection H as <- <- <-. rewrite Hc in H0. injection H0 as <-.
    right. split; [exact P'|]. eexists. fields. rewrite set_nth_same by exact Hl. split; [reflexivity|]. cbn. rewrite E. repeat split; try assumption.
    right. split; reflexivity.
  - (* register *)
    destruct T as [[T E]|[T E]]; [congruence|]. rewrite T in H. injection H as <- <-.
    left. split; [apply get_insert_same; apply N.eqb_eq|]. exists ch, []. fields. rewrite E, P', app_nil_r. repeat split; assumption.
  - (* connect *)
    apply KE; [reflexivity|]. fields. apply nth_app_old. exact Hc.
  - (* recv *)
    right. split; [exact P'|]. fields. destruct (Nat.eq_dec c c0) as [<-|Hd].
    + rewrite Hc in H. injection H as <-. destruct (i_chan _ _ I _ _ Hc) as (_ & _ & _ & D & _).
      destruct (recv_cases _ _ _ _ H2 D) as (E1 & E2 & E3 & E4 & _). exists ch'. rewrite set_nth_same by exact Hl.
      rewrite E1, E2, E3, E4. repeat split; assumption.
    + exists ch. rewrite set_nth_other by congruence. repeat split; assumption.
  - (* drop receiver *)
    apply KE; [reflexivity|]. fields. rewrite set_nth_other by congruence. exact Hc.
  - (* drop listener *)
    destruct (drop_all_other (l_queue x) (set_lst s l (mkL (l_cap x) [] false))) as (_ & _ & _ & Et & _). fields.
    apply KE; [exact Et|]. rewrite (drop_all_chan (l_queue x) (set_lst s l (mkL (l_cap x) [] false)) c ch Hc).
    destruct (existsb (fun e => fst e =? c) (l_queue x)) eqn:EX; [exfalso|reflexivity].
    apply existsb_queue in EX as (b & EX). exact (Nl _ eq_refl _ _ H EX).
Qed.

Definition begun (c : nat) (a : N) (tr : list (event * obs)) (s : udp) : Prop :=
  exists tr0 d tr1, tr = tr0 ++ (EPacket a d, OUnit) :: tr1 /\
    ((forall c', ~ In (EConnect a, OConnected c') tr1) ->
     owed (length (arrivals tr0)) (mkP (length (arrivals tr0)) (firstn 1400 d)) c a ((EPacket a d, OUnit) :: tr1) s).

Lemma begun_step c a tr s e o s' : inv tr s -> stepped s e o s' -> e <> EDropReceiver c ->
  (forall l, e = EDropListener l -> forall x b, nth_error (u_lsts s) l = Some x -> ~ In (c, b) (l_queue x)) ->
  begun c a tr s -> begun c a (tr ++ [(e, o)]) s'.
Proof.
  intros I S Nd Nl (tr0 & d & tr1 & E & O). exists tr0, d, (tr1 ++ [(e, o)]). subst tr. rewrite <- app_assoc. split; [reflexivity|].
  intros Nc. change ((EPacket a d, OUnit) :: tr1 ++ [(e, o)]) with (((EPacket a d, OUnit) :: tr1) ++ [(e, o)]).
  eapply owed_step; [exact I|exact S|..]; try assumption.
  - rewrite (i_count _ _ I), arrivals_app, app_length. reflexivity.
  - intros c' K. apply (Nc c'). apply in_app_iff. right. left. exact K.
  - apply O. intros c' K. apply (Nc c'). apply in_app_iff. left. exact K.
Qed.

Lemma no_arrivals_packets a n u : arrivals u = [] -> packets_from a n u = [].
Proof. induction u as [|[e o] u IH]; [reflexivity|]. destruct e; cbn; try exact IH. discriminate. Qed.

Lemma all_begun tr s : history tr s ->
  (forall c a, In (c, a) (queued s) -> begun c a tr s) /\
  (forall l c a, In (EAccept l, OAccepted c a) tr -> (forall o, ~ In (EDropReceiver c, o) tr) -> begun c a tr s).
Proof.
  intros H. induction H as [|tr s e s' o H [IQ IA] St]; [split; [intros c a []|intros l c a []]|].
  assert (I := inv_history _ _ H). assert (I' := inv_history _ _ (history_step _ _ _ _ _ H St)). apply step_inv in St.
  assert (Q1 : forall c a, In (c, a) (queued s) -> e <> EDropReceiver c).
  { intros c a Hi ->. inversion St as [| | | | | | | | | | | | | | | | | | | |? ? ? ? W| |]; subst. exact (waiting_false _ _ W _ Hi). }
  split.
  - intros c a Hi. destruct (queued_step_new _ _ _ _ _ _ _ I St Hi) as [Hi'|Hn].
    + eapply begun_step; [exact I|exact St|exact (Q1 _ _ Hi')| |exact (IQ _ _ Hi')].
      intros l -> x b Hx Hb. inversion St as [| | | | | | | | | | | | | | | | | | | | |? x' Hx' Rx'|]; subst. rewrite Hx in Hx'. injection Hx' as <-.
      destruct (drop_all_other (l_queue x) (set_lst s l (mkL (l_cap x) [] false))) as (_ & _ & _ & _ & EL & _ & _).
      destruct (queued_set l x (mkL (l_cap x) [] false) s (set_lst s l (mkL (l_cap x) [] false)) Hx eq_refl) as (q1 & q2 & E1 & E2).
      unfold queued in Hi at 1. rewrite EL in Hi. unfold queued in E2 at 1. rewrite E2 in Hi. cbn in Hi.
      assert (N := i_ids _ _ I). rewrite map_app in N. apply nodup_r in N. rewrite E1 in N. exact (nodup_queue _ _ _ _ _ _ N Hb Hi).
    + assert (Old : In (c, a) (queued s) -> False).
      { intros Hq. destruct (i_queue _ _ I _ _ Hq) as (ch & Hc & _). apply nth_lt in Hc. lia. }
      assert (T := in_hand _ _ H). destruct St; try (exfalso; apply Old; exact Hi).
      * rewrite H0 in T. destruct (i_queue _ _ I' _ _ Hi) as (ch & Hc & Ac). fields. subst c. rewrite nth_app_last in Hc. injection Hc as <-. cbn in Ac. subst a0.
        destruct T as (tr0 & d & u & -> & U & ->). exists tr0, d, (u ++ [(ETask, OUnit)]). rewrite <- app_assoc. split; [reflexivity|]. intros _.
        right. cbn [packets_from]. rewrite N.eqb_refl, packets_from_app, no_arrivals_packets by exact U. split; [reflexivity|].
        eexists. fields. rewrite nth_app_last. split; [reflexivity|]. repeat split. left. split; reflexivity.
      * exfalso. apply Old. unfold queued in *. fields. rewrite flat_map_app in Hi. cbn in Hi. rewrite app_nil_r in Hi. exact Hi.
      * exfalso. destruct (i_queue _ _ I' _ _ Hi) as (ch & Hc & _). fields. apply nth_lt in Hc. lia.
      * exfalso. destruct (i_queue _ _ I' _ _ Hi) as (ch' & Hc & _). apply nth_lt in Hc.
        destruct (drop_all_other (l_queue x) (set_lst s l (mkL (l_cap x) [] false))) as (_ & _ & _ & _ & _ & _ & EL).
        rewrite EL in Hc. fields. lia.
  - intros l c a Hi Nd. assert (Nd1 : e <> EDropReceiver c) by (intros ->; apply (Nd o); apply in_app_iff; right; left; reflexivity).
    assert (Nd2 : forall o', ~ In (EDropReceiver c, o') tr) by (intros o' K; apply (Nd o'); apply in_app_iff; left; exact K).
    apply in_app_iff in Hi as [Hi|[[= -> ->]|[]]].
    + eapply begun_step; [exact I|exact St|exact Nd1| |exact (IA _ _ _ Hi Nd2)].
      intros l' -> x' b Hx' Hb. assert (N := i_ids _ _ I). rewrite map_app in N.
      apply (nodup_apart _ _ c N).
      * apply (in_fst _ c a). eapply accepted_in. exact Hi.
      * apply (in_fst _ c b). eapply queue_listed; eassumption.
    + assert (Hq : In (c, a) (queued s)).
      { inversion St as [| | | | | | | | | | | | | | | | |l' x c' a' q Hx Rx Q|l' x o' Hx Rx Q D| | | |]; [|destruct D; congruence]. subst.
        eapply queue_listed; [exact Hx|rewrite Q; left; reflexivity]. }
      eapply begun_step; [exact I|exact St|discriminate|discriminate|exact (IQ _ _ Hq)].
Qed.

Lemma accepted_all tr s l c a :
  history tr s -> In (EAccept l, OAccepted c a) tr -> (forall o, ~ In (EDropReceiver c, o) tr) ->
  exists tr0 d tr1, tr = tr0 ++ (EPacket a d, OUnit) :: tr1 /\
    ((forall c', ~ In (EConnect a, OConnected c') tr1) ->
     exists done pending rest,
       packets_from a (length (arrivals tr0)) ((EPacket a d, OUnit) :: tr1) = done ++ pending /\ length pending <= 1 /\
       (quiet s a -> pending = []) /\ reads done (received c tr) rest /\
       exists s', step s (ERecv c) = Some (s', due 32 (negb (shared s)) rest)).
Proof.
  intros H Hi Nd. assert (I := inv_history _ _ H).
  destruct (proj2 (all_begun _ _ H) _ _ _ Hi Nd) as (tr0 & d & tr1 & E & O). exists tr0, d, tr1. split; [exact E|]. intros Nc. specialize (O Nc).
  assert (Q : forall b, ~ In (c, b) (queued s)).
  { intros b Hb. assert (N := i_ids _ _ I). rewrite map_app in N. apply (nodup_apart _ _ c N); eapply in_fst; [eapply accepted_in; exact Hi|exact Hb]. }
  assert (K : forall ch, nth_error (u_chans s) c = Some ch -> c_rx ch = true -> c_cap ch = 32 -> has_sender s c = shared s ->
    reads (c_sent ch) (received c tr) (skipn (c_next ch) (c_sent ch)) /\
    exists s', step s (ERecv c) = Some (s', due 32 (negb (shared s)) (skipn (c_next ch) (c_sent ch)))).
  { intros ch Hc Rx Cap HS. destruct (i_chan _ _ I _ _ Hc) as (_ & _ & Rd & D & _). split; [exact Rd|].
    cbn [step]. rewrite Hc, Rx, (waiting_not _ _ Q). cbn [andb negb].
    destruct (chan_recv (negb (has_sender s c)) ch) as [ch' o] eqn:K.
    destruct (recv_cases _ _ _ _ K D) as (_ & _ & _ & _ & _ & -> & _). exists (set_chan s c ch'). rewrite Cap, HS. reflexivity. }
  destruct O as [(M & ch & pend & Hc & Rx & Cap & Ad & Ep & T)|(P & ch & Hc & Rx & Cap & Ad & T)].
  - exists (c_sent ch), pend, (skipn (c_next ch) (c_sent ch)).
    split; [symmetry; exact Ep|].
    split. { destruct (u_task s); try (subst pend; cbn; lia); intuition (subst; cbn; lia). }
    split. { unfold quiet. intros Hq. destruct (u_task s); try assumption; intuition (subst; try congruence). }
    apply K; try assumption. rewrite has_sender_held.
    assert (EX : existsb (fun e => snd e =? c) (u_receivers s) = true).
    { apply existsb_receiver. exists a. apply map_get_in. exact M. }
    rewrite EX, andb_true_r. destruct (shared s) eqn:Sh; [reflexivity|].
    unfold shared in Sh. apply orb_false_iff in Sh as [_ Sh]. destruct (u_task s); discriminate || reflexivity.
  - assert (HS : has_sender s c = shared s).
    { rewrite has_sender_held. unfold shared. destruct T as [[T _]|[T _]]; rewrite T; cbn [held]; rewrite Nat.eqb_refl, !orb_true_r; reflexivity. }
    destruct (K ch Hc Rx Cap HS) as [Rd NX].
    destruct T as [[T Es]|[T Es]]; rewrite Es in *.
    + exists [], [mkP (length (arrivals tr0)) (firstn 1400 d)]. eexists. split; [exact P|]. split; [cbn; lia|].
      split; [unfold quiet; rewrite T; congruence|]. split; [exact Rd|exact NX].
    + exists [mkP (length (arrivals tr0)) (firstn 1400 d)], []. eexists. split; [rewrite app_nil_r; exact P|]. split; [cbn; lia|].
      split; [reflexivity|]. split; [exact Rd|exact NX].
Qed.
