(** The invariant holds in every history. *)
From Coq Require Import List NArith Bool PeanoNat Sorted Lia Permutation.
From Verif Require Import MapModel EndpointProofs UdpModel UdpSpec UdpProofs.
Import ListNotations.
Open Scope nat_scope.

Ltac fields := cbn [u_open u_receivers u_listener u_task u_chans u_lsts u_count set_chan set_lst set_task
  set_receivers set_listener add_chan add_lst] in *.

Lemma step_count s e o s' : stepped s e o s' -> u_count s' = u_count s + length (arrivals [(e, o)]).
Proof.
  intros []; fields; cbn [arrivals length]; try lia.
  destruct (drop_all_other (l_queue x) (set_lst s l (mkL (l_cap x) [] false))) as (_ & _ & _ & _ & _ & -> & _). fields. lia.
Qed.

Lemma bound_mono tr s e o s' : inv tr s -> stepped s e o s' -> bound s <= bound s'.
Proof.
  intros I S. assert (IC := i_count _ _ I). assert (IT := i_task _ _ I). unfold bound.
  destruct S; fields; try (rewrite H in * ); try lia; try (cbn [p_no]; lia);
    try (apply arrived_lt in IT; lia); try (destruct IT as [IT _]; apply arrived_lt in IT; lia).
  destruct (drop_all_other (l_queue x) (set_lst s l (mkL (l_cap x) [] false))) as (_ & _ & _ & -> & _ & -> & _). fields. lia.
Qed.

Definition okchan (tr : list (event * obs)) (b c : nat) (ch : chan) : Prop :=
  Forall (arrived (c_addr ch) tr) (c_sent ch) /\ in_order (c_sent ch) /\
  reads (c_sent ch) (received c tr) (skipn (c_next ch) (c_sent ch)) /\
  c_next ch <= length (c_sent ch) /\ Forall (fun p => p_no p < b) (c_sent ch).

Lemma okchan_more tr t b b' c ch : okchan tr b c ch -> b <= b' -> received c t = [] -> okchan (tr ++ t) b' c ch.
Proof.
  intros (A & B & C & D & E) Hb Hr. repeat split; try assumption.
  - eapply Forall_impl; [|exact A]. intros p. apply arrived_more.
  - rewrite received_app, Hr, app_nil_r. exact C.
  - eapply Forall_impl; [|exact E]. cbn beta. intros p Hp. lia.
Qed.
Lemma okchan_same tr b c ch ch' : okchan tr b c ch -> c_addr ch' = c_addr ch -> c_sent ch' = c_sent ch -> c_next ch' = c_next ch ->
  okchan tr b c ch'.
Proof. unfold okchan. intros H -> -> ->. exact H. Qed.
Lemma okchan_send tr b c ch p : okchan tr (p_no p) c ch -> arrived (c_addr ch) tr p -> p_no p < b ->
  okchan tr b c (mkC (c_addr ch) (c_cap ch) (c_sent ch ++ [p]) (c_next ch) (c_rx ch)).
Proof.
  intros (A & B & C & D & E) Hp Hb. unfold okchan. cbn [c_addr c_sent c_next].
  split; [apply Forall_app; split; [exact A|repeat constructor; exact Hp]|].
  split; [apply sorted_snoc; assumption|].
  split; [rewrite skipn_app; replace (c_next ch - length (c_sent ch)) with 0 by lia; apply reads_more; exact C|].
  split; [rewrite app_length; lia|].
  apply Forall_app. split; [eapply Forall_impl; [|exact E]; cbn beta; intros q Hq; lia|repeat constructor; exact Hb].
Qed.

Lemma chan_step tr s e o s' : inv tr s -> stepped s e o s' ->
  forall c ch, nth_error (u_chans s') c = Some ch -> okchan (tr ++ [(e, o)]) (bound s') c ch.
Proof.
  intros I S. assert (BM := bound_mono _ _ _ _ _ I S). assert (IC := i_chan _ _ I).
  assert (keep : forall c ch, nth_error (u_chans s) c = Some ch -> received c [(e, o)] = [] -> okchan (tr ++ [(e, o)]) (bound s') c ch).
  { intros c ch H R. eapply okchan_more; [apply IC; exact H|exact BM|exact R]. }
  assert (fresh : forall c a cap b, length (u_chans s) <= c -> received c [(e, o)] = [] ->
    okchan (tr ++ [(e, o)]) b c (mkC a cap [] 0 true)).
  { intros c a cap b Hc R. unfold okchan. cbn [c_sent c_next c_addr]. rewrite received_app, R, (i_nobody _ _ I) by exact Hc.
    repeat split; [constructor|constructor|apply reads_nil|lia|constructor]. }
  assert (IT := i_task _ _ I). assert (ICo := i_count _ _ I).
  destruct S; intros k xh Hk; fields; try (apply keep; [exact Hk|reflexivity]).
  - (* deliver *)
    rewrite H in IT. destruct IT as (Ap & xc & Hxc & Ax). rewrite H0 in Hxc. injection Hxc as <-.
    apply set_nth_cases in Hk as [[-> ->]|[Hd Hk]]; [|apply keep; [exact Hk|reflexivity]].
    apply okchan_send.
    + eapply okchan_more; [apply IC; exact H0|unfold bound; rewrite H; lia|reflexivity].
    + apply arrived_more. rewrite Ax. exact Ap.
    + unfold bound. fields. apply arrived_lt in Ap. lia.
  - (* queue *)
    apply nth_app_cases in Hk as [Hk|[-> ->]]; [apply keep; [exact Hk|reflexivity]|apply fresh; [lia|reflexivity]].
  - (* first *)
    rewrite H in IT. destruct IT as (Ap & xc & Hxc & Ax). rewrite H0 in Hxc. injection Hxc as <-.
    apply set_nth_cases in Hk as [[-> ->]|[Hd Hk]]; [|apply keep; [exact Hk|reflexivity]].
    apply okchan_send.
    + eapply okchan_more; [apply IC; exact H0|unfold bound; rewrite H; lia|reflexivity].
    + apply arrived_more. rewrite Ax. exact Ap.
    + unfold bound. fields. apply arrived_lt in Ap. lia.
  - (* connect *)
    apply nth_app_cases in Hk as [Hk|[-> ->]]; [apply keep; [exact Hk|reflexivity]|apply fresh; [lia|reflexivity]].
  - (* recv *)
    apply set_nth_cases in Hk as [[-> ->]|[Hd Hk]].
    2:{ apply keep; [exact Hk|]. cbn. destruct (Nat.eqb_spec c k); [congruence|reflexivity]. }
    destruct (IC _ _ H) as (A & B & C & D & E).
    destruct (recv_cases _ _ _ _ H2 D) as (E1 & E2 & E3 & E4 & E5 & E6 & E7 & E8).
    unfold okchan. rewrite E1, E3. repeat split; try assumption.
    + eapply Forall_impl; [|exact A]. intros p. apply arrived_more.
    + rewrite received_app. cbn [received]. rewrite Nat.eqb_refl. eapply reads_app; [exact C|exact E7].
    + lia.
  - (* drop receiver *)
    apply set_nth_cases in Hk as [[-> ->]|[Hd Hk]]; [|apply keep; [exact Hk|reflexivity]].
    eapply okchan_same; [apply (keep c ch H); reflexivity|reflexivity..].
  - (* drop listener *)
    apply drop_all_cases in Hk as (ch & Hk & ->). fields.
    destruct (existsb _ _); [|apply keep; [exact Hk|reflexivity]].
    eapply okchan_same; [apply (keep k ch Hk); reflexivity|reflexivity..].
Qed.

Lemma task_ok tr s e o s' : inv tr s -> stepped s e o s' ->
  match u_task s' with
  | Arrived p a | Failed p a | NewConn p a => arrived a (tr ++ [(e, o)]) p
  | Got p a c | Queued p a c => arrived a (tr ++ [(e, o)]) p /\ is_chan s' c a
  | Sent a c => is_chan s' c a
  | Idle | Stopped => True
  end.
Proof.
  intros I S. assert (G := step_grows _ _ _ _ S (fun c ch H => proj1 (proj2 (proj2 (proj2 (i_chan _ _ I c ch H)))))).
  assert (IT := i_task _ _ I). assert (ICo := i_count _ _ I).
  assert (same : u_task s' = u_task s -> match u_task s' with
    | Arrived p a | Failed p a | NewConn p a => arrived a (tr ++ [(e, o)]) p
    | Got p a c | Queued p a c => arrived a (tr ++ [(e, o)]) p /\ is_chan s' c a
    | Sent a c => is_chan s' c a
    | Idle | Stopped => True
    end).
  { intros ->. clear - IT G. revert IT. destruct (u_task s); intros IT; try exact I; try (apply arrived_more; exact IT);
      try (eapply is_chan_grows; eassumption);
      destruct IT as [A B]; (split; [apply arrived_more; exact A|eapply is_chan_grows; eassumption]). }
  destruct S; try (apply same; reflexivity); fields; try exact Logic.I; try (rewrite H in IT); try (apply arrived_more; exact IT).
  - unfold arrived. rewrite arrivals_app. cbn [arrivals p_no p_data]. rewrite ICo. apply nth_app_last.
  - split; [apply arrived_more; exact IT|]. eapply is_chan_grows; [exact G|]. eapply i_map; [exact I|]. apply map_get_in. exact H0.
  - destruct IT as [A _]. apply arrived_more. exact A.
  - split; [apply arrived_more; exact IT|]. exists (mkC a 32 [] 0 true). split; [fields; apply nth_app_last|reflexivity].
  - eapply is_chan_grows; [exact G|]. apply IT.
  - eapply is_chan_grows; [exact G|]. apply IT.
  - apply same. destruct (drop_all_other (l_queue x) (set_lst s l (mkL (l_cap x) [] false))) as (_ & _ & _ & -> & _). reflexivity.
Qed.

Lemma perm4 {A} (n : A) a b c d : Permutation (n :: a ++ b ++ c ++ d) (a ++ b ++ c ++ n :: d).
Proof.
  rewrite !app_assoc. apply Permutation_middle.
Qed.

Lemma ids_step tr s e o s' : inv tr s -> stepped s e o s' ->
  (forall c a, In (c, a) (opened (tr ++ [(e, o)])) -> is_chan s' c a) /\
  (forall c a, In (c, a) (queued s') -> is_chan s' c a) /\
  (forall c a ch, In (c, a) (queued s') -> nth_error (u_chans s') c = Some ch -> c_rx ch = true) /\
  NoDup (map fst (opened (tr ++ [(e, o)]) ++ queued s')).
Proof.
  intros I S. assert (G := step_grows _ _ _ _ S (fun c ch H => proj1 (proj2 (proj2 (proj2 (i_chan _ _ I c ch H)))))).
  assert (IO := i_opened _ _ I). assert (IQ := i_queue _ _ I). assert (IA := i_alive _ _ I). assert (ID := i_ids _ _ I).
  rewrite opened_app.
  assert (plain : opened [(e, o)] = [] -> u_lsts s' = u_lsts s ->
     (forall c a ch', In (c, a) (queued s) -> nth_error (u_chans s') c = Some ch' -> c_rx ch' = true) ->
     (forall c a, In (c, a) (opened tr ++ opened [(e, o)]) -> is_chan s' c a) /\
     (forall c a, In (c, a) (queued s') -> is_chan s' c a) /\
     (forall c a ch, In (c, a) (queued s') -> nth_error (u_chans s') c = Some ch -> c_rx ch = true) /\
     NoDup (map fst ((opened tr ++ opened [(e, o)]) ++ queued s'))).
  { intros Eo El Ha. rewrite Eo, app_nil_r. unfold queued at 1 2 3. rewrite El. fold (queued s).
    split; [intros; eapply is_chan_grows; [exact G|apply IO; assumption]|].
    split; [intros; eapply is_chan_grows; [exact G|apply IQ; assumption]|].
    split; [exact Ha|exact ID]. }
  assert (setc : forall c ch ch', nth_error (u_chans s) c = Some ch -> (c_rx ch' = c_rx ch \/ forall a, ~ In (c, a) (queued s)) ->
     forall k a x, In (k, a) (queued s) -> nth_error (set_nth c ch' (u_chans s)) k = Some x -> c_rx x = true).
  { intros c ch ch' Hc Hr k a x Hq Hk. apply set_nth_cases in Hk as [[-> ->]|[Hd Hk]]; [|eapply IA; eassumption].
    destruct Hr as [->|Hn]; [eapply IA; eassumption|exfalso; exact (Hn a Hq)]. }
  destruct S; try (apply plain; [reflexivity|reflexivity|exact IA]); fields.
  - apply plain; [reflexivity|reflexivity|]. fields. eapply setc; [exact H0|left; reflexivity].
  - (* queue *)
    destruct (queued_set l x (mkL (l_cap x) (l_queue x ++ [(length (u_chans s), a)]) true) s
      (set_lst s l (mkL (l_cap x) (l_queue x ++ [(length (u_chans s), a)]) true)) H1 eq_refl) as (q1 & q2 & E1 & E2).
    assert (E3 : queued (set_task (add_chan (set_lst s l (mkL (l_cap x) (l_queue x ++ [(length (u_chans s), a)]) true))
                   (mkC a 32 [] 0 true)) (Queued p a (length (u_chans s)))) = q1 ++ (l_queue x ++ [(length (u_chans s), a)]) ++ q2) by exact E2.
    rewrite E3. cbn [opened app]. rewrite app_nil_r.
    assert (Q : forall c b, In (c, b) (q1 ++ (l_queue x ++ [(length (u_chans s), a)]) ++ q2) ->
       In (c, b) (queued s) \/ (c = length (u_chans s) /\ b = a)).
    { intros c b. rewrite E1, !in_app_iff. cbn [In]. intros [?|[[?|[[= <- <-]|[]]]|?]]; tauto. }
    assert (new : is_chan (set_task (add_chan (set_lst s l (mkL (l_cap x) (l_queue x ++ [(length (u_chans s), a)]) true))
                   (mkC a 32 [] 0 true)) (Queued p a (length (u_chans s)))) (length (u_chans s)) a).
    { exists (mkC a 32 [] 0 true). split; [fields; apply nth_app_last|reflexivity]. }
    split; [intros; eapply is_chan_grows; [exact G|apply IO; assumption]|].
    split; [intros c b Hi; destruct (Q c b Hi) as [Hi'|[-> ->]]; [eapply is_chan_grows; [exact G|apply IQ; exact Hi']|exact new]|].
    split.
    + intros c b ch Hi Hk. apply nth_app_cases in Hk as [Hk|[-> ->]]; [|reflexivity].
      destruct (Q c b Hi) as [Hi'|[-> ->]]; [eapply IA; eassumption|]. apply nth_lt in Hk. lia.
    + eapply Permutation_NoDup; [|apply (NoDup_cons (length (u_chans s)) (l := map fst (opened tr ++ queued s))); [|exact ID]].
      * rewrite E1. rewrite !map_app. cbn [map fst].
        rewrite <- !app_assoc. cbn [app]. apply perm4.
      * rewrite in_map_iff. intros ((c & b) & Ec & Hi). cbn in Ec. subst c. apply in_app_iff in Hi as [Hi|Hi].
        -- destruct (IO _ _ Hi) as (ch & Hc & _). apply nth_lt in Hc. lia.
        -- destruct (IQ _ _ Hi) as (ch & Hc & _). apply nth_lt in Hc. lia.
  - apply plain; [reflexivity|reflexivity|]. fields. eapply setc; [exact H0|left; reflexivity].
  - (* connect *)
    cbn [opened]. unfold queued. fields. fold (queued s).
    assert (new : is_chan (set_receivers (add_chan s (mkC a 8 [] 0 true)) (map_insert N.eqb a (length (u_chans s)) (u_receivers s))) (length (u_chans s)) a).
    { exists (mkC a 8 [] 0 true). split; [fields; apply nth_app_last|reflexivity]. }
    split; [intros c b Hi; apply in_app_iff in Hi as [Hi|[[= <- <-]|[]]]; [eapply is_chan_grows; [exact G|apply IO; exact Hi]|exact new]|].
    split; [intros; eapply is_chan_grows; [exact G|apply IQ; assumption]|].
    split.
    + intros c b ch Hi Hk. apply nth_app_cases in Hk as [Hk|[-> ->]]; [|reflexivity]. eapply IA; eassumption.
    + eapply Permutation_NoDup; [|apply (NoDup_cons (length (u_chans s)) (l := map fst (opened tr ++ queued s))); [|exact ID]].
      * rewrite !map_app. cbn [map fst]. rewrite <- app_assoc. cbn [app]. apply Permutation_middle.
      * rewrite in_map_iff. intros ((c & b) & Ec & Hi). cbn in Ec. subst c. apply in_app_iff in Hi as [Hi|Hi].
        -- destruct (IO _ _ Hi) as (ch & Hc & _). apply nth_lt in Hc. lia.
        -- destruct (IQ _ _ Hi) as (ch & Hc & _). apply nth_lt in Hc. lia.
  - (* listen *)
    cbn [opened]. unfold queued. fields. rewrite flat_map_app. cbn [flat_map l_queue app]. rewrite !app_nil_r. fold (queued s).
    split; [intros; eapply is_chan_grows; [exact G|apply IO; assumption]|].
    split; [intros; eapply is_chan_grows; [exact G|apply IQ; assumption]|]. split; [exact IA|exact ID].
  - (* accept *)
    destruct (queued_set l x (mkL (l_cap x) q true) s (set_lst s l (mkL (l_cap x) q true)) H eq_refl) as (q1 & q2 & E1 & E2).
    rewrite H1 in E1. cbn [l_queue] in E2. rewrite E2. cbn [opened].
    assert (Q : forall k b, In (k, b) (q1 ++ q ++ q2) -> In (k, b) (queued s)).
    { intros k b. rewrite E1, !in_app_iff. cbn [In]. tauto. }
    assert (Hc : is_chan s c a). { apply IQ. rewrite E1. rewrite !in_app_iff. cbn [In app]. tauto. }
    split; [intros k b Hi; eapply is_chan_grows; [exact G|]; apply in_app_iff in Hi as [Hi|[[= <- <-]|[]]]; [apply IO; exact Hi|exact Hc]|].
    split; [intros; eapply is_chan_grows; [exact G|apply IQ; apply Q; assumption]|].
    split; [intros k b ch Hi Hk; eapply IA; [apply Q; exact Hi|exact Hk]|].
    eapply Permutation_NoDup; [|exact ID]. rewrite E1. rewrite !map_app. cbn [map fst app]. rewrite <- app_assoc. apply Permutation_app_head.
    cbn [app]. symmetry. apply Permutation_middle.
  - (* no accept *)
    apply plain; [destruct H2 as [->| ->]; reflexivity|reflexivity|exact IA].
  - (* recv *)
    destruct (i_chan _ _ I c ch H) as (_ & _ & _ & D & _).
    destruct (recv_cases _ _ _ _ H2 D) as (E1 & E2 & E3 & E4 & E5 & E6 & E7 & E8).
    apply plain; [cbn [opened]; destruct o; try reflexivity; contradiction|reflexivity|]. fields. eapply setc; [exact H|left; exact E4].
  - (* drop receiver *)
    apply plain; [reflexivity|reflexivity|]. fields. eapply setc; [exact H|right]. apply waiting_false. exact H1.
  - (* drop listener *)
    destruct (drop_all_other (l_queue x) (set_lst s l (mkL (l_cap x) [] false))) as (_ & _ & _ & _ & EL & _ & _). fields.
    destruct (queued_set l x (mkL (l_cap x) [] false) s (set_lst s l (mkL (l_cap x) [] false)) H eq_refl) as (q1 & q2 & E1 & E2).
    assert (E3 : queued (drop_all (l_queue x) (set_lst s l (mkL (l_cap x) [] false))) = q1 ++ q2).
    { unfold queued. rewrite EL. exact E2. }
    rewrite E3. cbn [opened]. rewrite app_nil_r.
    assert (Q : forall k b, In (k, b) (q1 ++ q2) -> In (k, b) (queued s)).
    { intros k b. rewrite E1, !in_app_iff. tauto. }
    split; [intros; eapply is_chan_grows; [exact G|apply IO; assumption]|].
    split; [intros; eapply is_chan_grows; [exact G|apply IQ; apply Q; assumption]|].
    rewrite E1, map_app, !map_app in ID.
    assert (ND : NoDup (map fst (q1 ++ l_queue x ++ q2))).
    { rewrite !map_app. clear - ID. induction (map fst (opened tr)); [exact ID|]. inversion ID; auto. }
    split.
    + intros k b ch Hi Hk. apply drop_all_cases in Hk as (ch0 & Hk & ->). fields.
      destruct (existsb (fun e => fst e =? k) (l_queue x)) eqn:EX; [exfalso|eapply IA; [apply Q; exact Hi|exact Hk]].
      apply existsb_queue in EX as (b' & EX).
      assert (P : Permutation (map fst (q1 ++ l_queue x ++ q2)) (map fst (q1 ++ q2) ++ map fst (l_queue x))).
      { rewrite !map_app, <- app_assoc. apply Permutation_app_head. apply Permutation_app_comm. }
      apply (Permutation_NoDup P) in ND.
      assert (A1 : In k (map fst (q1 ++ q2))) by (apply in_map_iff; exists (k, b); split; [reflexivity|exact Hi]).
      assert (A2 : In k (map fst (l_queue x))) by (apply in_map_iff; exists (k, b'); split; [reflexivity|exact EX]).
      clear - ND A1 A2. induction (map fst (q1 ++ q2)) as [|z zs IH]; [destruct A1|]. inversion ND; subst.
      destruct A1 as [->|A1]; [apply H1; apply in_app_iff; right; exact A2|apply IH; assumption].
    + rewrite !map_app. clear - ID.
      assert (P : Permutation (map fst (opened tr) ++ map fst q1 ++ map fst (l_queue x) ++ map fst q2)
                   (map fst (l_queue x) ++ map fst (opened tr) ++ map fst q1 ++ map fst q2)).
      { rewrite (Permutation_app_swap_app (map fst q1) (map fst (l_queue x)) (map fst q2)). apply Permutation_app_swap_app. }
      apply (Permutation_NoDup P) in ID. clear P. induction (map fst (l_queue x)); [exact ID|]. inversion ID; auto.
Qed.

Lemma apart_step tr s e o s' : inv tr s -> stepped s e o s' ->
  forall c1 c2 ch1 ch2 p q, nth_error (u_chans s') c1 = Some ch1 -> nth_error (u_chans s') c2 = Some ch2 ->
    c1 <> c2 -> In p (c_sent ch1) -> In q (c_sent ch2) -> p_no p <> p_no q.
Proof.
  intros I S. assert (IP := i_apart _ _ I). assert (IC := i_chan _ _ I).
  (* each channel holds what it held, or one new datagram above all the others *)
  assert (K : forall c ch, nth_error (u_chans s') c = Some ch ->
    (exists ch0, nth_error (u_chans s) c = Some ch0 /\ c_sent ch = c_sent ch0) \/ c_sent ch = [] \/
    (exists ch0 p c', nth_error (u_chans s) c = Some ch0 /\ c_sent ch = c_sent ch0 ++ [p] /\ p_no p = bound s /\ c' = c /\
       forall k x, k <> c -> nth_error (u_chans s') k = Some x -> nth_error (u_chans s) k = Some x)).
  { destruct S; intros k xh Hk; fields; try (left; exists xh; split; [exact Hk|reflexivity]).
    - assert (Hk' := Hk). apply set_nth_cases in Hk as [[-> ->]|[Hd Hk]]; [|left; exists xh; split; [exact Hk|reflexivity]].
      right. right. exists ch, p, c. split; [exact H0|]. split; [reflexivity|]. split; [unfold bound; rewrite H; reflexivity|]. split; [reflexivity|].
      intros j x Hj Hx. rewrite set_nth_other in Hx by exact Hj. exact Hx.
    - apply nth_app_cases in Hk as [Hk|[-> ->]]; [left; exists xh; split; [exact Hk|reflexivity]|right; left; reflexivity].
    - assert (Hk' := Hk). apply set_nth_cases in Hk as [[-> ->]|[Hd Hk]]; [|left; exists xh; split; [exact Hk|reflexivity]].
      right. right. exists ch, p, c. split; [exact H0|]. split; [reflexivity|]. split; [unfold bound; rewrite H; reflexivity|]. split; [reflexivity|].
      intros j x Hj Hx. rewrite set_nth_other in Hx by exact Hj. exact Hx.
    - apply nth_app_cases in Hk as [Hk|[-> ->]]; [left; exists xh; split; [exact Hk|reflexivity]|right; left; reflexivity].
    - apply set_nth_cases in Hk as [[-> ->]|[Hd Hk]]; [|left; exists xh; split; [exact Hk|reflexivity]].
      left. exists ch. split; [exact H|]. destruct (IC _ _ H) as (_ & _ & _ & D & _).
      destruct (recv_cases _ _ _ _ H2 D) as (E1 & E2 & E3 & _). exact E3.
    - apply set_nth_cases in Hk as [[-> ->]|[Hd Hk]]; [|left; exists xh; split; [exact Hk|reflexivity]].
      left. exists ch. split; [exact H|reflexivity].
    - apply drop_all_cases in Hk as (ch & Hk & ->). fields. left. exists ch. split; [exact Hk|]. destruct (existsb _ _); reflexivity. }
  intros c1 c2 ch1 ch2 p q H1 H2 Hd Hp Hq.
  assert (low : forall c ch r, nth_error (u_chans s) c = Some ch -> In r (c_sent ch) -> p_no r < bound s).
  { intros c ch r Hc Hr. destruct (IC _ _ Hc) as (_ & _ & _ & _ & F). rewrite Forall_forall in F. apply F. exact Hr. }
  destruct (K _ _ H1) as [(x1 & X1 & E1)|[E1|(x1 & r1 & k1 & X1 & E1 & B1 & -> & O1)]]; [| rewrite E1 in Hp; destruct Hp |].
  - rewrite E1 in Hp.
    destruct (K _ _ H2) as [(x2 & X2 & E2)|[E2|(x2 & r2 & k2 & X2 & E2 & B2 & -> & O2)]]; [| rewrite E2 in Hq; destruct Hq |].
    + rewrite E2 in Hq. exact (IP c1 c2 x1 x2 p q X1 X2 Hd Hp Hq).
    + rewrite E2 in Hq. apply in_app_iff in Hq as [Hq|[<-|[]]]; [exact (IP c1 c2 x1 x2 p q X1 X2 Hd Hp Hq)|].
      assert (L := low _ _ _ X1 Hp). lia.
  - assert (Y2 := O1 c2 ch2 (fun E => Hd (eq_sym E)) H2). rewrite E1 in Hp. apply in_app_iff in Hp as [Hp|[<-|[]]]; [exact (IP c1 c2 x1 ch2 p q X1 Y2 Hd Hp Hq)|].
    assert (L := low _ _ _ Y2 Hq). lia.
Qed.

Lemma delivered_step tr s e o s' : inv tr s -> stepped s e o s' ->
  (forall p, In p (delivered (tr ++ [(e, o)])) -> exists c ch i,
    nth_error (u_chans s') c = Some ch /\ i < c_next ch /\ nth_error (c_sent ch) i = Some p) /\
  NoDup (map p_no (delivered (tr ++ [(e, o)]))).
Proof.
  intros I S. assert (IC := i_chan _ _ I). assert (ID := i_delivered _ _ I). assert (IO := i_once _ _ I).
  rewrite delivered_app.
  (* channels keep what was read from them *)
  assert (K : forall c ch i p, nth_error (u_chans s) c = Some ch -> i < c_next ch -> nth_error (c_sent ch) i = Some p ->
    exists ch', nth_error (u_chans s') c = Some ch' /\ i < c_next ch' /\ nth_error (c_sent ch') i = Some p).
  { intros k xh i p Hk Hi Hp. destruct S; fields; try (exists xh; repeat split; assumption).
    - destruct (Nat.eq_dec k c) as [->|Hd]; [|exists xh; rewrite set_nth_other by exact Hd; repeat split; assumption].
      rewrite H0 in Hk. injection Hk as <-. eexists. rewrite set_nth_same by (exact (nth_lt _ _ _ H0)). split; [reflexivity|]. cbn [c_next c_sent].
      split; [exact Hi|apply nth_app_old; exact Hp].
    - exists xh. split; [apply nth_app_old; exact Hk|split; assumption].
    - destruct (Nat.eq_dec k c) as [->|Hd]; [|exists xh; rewrite set_nth_other by exact Hd; repeat split; assumption].
      rewrite H0 in Hk. injection Hk as <-. eexists. rewrite set_nth_same by (exact (nth_lt _ _ _ H0)). split; [reflexivity|]. cbn [c_next c_sent].
      split; [exact Hi|apply nth_app_old; exact Hp].
    - exists xh. split; [apply nth_app_old; exact Hk|split; assumption].
    - destruct (Nat.eq_dec k c) as [->|Hd]; [|exists xh; rewrite set_nth_other by exact Hd; repeat split; assumption].
      rewrite H in Hk. injection Hk as <-. destruct (IC _ _ H) as (_ & _ & _ & D & _).
      destruct (recv_cases _ _ _ _ H2 D) as (E1 & E2 & E3 & E4 & E5 & _).
      exists ch'. rewrite set_nth_same by (exact (nth_lt _ _ _ H)). rewrite E3. split; [reflexivity|]. split; [lia|exact Hp].
    - destruct (Nat.eq_dec k c) as [->|Hd]; [|exists xh; rewrite set_nth_other by exact Hd; repeat split; assumption].
      rewrite H in Hk. injection Hk as <-. exists (drop_rx ch). rewrite set_nth_same by (exact (nth_lt _ _ _ H)).
      split; [reflexivity|]. split; assumption.
    - exists (if existsb (fun e => fst e =? k) (l_queue x) then drop_rx xh else xh).
      rewrite (drop_all_chan (l_queue x) (set_lst s l (mkL (l_cap x) [] false)) k xh Hk).
      split; [reflexivity|]. destruct (existsb _ _); split; assumption. }
  assert (old : forall p, In p (delivered tr) -> exists c ch i,
    nth_error (u_chans s') c = Some ch /\ i < c_next ch /\ nth_error (c_sent ch) i = Some p).
  { intros p Hp. destruct (ID p Hp) as (c & ch & i & Hc & Hi & Hp'). destruct (K _ _ _ _ Hc Hi Hp') as (ch' & A). exists c, ch', i. exact A. }
  assert (plain : delivered [(e, o)] = [] ->
    (forall p, In p (delivered tr ++ delivered [(e, o)]) -> exists c ch i,
      nth_error (u_chans s') c = Some ch /\ i < c_next ch /\ nth_error (c_sent ch) i = Some p) /\
    NoDup (map p_no (delivered tr ++ delivered [(e, o)]))).
  { intros ->. rewrite app_nil_r. split; assumption. }
  destruct S; try (apply plain; reflexivity).
  - destruct H2 as [->| ->]; apply plain; reflexivity.
  - destruct (IC _ _ H) as (_ & B & _ & D & _).
    destruct (recv_cases _ _ _ _ H2 D) as (E1 & E2 & E3 & E4 & E5 & E6 & E7 & E8).
    destruct o; try contradiction; try (apply plain; reflexivity).
    destruct E8 as [En Ep]. cbn [delivered]. split.
    + intros q Hq. apply in_app_iff in Hq as [Hq|[<-|[]]]; [apply old; exact Hq|].
      exists c, ch', (c_next ch). fields. rewrite set_nth_same by (exact (nth_lt _ _ _ H)). rewrite E3, En. split; [reflexivity|]. split; [lia|exact Ep].
    + rewrite map_app. cbn [map].
      eapply Permutation_NoDup; [apply Permutation_cons_append|]. constructor; [|exact IO].
      rewrite in_map_iff. intros (q & Eq & Hq). destruct (ID q Hq) as (c' & xh & i & Hc' & Hi & Hq').
      destruct (Nat.eq_dec c' c) as [->|Hd].
      * rewrite H in Hc'. injection Hc' as <-. assert (L := sorted_nth _ _ _ _ _ B Hq' Ep Hi). lia.
      * refine (i_apart _ _ I c' c xh ch q p Hc' H Hd _ _ Eq); eapply nth_error_In; eassumption.
Qed.

Lemma inv_step tr s e o s' : inv tr s -> stepped s e o s' -> inv (tr ++ [(e, o)]) s'.
Proof.
  intros I S. assert (G := step_grows _ _ _ _ S (fun c ch H => proj1 (proj2 (proj2 (proj2 (i_chan _ _ I c ch H)))))).
  destruct (ids_step _ _ _ _ _ I S) as (J1 & J2 & J3 & J4). destruct (delivered_step _ _ _ _ _ I S) as (J5 & J6).
  constructor; try assumption.
  - rewrite (step_count _ _ _ _ S), (i_count _ _ I), arrivals_app, app_length. reflexivity.
  - exact (chan_step _ _ _ _ _ I S).
  - exact (task_ok _ _ _ _ _ I S).
  - assert (IM := i_map _ _ I). assert (IT := i_task _ _ I).
    assert (old : forall a c, In (a, c) (u_receivers s) -> is_chan s' c a) by (intros; eapply is_chan_grows; [exact G|apply IM; assumption]).
    destruct S; fields; try exact old.
    + intros b c Hi. apply in_map_remove in Hi as [Hi _]. apply old. exact Hi.
    + intros b k Hi. apply in_map_insert in Hi as [[-> ->]|[Hi _]]; [|apply old; exact Hi]. rewrite H in IT. eapply is_chan_grows; [exact G|exact IT].
    + intros b k Hi. apply in_map_insert in Hi as [[-> ->]|[Hi _]]; [|apply old; exact Hi].
      exists (mkC a 8 [] 0 true). split; [fields; apply nth_app_last|reflexivity].
    + destruct (drop_all_other (l_queue x) (set_lst s l (mkL (l_cap x) [] false))) as (_ & -> & _). exact old.
  - assert (IL := i_listener _ _ I).
    destruct S; fields; try exact IL; try (rewrite set_nth_length; exact IL).
    + discriminate.
    + intros l [= <-]. rewrite app_length. cbn. lia.
    + destruct (drop_all_other (l_queue x) (set_lst s l (mkL (l_cap x) [] false))) as (_ & _ & -> & _ & -> & _). fields. rewrite set_nth_length. exact IL.
  - assert (IR := i_room _ _ I).
    destruct S; fields; try exact IR.
    + intros k y Hk. apply set_nth_cases in Hk as [[-> ->]|[_ Hk]]; [|eapply IR; exact Hk]. cbn [l_queue l_cap]. rewrite app_length. cbn. lia.
    + intros k y Hk. apply nth_app_cases in Hk as [Hk|[-> ->]]; [eapply IR; exact Hk|cbn; lia].
    + intros k y Hk. apply set_nth_cases in Hk as [[-> ->]|[_ Hk]]; [|eapply IR; exact Hk]. cbn [l_queue l_cap].
      assert (R := IR _ _ H). rewrite H1 in R. cbn [length] in R. lia.
    + destruct (drop_all_other (l_queue x) (set_lst s l (mkL (l_cap x) [] false))) as (_ & _ & _ & _ & -> & _). fields.
      intros k y Hk. apply set_nth_cases in Hk as [[-> ->]|[_ Hk]]; [cbn; lia|eapply IR; exact Hk].
  - exact (apart_step _ _ _ _ _ I S).
  - intros c Hc. rewrite received_app.
    assert (L : length (u_chans s) <= c /\ received c [(e, o)] = []).
    { destruct S; fields; try (split; [exact Hc|reflexivity]); try (rewrite set_nth_length in Hc; split; [exact Hc|reflexivity]);
        try (rewrite app_length in Hc; split; [lia|reflexivity]).
      - rewrite set_nth_length in Hc. split; [exact Hc|]. cbn. destruct (Nat.eqb_spec c0 c) as [->|_]; [|reflexivity].
        apply nth_lt in H. lia.
      - destruct (drop_all_other (l_queue x) (set_lst s l (mkL (l_cap x) [] false))) as (_ & _ & _ & _ & _ & _ & L). rewrite L in Hc. fields.
        split; [exact Hc|reflexivity]. }
    destruct L as [L ->]. rewrite app_nil_r. apply (i_nobody _ _ I). exact L.
Qed.

Lemma inv_history tr s : history tr s -> inv tr s.
Proof.
  induction 1 as [|tr s e s' o H IH St].
  - constructor; cbn.
    + reflexivity.
    + intros [|c] ch; discriminate.
    + exact I.
    + contradiction.
    + contradiction.
    + contradiction.
    + contradiction.
    + constructor.
    + discriminate.
    + intros [|l] x; discriminate.
    + intros [|c1] c2 ch1 ch2 p q; discriminate.
    + reflexivity.
    + contradiction.
    + constructor.
  - eapply inv_step; [exact IH|]. apply step_inv. exact St.
Qed.
