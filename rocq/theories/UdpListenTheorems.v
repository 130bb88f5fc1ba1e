(** Proofs of the statements in PropertiesUdpListen.v. *)
From Coq Require Import List NArith Bool PeanoNat Sorted Lia.
From Verif Require Import MapModel EndpointProofs UdpModel UdpSpec UdpProofs UdpInv UdpTheorems UdpListenSpec.
Import ListNotations.
Open Scope nat_scope.

Lemma accepted_app l t1 t2 : accepted l (t1 ++ t2) = accepted l t1 ++ accepted l t2.
Proof.
  induction t1 as [|[e o] t1 IH]; [reflexivity|]. cbn [app accepted]. destruct e; try exact IH. destruct o; try exact IH.
  destruct (_ =? _); [cbn [app]; f_equal|]; exact IH.
Qed.
Lemma accepted_listed l c a tr : In (c, a) (accepted l tr) -> In (EAccept l, OAccepted c a) tr.
Proof.
  induction tr as [|[e o] tr IH]; cbn; [tauto|]. intros H.
  destruct e; try (right; apply IH; exact H). destruct o; try (right; apply IH; exact H).
  destruct (Nat.eqb_spec l0 l) as [->|]; [|right; apply IH; exact H].
  destruct H as [[= -> ->]|H]; [left; reflexivity|right; apply IH; exact H].
Qed.

(** What one step does to the listeners. *)
Inductive moved (s : udp) (e : event) (o : obs) (s' : udp) : Prop :=
| m_same : u_lsts s' = u_lsts s -> (forall l c a, (e, o) <> (EAccept l, OAccepted c a)) -> (forall l, e <> EDropListener l) ->
    (forall l, o <> OListening l) -> (u_listener s' = u_listener s \/
      u_listener s' = None /\ exists l x, u_listener s = Some l /\ nth_error (u_lsts s) l = Some x /\ l_rx x = false) -> moved s e o s'
| m_queue p a l x : e = ETask -> o = OUnit -> u_task s = NewConn p a -> u_task s' = Queued p a (length (u_chans s)) ->
    u_chans s' = u_chans s ++ [mkC a 32 [] 0 true] ->
    u_listener s = Some l -> u_listener s' = Some l -> nth_error (u_lsts s) l = Some x -> l_rx x = true ->
    u_lsts s' = set_nth l (mkL (l_cap x) (l_queue x ++ [(length (u_chans s), a)]) true) (u_lsts s) -> moved s e o s'
| m_listen n : e = EListen n -> o = OListening (length (u_lsts s)) -> u_lsts s' = u_lsts s ++ [mkL n [] true] ->
    u_listener s' = Some (length (u_lsts s)) -> moved s e o s'
| m_accept l x c a q : e = EAccept l -> o = OAccepted c a -> nth_error (u_lsts s) l = Some x -> l_rx x = true -> l_queue x = (c, a) :: q ->
    u_lsts s' = set_nth l (mkL (l_cap x) q true) (u_lsts s) -> u_listener s' = u_listener s -> moved s e o s'
| m_drop l x : e = EDropListener l -> o = OUnit -> nth_error (u_lsts s) l = Some x -> l_rx x = true ->
    u_lsts s' = set_nth l (mkL (l_cap x) [] false) (u_lsts s) -> u_listener s' = u_listener s -> moved s e o s'.
Lemma step_moved s e o s' : stepped s e o s' -> moved s e o s'.
Proof.
  intros []; try (apply m_same; [reflexivity|intros; congruence|intros; congruence|intros; congruence|left; reflexivity]).
  - eapply m_queue; fields; try eassumption; reflexivity.
  - apply m_same; [reflexivity|intros; congruence|intros; congruence|intros; congruence|right]. fields. split; [reflexivity|]. exists l, x. auto.
  - eapply m_listen; reflexivity.
  - eapply m_accept; try eassumption; reflexivity.
  - destruct H2 as [->| ->]; (apply m_same; [reflexivity|intros; congruence|intros; congruence|intros; congruence|left; reflexivity]).
  - apply m_same; [reflexivity|intros; congruence|intros; congruence| |left; reflexivity].
    intros l E. unfold chan_recv in H2. cbv zeta in H2. destruct (_ <? _); [congruence|].
    destruct (nth_error (c_sent ch) (c_next ch)); [congruence|]. destruct (negb _); congruence.
  - destruct (drop_all_other (l_queue x) (set_lst s l (mkL (l_cap x) [] false))) as (_ & _ & L & _ & E & _). fields.
    eapply m_drop; try eassumption; reflexivity.
Qed.

(** Which listener is the last one. *)
Lemma last_snoc tr e o : last_listener (tr ++ [(e, o)]) = match o with OListening l => Some l | _ => last_listener tr end.
Proof. unfold last_listener. rewrite fold_left_app. reflexivity. Qed.
Record lines (tr : list (event * obs)) (s : udp) : Prop := mkLines {
  ln_made : forall l, l < length (u_lsts s) -> exists n x, In (EListen n, OListening l) tr /\ nth_error (u_lsts s) l = Some x /\ l_cap x = n /\
    (l_rx x = true <-> forall o, ~ In (EDropListener l, o) tr) /\ (l_rx x = false -> l_queue x = []);
  ln_back : forall n l, In (EListen n, OListening l) tr -> exists x, nth_error (u_lsts s) l = Some x /\ l_cap x = n;
  ln_accepts : forall l o, In (EAccept l, o) tr -> l < length (u_lsts s);
  ln_last : u_listener s = last_listener tr \/
    (u_listener s = None /\ exists l, last_listener tr = Some l /\ exists o, In (EDropListener l, o) tr);
  ln_some : forall l, last_listener tr = Some l -> l < length (u_lsts s);
  ln_drops : forall l o, In (EDropListener l, o) tr -> l < length (u_lsts s);
  ln_open : u_open s = false <-> In (EDropSocket, OUnit) tr;
  ln_task : u_task s = Stopped <-> In (EError, OUnit) tr
}.
Lemma in_snoc {A} (x y : A) l : In x (l ++ [y]) <-> In x l \/ y = x.
Proof. rewrite in_app_iff. cbn. tauto. Qed.
Lemma lines_step tr s e o s' : stepped s e o s' -> lines tr s -> lines (tr ++ [(e, o)]) s'.
Proof.
  intros S L. assert (M := step_moved _ _ _ _ S).
  assert (Op : (u_open s' = false <-> In (EDropSocket, OUnit) (tr ++ [(e, o)]))).
  { rewrite in_snoc, <- (ln_open _ _ L). destruct S; fields; try (split; [tauto|intros [?|?]; [assumption|discriminate]]).
    - destruct (drop_all_other (l_queue x) (set_lst s l (mkL (l_cap x) [] false))) as (E & _). fields. rewrite E.
      split; [tauto|intros [?|?]; [assumption|discriminate]].
    - tauto. }
  assert (Ta : (u_task s' = Stopped <-> In (EError, OUnit) (tr ++ [(e, o)]))).
  { rewrite in_snoc, <- (ln_task _ _ L). destruct S; fields;
      try (split; [intros Z; first [discriminate Z|left; exact Z]|intros [Z|Z]; [first [rewrite H in Z; discriminate Z|exact Z]|discriminate Z]]).
    - tauto.
    - destruct (drop_all_other (l_queue x) (set_lst s l (mkL (l_cap x) [] false))) as (_ & _ & _ & E & _). fields. rewrite E.
      split; [tauto|intros [?|?]; [assumption|discriminate]]. }
  destruct M as [EL NA ND NL LI|p a l x -> -> T T' EC L1 L2 Hx Rx EL|n -> -> EL LI|l x c a q -> -> Hx Rx Q EL LI|l x -> -> Hx Rx EL LI].
  - constructor; try assumption; rewrite ?EL.
    + intros l Hl. destruct (ln_made _ _ L l Hl) as (n & x & I1 & Hx & C & R & Q). exists n, x. split; [apply in_snoc; left; exact I1|].
      split; [exact Hx|]. split; [exact C|]. split; [|exact Q]. rewrite R. split; intros Z o' I'.
      * apply in_snoc in I' as [I'|I']; [exact (Z _ I')|]. injection I' as I' _. exact (ND _ I').
      * apply (Z o'). apply in_snoc. left. exact I'.
    + intros n l I'. apply in_snoc in I' as [I'|[= -> ->]]; [exact (ln_back _ _ L _ _ I')|]. exfalso. exact (NL _ eq_refl).
    + intros l o' I'. apply in_snoc in I' as [I'|I']; [exact (ln_accepts _ _ L _ _ I')|]. injection I' as -> ->.
      inversion S; subst; eapply nth_lt; eassumption.
    + rewrite last_snoc. assert (E : match o with OListening l => Some l | _ => last_listener tr end = last_listener tr).
      { destruct o; try reflexivity. exfalso. exact (NL _ eq_refl). } rewrite E.
      assert (In0 : forall l, (exists o0, In (EDropListener l, o0) tr) -> exists o0, In (EDropListener l, o0) (tr ++ [(e, o)])).
      { intros l (o0 & I0). exists o0. apply in_snoc. left. exact I0. }
      destruct LI as [LI|(LI & l & x & L1 & Hx & Rx)]; rewrite LI.
      * destruct (ln_last _ _ L) as [K|(K & l & E1 & E2)]; [left; exact K|right; split; [exact K|]; exists l; split; [exact E1|apply In0; exact E2]].
      * right. split; [reflexivity|]. destruct (ln_last _ _ L) as [K|(K & _)]; [|congruence]. exists l. split; [congruence|].
        destruct (ln_made _ _ L l (nth_lt _ _ _ Hx)) as (n & y & _ & Hy & _ & R & _). rewrite Hx in Hy. injection Hy as <-.
        apply In0. destruct (existsb (fun z => match fst z with EDropListener k => k =? l | _ => false end) tr) eqn:X.
        -- apply existsb_exists in X as ([e0 o0] & I0 & X). destruct e0; try discriminate X. apply Nat.eqb_eq in X. subst. exists o0. exact I0.
        -- exfalso. assert (R' : l_rx x = true); [|congruence]. apply R. intros o0 I0.
           assert (X' : existsb (fun z : event * obs => match fst z with EDropListener k => k =? l | _ => false end) tr = true); [|congruence].
           apply existsb_exists. exists (EDropListener l, o0). split; [exact I0|apply Nat.eqb_refl].
    + intros l. rewrite last_snoc. intros K. apply (ln_some _ _ L). destruct o; try exact K. exfalso. exact (NL _ eq_refl).
    + intros l o' I'. apply in_snoc in I' as [I'|I']; [exact (ln_drops _ _ L _ _ I')|]. injection I' as I' _. destruct (ND _ I').
  - constructor; try assumption; rewrite ?EL, ?set_nth_length.
    + intros k Hk. destruct (ln_made _ _ L k Hk) as (n & y & I1 & Hy & C & R & Q). exists n.
      destruct (Nat.eq_dec k l) as [->|Hd].
      * rewrite Hx in Hy. injection Hy as <-. eexists. split; [apply in_snoc; left; exact I1|]. rewrite set_nth_same by exact Hk.
        split; [reflexivity|]. cbn [l_cap l_rx l_queue]. split; [exact C|]. split; [|discriminate]. transitivity (l_rx x = true); [rewrite Rx; tauto|]. rewrite R.
        split; intros Z o' I'; [apply in_snoc in I' as [I'|I']; [exact (Z _ I')|discriminate I']|apply (Z o'); apply in_snoc; left; exact I'].
      * exists y. split; [apply in_snoc; left; exact I1|]. rewrite set_nth_other by exact Hd.
        split; [exact Hy|]. split; [exact C|]. split; [|exact Q]. rewrite R.
        split; intros Z o' I'; [apply in_snoc in I' as [I'|I']; [exact (Z _ I')|discriminate I']|apply (Z o'); apply in_snoc; left; exact I'].
    + intros n k I'. apply in_snoc in I' as [I'|I']; [|discriminate I']. destruct (ln_back _ _ L _ _ I') as (y & Hy & C).
      destruct (Nat.eq_dec k l) as [->|Hd]; [|exists y; rewrite set_nth_other by exact Hd; auto].
      rewrite Hx in Hy. injection Hy as <-. eexists. rewrite set_nth_same by exact (nth_lt _ _ _ Hx). split; [reflexivity|exact C].
    + intros k o' I'. apply in_snoc in I' as [I'|I']; [exact (ln_accepts _ _ L _ _ I')|discriminate I'].
    + rewrite last_snoc, L2, <- L1. destruct (ln_last _ _ L) as [K|(K & _)]; [left; exact K|congruence].
    + intros k. rewrite last_snoc. apply (ln_some _ _ L).
    + intros k o' I'. apply in_snoc in I' as [I'|I']; [exact (ln_drops _ _ L _ _ I')|discriminate I'].
  - constructor; try assumption; rewrite ?EL, ?app_length; cbn [length].
    + intros k Hk. destruct (Nat.eq_dec k (length (u_lsts s))) as [->|Hd].
      * exists n. eexists. split; [apply in_snoc; right; reflexivity|]. rewrite nth_app_last. split; [reflexivity|]. cbn [l_cap l_rx l_queue].
        split; [reflexivity|]. split; [|discriminate]. split; [intros _ o' I'|reflexivity].
        apply in_snoc in I' as [I'|I']; [|discriminate I']. apply (ln_drops _ _ L) in I'. lia.
      * destruct (ln_made _ _ L k) as (m & y & I1 & Hy & C & R & Q); [lia|]. exists m, y.
        split; [apply in_snoc; left; exact I1|]. split; [apply nth_app_old; exact Hy|]. split; [exact C|]. split; [|exact Q]. rewrite R.
        split; intros Z o' I'; [apply in_snoc in I' as [I'|I']; [exact (Z _ I')|discriminate I']|apply (Z o'); apply in_snoc; left; exact I'].
    + intros m k I'. apply in_snoc in I' as [I'|[= <- <-]].
      * destruct (ln_back _ _ L _ _ I') as (y & Hy & C). exists y. split; [apply nth_app_old; exact Hy|exact C].
      * eexists. rewrite nth_app_last. split; reflexivity.
    + intros k o' I'. apply in_snoc in I' as [I'|I']; [|discriminate I']. apply (ln_accepts _ _ L) in I'. lia.
    + rewrite last_snoc, LI. left. reflexivity.
    + intros k. rewrite last_snoc. intros [= <-]. lia.
    + intros k o' I'. apply in_snoc in I' as [I'|I']; [|discriminate I']. apply (ln_drops _ _ L) in I'. lia.
  - constructor; try assumption; rewrite ?EL, ?set_nth_length.
    + intros k Hk. destruct (ln_made _ _ L k Hk) as (n & y & I1 & Hy & C & R & Q'). exists n.
      destruct (Nat.eq_dec k l) as [->|Hd].
      * rewrite Hx in Hy. injection Hy as <-. eexists. split; [apply in_snoc; left; exact I1|]. rewrite set_nth_same by exact Hk.
        split; [reflexivity|]. cbn [l_cap l_rx l_queue]. split; [exact C|]. split; [|discriminate]. transitivity (l_rx x = true); [rewrite Rx; tauto|]. rewrite R.
        split; intros Z o' I'; [apply in_snoc in I' as [I'|I']; [exact (Z _ I')|discriminate I']|apply (Z o'); apply in_snoc; left; exact I'].
      * exists y. split; [apply in_snoc; left; exact I1|]. rewrite set_nth_other by exact Hd.
        split; [exact Hy|]. split; [exact C|]. split; [|exact Q']. rewrite R.
        split; intros Z o' I'; [apply in_snoc in I' as [I'|I']; [exact (Z _ I')|discriminate I']|apply (Z o'); apply in_snoc; left; exact I'].
    + intros n k I'. apply in_snoc in I' as [I'|I']; [|discriminate I']. destruct (ln_back _ _ L _ _ I') as (y & Hy & C).
      destruct (Nat.eq_dec k l) as [->|Hd]; [|exists y; rewrite set_nth_other by exact Hd; auto].
      rewrite Hx in Hy. injection Hy as <-. eexists. rewrite set_nth_same by exact (nth_lt _ _ _ Hx). split; [reflexivity|exact C].
    + intros k o' I'. apply in_snoc in I' as [I'|[= <- <-]]; [exact (ln_accepts _ _ L _ _ I')|exact (nth_lt _ _ _ Hx)].
    + rewrite last_snoc, LI. destruct (ln_last _ _ L) as [K|(K & k & E1 & o0 & E2)]; [left; exact K|right]. split; [exact K|].
      exists k. split; [exact E1|]. exists o0. apply in_snoc. left. exact E2.
    + intros k. rewrite last_snoc. apply (ln_some _ _ L).
    + intros k o' I'. apply in_snoc in I' as [I'|I']; [exact (ln_drops _ _ L _ _ I')|discriminate I'].
  - constructor; try assumption; rewrite ?EL, ?set_nth_length.
    + intros k Hk. destruct (ln_made _ _ L k Hk) as (n & y & I1 & Hy & C & R & Q'). exists n.
      destruct (Nat.eq_dec k l) as [->|Hd].
      * rewrite Hx in Hy. injection Hy as <-. eexists. split; [apply in_snoc; left; exact I1|]. rewrite set_nth_same by exact Hk.
        split; [reflexivity|]. cbn [l_cap l_rx l_queue]. split; [exact C|]. split; [|reflexivity]. split; [discriminate|].
        intros Z. exfalso. apply (Z OUnit). apply in_snoc. right. reflexivity.
      * exists y. split; [apply in_snoc; left; exact I1|]. rewrite set_nth_other by exact Hd.
        split; [exact Hy|]. split; [exact C|]. split; [|exact Q']. rewrite R.
        split; intros Z o' I'; [apply in_snoc in I' as [I'|[= I' _]]; [exact (Z _ I')|congruence]|apply (Z o'); apply in_snoc; left; exact I'].
    + intros n k I'. apply in_snoc in I' as [I'|I']; [|discriminate I']. destruct (ln_back _ _ L _ _ I') as (y & Hy & C).
      destruct (Nat.eq_dec k l) as [->|Hd]; [|exists y; rewrite set_nth_other by exact Hd; auto].
      rewrite Hx in Hy. injection Hy as <-. eexists. rewrite set_nth_same by exact (nth_lt _ _ _ Hx). split; [reflexivity|exact C].
    + intros k o' I'. apply in_snoc in I' as [I'|I']; [exact (ln_accepts _ _ L _ _ I')|discriminate I'].
    + rewrite last_snoc, LI. destruct (ln_last _ _ L) as [K|(K & k & E1 & o0 & E2)]; [left; exact K|right]. split; [exact K|].
      exists k. split; [exact E1|]. exists o0. apply in_snoc. left. exact E2.
    + intros k. rewrite last_snoc. apply (ln_some _ _ L).
    + intros k o' I'. apply in_snoc in I' as [I'|[= <- <-]]; [exact (ln_drops _ _ L _ _ I')|exact (nth_lt _ _ _ Hx)].
Qed.
Lemma lines_history tr s : history tr s -> lines tr s.
Proof.
  induction 1 as [|tr s e s' o H IH St]; [|apply (lines_step _ _ _ _ _ (step_inv _ _ _ _ St) IH)].
  constructor; cbn; try tauto; try (intros; lia); try discriminate; try (split; [discriminate|tauto]).
Qed.

(** What one step does to the contents of the channels. *)
Lemma sent_step s e o s' c ch' : stepped s e o s' -> nth_error (u_chans s') c = Some ch' ->
  c_sent ch' = [] \/ exists ch, nth_error (u_chans s) c = Some ch /\
    (c_sent ch' = c_sent ch \/ exists p a, c_sent ch' = c_sent ch ++ [p] /\ (u_task s = Got p a c \/ u_task s = Queued p a c)).
Proof.
  intros S Hc. destruct S; fields; try (right; exists ch'; split; [exact Hc|left; reflexivity]).
  - apply set_nth_cases in Hc as [[-> ->]|[Hd Hc]]; right; [|exists ch'; split; [exact Hc|left; reflexivity]].
    exists ch. split; [exact H0|right]. exists p, a. split; [reflexivity|left; exact H].
  - destruct (Nat.eq_dec c (length (u_chans s))) as [->|Hd].
    + rewrite nth_app_last in Hc. injection Hc as <-. left. reflexivity.
    + right. exists ch'. split; [|left; reflexivity]. assert (Hl := nth_lt _ _ _ Hc). rewrite app_length in Hl. cbn in Hl.
      rewrite nth_error_app1 in Hc by lia. exact Hc.
  - apply set_nth_cases in Hc as [[-> ->]|[Hd Hc]]; right; [|exists ch'; split; [exact Hc|left; reflexivity]].
    exists ch. split; [exact H0|right]. exists p, a. split; [reflexivity|right; exact H].
  - destruct (Nat.eq_dec c (length (u_chans s))) as [->|Hd].
    + rewrite nth_app_last in Hc. injection Hc as <-. left. reflexivity.
    + right. exists ch'. split; [|left; reflexivity]. assert (Hl := nth_lt _ _ _ Hc). rewrite app_length in Hl. cbn in Hl.
      rewrite nth_error_app1 in Hc by lia. exact Hc.
  - apply set_nth_cases in Hc as [[-> ->]|[Hd Hc]]; right; [|exists ch'; split; [exact Hc|left; reflexivity]].
    exists ch. split; [exact H|left]. unfold chan_recv in H2. cbv zeta in H2. destruct (_ <? _); [injection H2 as <- _; reflexivity|].
    destruct (nth_error (c_sent ch) (c_next ch)); injection H2 as <- _; reflexivity.
  - apply set_nth_cases in Hc as [[-> ->]|[Hd Hc]]; right; [|exists ch'; split; [exact Hc|left; reflexivity]].
    exists ch. split; [exact H|left; reflexivity].
  - apply drop_all_cases in Hc as (ch & Hc & ->). fields. right. exists ch. split; [exact Hc|left]. destruct (existsb _ _); reflexivity.
Qed.

(** The datagrams that made the connections of a listener. *)
Definition after (s : udp) : nat :=
  match u_task s with
  | Arrived p _ | Got p _ _ | Failed p _ | NewConn p _ => p_no p
  | Queued p _ _ => S (p_no p)
  | Idle | Sent _ _ | Stopped => u_count s
  end.
Lemma after_mono tr s e o s' : inv tr s -> stepped s e o s' -> after s <= after s'.
Proof.
  intros I S. assert (IC := i_count _ _ I). assert (IT := i_task _ _ I). unfold after.
  destruct S; fields; try (rewrite H in * ); try lia; try (cbn [p_no]; lia);
    try (apply arrived_lt in IT; lia); try (destruct IT as [IT _]; apply arrived_lt in IT; lia).
  destruct (drop_all_other (l_queue x) (set_lst s l (mkL (l_cap x) [] false))) as (_ & _ & _ & -> & _ & -> & _). fields. lia.
Qed.
Definition makes (tr : list (event * obs)) (s : udp) (e : nat * N) (p : packet) : Prop :=
  arrived (snd e) tr p /\ forall ch, nth_error (u_chans s) (fst e) = Some ch -> Forall (fun q => p_no p <= p_no q) (c_sent ch).
Definition made (l : nat) (tr : list (event * obs)) (s : udp) (ps : list packet) : Prop :=
  Forall2 (makes tr s) (accepted l tr ++ in_line s l) ps /\ in_order ps /\ Forall (fun p => p_no p < after s) ps.

Lemma Forall2_weak {A B} (P Q : A -> B -> Prop) (R : B -> Prop) l m :
  (forall x y, P x y -> R y -> Q x y) -> Forall2 P l m -> Forall R m -> Forall2 Q l m.
Proof. intros H. induction 1 as [|x y l m Hp F IH]; intros G; inversion G; subst; constructor; auto. Qed.
Lemma in_order_app ps qs : in_order (ps ++ qs) -> in_order ps.
Proof.
  induction ps as [|p ps IH]; intros H; [constructor|]. inversion H; subst. constructor; [apply IH; assumption|].
  apply Forall_app in H3 as [? _]. assumption.
Qed.
Lemma accepted_one l e o : (forall c a, (e, o) <> (EAccept l, OAccepted c a)) -> accepted l [(e, o)] = [].
Proof.
  intros H. cbn [accepted]. destruct e as [| | | | |k| | | |]; try reflexivity. destruct o; try reflexivity.
  destruct (Nat.eqb_spec k l) as [->|]; [|reflexivity]. exfalso. exact (H _ _ eq_refl).
Qed.
(** How the connections of a listener change in one step. *)
Lemma line_step tr s e o s' l : lines tr s -> stepped s e o s' ->
  (accepted l (tr ++ [(e, o)]) ++ in_line s' l = accepted l tr ++ in_line s l) \/
  (exists p a, u_task s = NewConn p a /\ u_task s' = Queued p a (length (u_chans s)) /\ u_listener s = Some l /\
     u_chans s' = u_chans s ++ [mkC a 32 [] 0 true] /\
     accepted l (tr ++ [(e, o)]) ++ in_line s' l = (accepted l tr ++ in_line s l) ++ [(length (u_chans s), a)]) \/
  (e = EDropListener l /\ accepted l (tr ++ [(e, o)]) ++ in_line s' l = accepted l tr).
Proof.
  intros L S. rewrite accepted_app. unfold in_line.
  destruct (step_moved _ _ _ _ S) as [EL NA ND NL LI|p a k x -> -> T T' EC L1 L2 Hx Rx EL|n -> -> EL LI|k x c a q -> -> Hx Rx Q EL LI|k x -> -> Hx Rx EL LI].
  - left. rewrite EL, accepted_one, app_nil_r by apply NA. reflexivity.
  - rewrite accepted_one, app_nil_r, EL by discriminate. destruct (Nat.eq_dec l k) as [->|Hd].
    + right. left. exists p, a. split; [exact T|]. split; [exact T'|]. split; [exact L1|]. split; [exact EC|].
      rewrite set_nth_same by exact (nth_lt _ _ _ Hx). rewrite Hx. cbn [l_queue]. rewrite app_assoc. reflexivity.
    + left. rewrite set_nth_other by exact Hd. reflexivity.
  - left. rewrite accepted_one, app_nil_r, EL by discriminate. destruct (Nat.lt_trichotomy l (length (u_lsts s))) as [Hl|[->|Hl]].
    + rewrite nth_error_app1 by exact Hl. reflexivity.
    + rewrite nth_app_last. assert (E : nth_error (u_lsts s) (length (u_lsts s)) = None) by (apply nth_error_None; lia). rewrite E. reflexivity.
    + assert (E : nth_error (u_lsts s) l = None) by (apply nth_error_None; lia).
      assert (E' : nth_error (u_lsts s ++ [mkL n [] true]) l = None) by (apply nth_error_None; rewrite app_length; cbn; lia). rewrite E, E'. reflexivity.
  - left. rewrite EL. cbn [accepted]. destruct (Nat.eqb_spec k l) as [->|Hd].
    + rewrite set_nth_same by exact (nth_lt _ _ _ Hx). rewrite Hx. cbn [l_queue]. rewrite Q, <- app_assoc. reflexivity.
    + rewrite app_nil_r, set_nth_other by (intros ->; apply Hd; reflexivity). reflexivity.
  - rewrite accepted_one, app_nil_r, EL by discriminate. destruct (Nat.eq_dec l k) as [->|Hd].
    + right. right. split; [reflexivity|]. rewrite set_nth_same by exact (nth_lt _ _ _ Hx). apply app_nil_r.
    + left. rewrite set_nth_other by exact Hd. reflexivity.
Qed.
Lemma makes_step tr s e o s' x p : inv tr s -> stepped s e o s' -> makes tr s x p -> p_no p < after s -> makes (tr ++ [(e, o)]) s' x p.
Proof.
  intros I S [A B] Lt. split; [apply arrived_more; exact A|]. intros ch Hc.
  destruct (sent_step _ _ _ _ _ _ S Hc) as [->|(ch0 & H0 & [->|(q & a & -> & T)])]; [constructor|exact (B _ H0)|].
  apply Forall_app. split; [exact (B _ H0)|]. constructor; [|constructor].
  unfold after in Lt. destruct T as [T|T]; rewrite T in Lt; lia.
Qed.
Lemma made_step tr s e o s' l : inv tr s -> lines tr s -> stepped s e o s' ->
  (exists ps, made l tr s ps) -> exists ps, made l (tr ++ [(e, o)]) s' ps.
Proof.
  intros I L S (ps & F & O & B). assert (M := after_mono _ _ _ _ _ I S).
  assert (F' : Forall2 (makes (tr ++ [(e, o)]) s') (accepted l tr ++ in_line s l) ps).
  { eapply Forall2_weak; [|exact F|exact B]. cbn beta. intros x p. apply makes_step; assumption. }
  assert (B' : Forall (fun p => p_no p < after s') ps) by (eapply Forall_impl; [|exact B]; cbn beta; intros; lia).
  destruct (line_step _ _ _ _ _ l L S) as [E|[(p & a & T & T' & Li & EC & E)|(_ & E)]].
  - exists ps. unfold made. rewrite E. auto.
  - exists (ps ++ [p]). unfold made. rewrite E. unfold after in B. rewrite T in B. assert (IT := i_task _ _ I). rewrite T in IT.
    split; [|split].
    + apply Forall2_app; [exact F'|]. constructor; [|constructor]. split; [apply arrived_more; exact IT|].
      cbn [fst]. intros ch Hc. rewrite EC, nth_app_last in Hc. injection Hc as <-. constructor.
    + apply sorted_snoc; assumption.
    + apply Forall_app. split; [exact B'|]. constructor; [|constructor]. unfold after. rewrite T'. lia.
  - unfold made. rewrite E. apply Forall2_app_inv_l in F' as (p1 & p2 & F1 & _ & ->). exists p1.
    split; [exact F1|]. split; [exact (in_order_app _ _ O)|]. apply Forall_app in B' as [? _]. assumption.
Qed.
Lemma made_history tr s l : history tr s -> exists ps, made l tr s ps.
Proof.
  induction 1 as [|tr s e s' o H IH St].
  - exists []. unfold made, in_line. cbn. destruct l; repeat split; constructor.
  - eapply made_step; [apply inv_history; exact H|apply lines_history; exact H|apply step_inv; exact St|exact IH].
Qed.


(** Every connection of a listener has its own channel. *)
Definition apart (l : nat) (tr : list (event * obs)) (s : udp) : Prop :=
  NoDup (map fst (accepted l tr ++ in_line s l)) /\ Forall (fun e => fst e < length (u_chans s)) (accepted l tr ++ in_line s l).
Lemma NoDup_snoc {A} (l : list A) x : NoDup l -> ~ In x l -> NoDup (l ++ [x]).
Proof.
  induction l as [|y l IH]; intros D N; cbn; [repeat constructor; tauto|]. inversion D; subst. constructor.
  - rewrite in_app_iff. cbn. intros [?|[->|[]]]; [tauto|]. apply N. left. reflexivity.
  - apply IH; [assumption|]. intros Hi. apply N. right. exact Hi.
Qed.
Lemma NoDup_front {A} (l m : list A) : NoDup (l ++ m) -> NoDup l.
Proof.
  induction l as [|y l IH]; intros D; [constructor|]. inversion D; subst. constructor; [|apply IH; assumption].
  intros Hi. apply H1. apply in_app_iff. left. exact Hi.
Qed.
Lemma chans_mono s e o s' : stepped s e o s' -> length (u_chans s) <= length (u_chans s').
Proof.
  intros []; fields; rewrite ?set_nth_length, ?app_length; try lia.
  destruct (drop_all_other (l_queue x) (set_lst s l (mkL (l_cap x) [] false))) as (_ & _ & _ & _ & _ & _ & ->). fields. lia.
Qed.
Lemma apart_history tr s l : history tr s -> apart l tr s.
Proof.
  induction 1 as [|tr s e s' o H (D & B) St].
  - unfold apart, in_line. cbn. destruct l; split; constructor.
  - apply step_inv in St. assert (M := chans_mono _ _ _ _ St).
    assert (B' : Forall (fun e => fst e < length (u_chans s')) (accepted l tr ++ in_line s l)) by (eapply Forall_impl; [|exact B]; cbn beta; intros; lia).
    unfold apart. destruct (line_step _ _ _ _ _ l (lines_history _ _ H) St) as [->|[(p & a & T & T' & Li & EC & ->)|(_ & ->)]].
    + split; assumption.
    + split.
      * rewrite map_app. apply NoDup_snoc; [exact D|]. cbn [fst]. intros Hi. apply in_map_iff in Hi as (y & Ey & Hy).
        rewrite Forall_forall in B. apply B in Hy. lia.
      * apply Forall_app. split; [exact B'|]. constructor; [|constructor]. cbn [fst]. rewrite EC, app_length. cbn. lia.
    + rewrite map_app in D. apply NoDup_front in D. apply Forall_app in B' as [? _]. split; assumption.
Qed.

(** What is read from a connection was sent to it. *)
Lemma reads_data_in q os r p : reads q os r -> In (OData p) os -> In p q.
Proof.
  induction 1; intros Hi; cbn in Hi; try tauto.
  - destruct Hi as [[= <-]|Hi]; [left; reflexivity|right; auto].
  - destruct Hi as [Hi|Hi]; [discriminate|]. apply in_app_iff. right. auto.
  - destruct Hi as [Hi|Hi]; [discriminate|auto].
  - destruct Hi as [Hi|Hi]; [discriminate|auto].
Qed.
Lemma received_in c o tr : In (ERecv c, o) tr -> In o (received c tr).
Proof.
  induction tr as [|[e x] tr IH]; cbn; [tauto|]. intros [[= -> ->]|Hi].
  - rewrite Nat.eqb_refl. left. reflexivity.
  - destruct e; try (apply IH; exact Hi). destruct (_ =? _); [right|]; apply IH; exact Hi.
Qed.
Lemma makes_began tr s x p : inv tr s -> makes tr s x p -> began tr x p.
Proof.
  intros I [A B]. split; [exact A|]. intros q Hi. apply received_in in Hi.
  destruct (nth_error (u_chans s) (fst x)) as [ch|] eqn:Hc.
  - destruct (i_chan _ _ I _ _ Hc) as (_ & _ & R & _). assert (Hq := reads_data_in _ _ _ _ R Hi).
    specialize (B _ eq_refl). rewrite Forall_forall in B. apply B. exact Hq.
  - rewrite (i_nobody _ _ I) in Hi by (apply nth_error_None; exact Hc). destruct Hi.
Qed.

(** C94. *)
Lemma shared_gone tr s : lines tr s -> (shared s = false <-> all_gone tr).
Proof.
  intros L. unfold all_gone. rewrite <- (ln_open _ _ L), <- (ln_task _ _ L). unfold shared.
  destruct (u_open s), (u_task s); cbn; split; intros; try discriminate; try tauto; try (split; reflexivity); destruct H; discriminate.
Qed.
Lemma has_last tr s l : lines tr s -> (forall o, ~ In (EDropListener l, o) tr) ->
  (has_listener s l = true <-> last_listener tr = Some l /\ ~ all_gone tr).
Proof.
  intros L N. rewrite <- (shared_gone _ _ L). unfold has_listener. rewrite andb_true_iff.
  assert (E : (match u_listener s with Some l' => l' =? l | None => false end) = true <-> last_listener tr = Some l).
  { destruct (ln_last _ _ L) as [->|(-> & k & -> & o & Hi)].
    - destruct (last_listener tr) as [k|]; [|split; discriminate]. rewrite Nat.eqb_eq. split; congruence.
    - split; [discriminate|]. intros [= ->]. exfalso. exact (N _ Hi). }
  rewrite E, not_false_iff_true. tauto.
Qed.
Lemma accept_due tr s n l : history tr s -> In (EListen n, OListening l) tr -> (forall o, ~ In (EDropListener l, o) tr) ->
  length (in_line s l) <= n /\ NoDup (map fst (accepted l tr ++ in_line s l)) /\
  (exists first, Forall2 (began tr) (accepted l tr ++ in_line s l) first /\ in_order first) /\
  exists s' o, step s (EAccept l) = Some (s', o) /\
    match in_line s l with
    | (c, a) :: _ => o = OAccepted c a
    | [] => (o = OPending /\ last_listener tr = Some l /\ ~ all_gone tr) \/
            (o = OAcceptEnd /\ (last_listener tr <> Some l \/ all_gone tr))
    end.
Proof.
  intros H Hi N. assert (L := lines_history _ _ H). assert (I := inv_history _ _ H).
  destruct (ln_back _ _ L _ _ Hi) as (x & Hx & C).
  destruct (ln_made _ _ L l (nth_lt _ _ _ Hx)) as (n' & y & _ & Hy & _ & R & _). rewrite Hx in Hy. injection Hy as <-.
  assert (Rx : l_rx x = true) by (apply R; exact N).
  assert (EQ : in_line s l = l_queue x) by (unfold in_line; rewrite Hx; reflexivity).
  split; [rewrite EQ, <- C; exact (i_room _ _ I _ _ Hx)|]. split; [exact (proj1 (apart_history _ _ l H))|].
  split.
  { destruct (made_history _ _ l H) as (ps & F & O & B). exists ps. split; [|exact O].
    eapply Forall2_weak; [|exact F|exact B]. intros z p Z _. exact (makes_began _ _ _ _ I Z). }
  rewrite EQ. cbn [step]. rewrite Hx, Rx. destruct (l_queue x) as [|[c a] q].
  - eexists. eexists. split; [reflexivity|]. assert (HL := has_last _ _ _ L N). destruct (has_listener s l).
    + left. split; [reflexivity|]. apply HL. reflexivity.
    + right. split; [reflexivity|]. destruct (shared s) eqn:Sh.
      * left. intros E. enough (false = true) by discriminate. apply HL. split; [exact E|]. rewrite <- (shared_gone _ _ L). congruence.
      * right. apply (shared_gone _ _ L). exact Sh.
  - eexists. eexists. split; reflexivity.
Qed.

Lemma last_old tr s e o s' l : lines tr s -> stepped s e o s' -> l < length (u_lsts s) -> last_listener tr <> Some l ->
  l < length (u_lsts s') /\ last_listener (tr ++ [(e, o)]) <> Some l.
Proof.
  intros L S Hl N. rewrite last_snoc.
  destruct (step_moved _ _ _ _ S) as [EL NA ND NL LI|p a k x -> -> T T' EC L1 L2 Hx Rx EL|n -> -> EL LI|k x c a q -> -> Hx Rx Q EL LI|k x -> -> Hx Rx EL LI];
    rewrite EL, ?set_nth_length, ?app_length; (split; [cbn; lia|]); try exact N.
  - destruct o; try exact N. exfalso. exact (NL _ eq_refl).
  - intros [= E]. lia.
Qed.
(** A trace leads to one state. *)
Lemma history_fun tr s s' : history tr s -> history tr s' -> s = s'.
Proof.
  intros H. revert s'. induction H as [|tr s e s1 o H IH St]; intros s' H'.
  - inversion H' as [|? ? ? ? ? ? ? E]; [reflexivity|]. apply snoc_nil in E. destruct E.
  - apply history_snoc in H' as (s0 & H0 & St0). rewrite (IH _ H0) in St. congruence.
Qed.
Lemma line_grows tr1 s1 tr2 s l : history tr1 s1 -> history (tr1 ++ tr2) s -> (forall o, ~ In (EDropListener l, o) tr2) ->
  exists more, accepted l (tr1 ++ tr2) ++ in_line s l = accepted l tr1 ++ in_line s1 l ++ more /\
    ((exists n, In (EListen n, OListening l) tr1) -> last_listener tr1 <> Some l -> more = []).
Proof.
  intros H1 H N. destruct (history_split _ _ _ H) as (s1' & H1' & X). assert (s1' = s1) by (exact (history_fun _ _ _ H1' H1)). subst s1'. clear H1'.
  assert (K : (forall o, ~ In (EDropListener l, o) tr2) -> exists more, accepted l (tr1 ++ tr2) ++ in_line s l = accepted l tr1 ++ in_line s1 l ++ more /\
    ((exists n, In (EListen n, OListening l) tr1) -> last_listener tr1 <> Some l -> more = [] /\ l < length (u_lsts s) /\ last_listener (tr1 ++ tr2) <> Some l)).
  { clear H N. induction X as [|tr s e s' o X IH St]; intros N.
    - exists []. rewrite !app_nil_r. split; [reflexivity|]. intros (n & Hi) Z. split; [reflexivity|]. split; [|exact Z].
      destruct (ln_back _ _ (lines_history _ _ H1) _ _ Hi) as (x & Hx & _). exact (nth_lt _ _ _ Hx).
    - destruct IH as (more & E & Z); [intros o' Hi; apply (N o'); apply in_app_iff; left; exact Hi|].
      assert (H := exec_join _ _ _ _ H1 X). assert (L := lines_history _ _ H). apply step_inv in St. rewrite app_assoc.
      destruct (line_step _ _ _ _ _ l L St) as [E'|[(p & a & T & T' & Li & EC & E')|(-> & _)]].
      + exists more. rewrite E'. split; [exact E|]. intros A B. destruct (Z A B) as (Z1 & Z2 & Z3). split; [exact Z1|].
        exact (last_old _ _ _ _ _ _ L St Z2 Z3).
      + exists (more ++ [(length (u_chans s), a)]). rewrite E', E, <- !app_assoc. split; [reflexivity|]. intros A B. exfalso.
        destruct (Z A B) as (_ & _ & Z3). destruct (ln_last _ _ L) as [K|(K & _)]; congruence.
      + exfalso. apply (N o). apply in_app_iff. right. left. reflexivity. }
  destruct (K N) as (more & E & Z). exists more. split; [exact E|]. intros A B. exact (proj1 (Z A B)).
Qed.

Lemma shared_step s e o s' : stepped s e o s' -> shared s = false -> shared s' = false.
Proof.
  unfold shared. destruct 1; fields; intros E; try (rewrite H in E; rewrite orb_true_r in E; discriminate E); try exact E.
  - destruct (drop_all_other (l_queue x) (set_lst s l (mkL (l_cap x) [] false))) as (-> & _ & _ & -> & _). exact E.
  - rewrite H in E. discriminate E.
Qed.
Lemma ended_step tr s e o s' l : lines tr s -> stepped s e o s' -> in_line s l = [] -> l < length (u_lsts s) -> has_listener s l = false ->
  in_line s' l = [] /\ l < length (u_lsts s') /\ has_listener s' l = false /\ forall c a, (e, o) <> (EAccept l, OAccepted c a).
Proof.
  intros L S Q Hl HL. assert (Sh := shared_step _ _ _ _ S). unfold has_listener in *. unfold in_line in *.
  assert (HL' : shared s' = true -> u_listener s' = u_listener s -> match u_listener s' with Some l' => l' =? l | None => false end = false).
  { intros A ->. destruct (shared s); [exact HL|]. rewrite (Sh eq_refl) in A. discriminate A. }
  destruct (step_moved _ _ _ _ S) as [EL NA ND NL LI|p a k x -> -> T T' EC L1 L2 Hx Rx EL|n -> -> EL LI|k x c a q -> -> Hx Rx Q' EL LI|k x -> -> Hx Rx EL LI];
    rewrite EL, ?set_nth_length, ?app_length.
  - split; [exact Q|]. split; [exact Hl|]. split; [|apply NA]. destruct (shared s'); [|reflexivity]. cbn.
    destruct LI as [LI|(LI & _)]; [apply HL'; [reflexivity|exact LI]|rewrite LI; reflexivity].
  - assert (Hd : l <> k). { intros ->. rewrite L1 in HL. unfold shared in HL. rewrite T, orb_true_r, Nat.eqb_refl in HL. discriminate HL. }
    rewrite set_nth_other by exact Hd. split; [exact Q|]. split; [exact Hl|]. split; [|discriminate].
    destruct (shared s'); [|reflexivity]. cbn. rewrite L2. apply Nat.eqb_neq. congruence.
  - rewrite nth_error_app1 by exact Hl. split; [exact Q|]. split; [lia|]. split; [|discriminate].
    destruct (shared s'); [|reflexivity]. cbn. rewrite LI. apply Nat.eqb_neq. lia.
  - assert (Hd : l <> k). { intros ->. rewrite Hx in Q. rewrite Q in Q'. discriminate Q'. }
    rewrite set_nth_other by exact Hd. split; [exact Q|]. split; [exact Hl|]. split; [|congruence].
    destruct (shared s'); [|reflexivity]. cbn. apply HL'; [reflexivity|exact LI].
  - split; [|split; [exact Hl|split; [|discriminate]]].
    + destruct (Nat.eq_dec l k) as [->|Hd]; [rewrite set_nth_same by exact Hl; reflexivity|rewrite set_nth_other by exact Hd; exact Q].
    + destruct (shared s'); [|reflexivity]. cbn. apply HL'; [reflexivity|exact LI].
Qed.
Lemma end_is_final tr1 l tr2 s : history (tr1 ++ (EAccept l, OAcceptEnd) :: tr2) s ->
  (forall o, In (EAccept l, o) tr2 -> o = OAcceptEnd) /\ (forall s' o, step s (EAccept l) = Some (s', o) -> o = OAcceptEnd).
Proof.
  intros H. destruct (history_split _ _ _ H) as (s1 & H1 & X). apply exec_one in X as (s2 & St & X).
  assert (H2 := history_step _ _ _ _ _ H1 St).
  assert (P : in_line s2 l = [] /\ l < length (u_lsts s2) /\ has_listener s2 l = false).
  { cbn [step] in St. unfold in_line. destruct (nth_error (u_lsts s1) l) as [x|] eqn:Hx; [|discriminate]. destruct (l_rx x); [|discriminate].
    destruct (l_queue x) as [|[c a] q] eqn:Q; [|discriminate]. destruct (has_listener s1 l) eqn:HL; [discriminate|]. injection St as <-.
    rewrite Hx. split; [exact Q|]. split; [exact (nth_lt _ _ _ Hx)|exact HL]. }
  assert (ans : forall s0 s' o, in_line s0 l = [] -> has_listener s0 l = false -> step s0 (EAccept l) = Some (s', o) -> o = OAcceptEnd).
  { intros s0 s' o Q HL St0. cbn [step] in St0. unfold in_line in Q. destruct (nth_error (u_lsts s0) l) as [x|]; [|discriminate].
    destruct (l_rx x); [|discriminate]. rewrite Q, HL in St0. congruence. }
  assert (K : (in_line s l = [] /\ l < length (u_lsts s) /\ has_listener s l = false) /\ forall o, In (EAccept l, o) tr2 -> o = OAcceptEnd).
  { clear H. induction X as [|tr s e s' o X IH St']; [split; [exact P|intros ? []]|]. destruct IH as [(A & B & C) D].
    assert (H := exec_join _ _ _ _ H2 X).
    destruct (ended_step _ _ _ _ _ l (lines_history _ _ H) (step_inv _ _ _ _ St') A B C) as (A' & B' & C' & _). split; [auto|].
    intros o' Hi. apply in_snoc in Hi as [Hi|[= -> ->]]; [exact (D _ Hi)|]. exact (ans _ _ _ A C St'). }
  destruct K as [(A & B & C) D]. split; [exact D|]. intros s' o. apply ans; assumption.
Qed.

(** Dropped listeners. *)
Lemma rx_gone s e o s' c ch : stepped s e o s' -> nth_error (u_chans s) c = Some ch -> c_rx ch = false ->
  exists ch', nth_error (u_chans s') c = Some ch' /\ c_rx ch' = false.
Proof.
  intros S Hc R. destruct S; fields; try (exists ch; split; [exact Hc|exact R]); try (exists ch; split; [apply nth_app_old; exact Hc|exact R]);
    try (match goal with |- context [set_nth ?k _ _] => destruct (Nat.eq_dec c k) as [->|Hd] end; [exfalso; congruence|exists ch; split; [rewrite set_nth_other by exact Hd; exact Hc|exact R]]).
  eexists. split; [apply drop_all_chan; exact Hc|]. destruct (existsb _ _); [reflexivity|exact R].
Qed.
Lemma dropped_line tr1 s1 l o tr2 s c a : history tr1 s1 -> In (c, a) (in_line s1 l) -> history (tr1 ++ (EDropListener l, o) :: tr2) s ->
  (forall s' o', step s (ERecv c) <> Some (s', o')) /\ (MapModel.map_get N.eqb a (u_receivers s) = Some c -> unknown_peer s a).
Proof.
  intros H1 Hi H. destruct (history_split _ _ _ H) as (s1' & H1' & X). assert (s1' = s1) by (exact (history_fun _ _ _ H1' H1)). subst s1'.
  apply exec_one in X as (s2 & St & X). assert (I := inv_history _ _ H1).
  assert (P : exists ch, nth_error (u_chans s2) c = Some ch /\ c_rx ch = false).
  { unfold in_line in Hi. cbn [step] in St. destruct (nth_error (u_lsts s1) l) as [x|] eqn:Hx; [|destruct Hi].
    destruct (l_rx x); [|discriminate]. injection St as <- <-.
    destruct (i_queue _ _ I c a) as (ch & Hc & _); [apply in_flat_map; exists x; split; [exact (nth_error_In _ _ Hx)|exact Hi]|].
    eexists. split; [apply drop_all_chan; exact Hc|].
    assert (E : existsb (fun e => fst e =? c) (l_queue x) = true) by (apply existsb_exists; exists (c, a); split; [exact Hi|apply Nat.eqb_refl]).
    rewrite E. reflexivity. }
  assert (K : exists ch, nth_error (u_chans s) c = Some ch /\ c_rx ch = false).
  { clear H. induction X as [|tr s e s' o' X IH St']; [exact P|]. destruct IH as (ch & Hc & R). exact (rx_gone _ _ _ _ _ _ (step_inv _ _ _ _ St') Hc R). }
  destruct K as (ch & Hc & R). split.
  - intros s' o'. cbn [step]. rewrite Hc, R. discriminate.
  - intros G k Gk ch' Hk. assert (k = c) by congruence. subst k. congruence.
Qed.
Lemma drop_keeps tr s l s' o : history tr s -> step s (EDropListener l) = Some (s', o) ->
  in_line s' l = [] /\ (forall k, k <> l -> in_line s' k = in_line s k) /\
  (forall c, ~ In c (map fst (in_line s l)) -> nth_error (u_chans s') c = nth_error (u_chans s) c) /\
  u_receivers s' = u_receivers s /\ u_task s' = u_task s.
Proof.
  intros H St. cbn [step] in St. destruct (nth_error (u_lsts s) l) as [x|] eqn:Hx; [|discriminate]. destruct (l_rx x); [|discriminate].
  injection St as <- <-. unfold in_line. rewrite Hx.
  destruct (drop_all_other (l_queue x) (set_lst s l (mkL (l_cap x) [] false))) as (_ & -> & _ & -> & -> & _ & Ln). fields.
  split; [rewrite set_nth_same by exact (nth_lt _ _ _ Hx); reflexivity|]. split; [intros k Hd; rewrite set_nth_other by exact Hd; reflexivity|].
  split; [|split; reflexivity]. intros c Hc. destruct (nth_error (u_chans s) c) as [ch|] eqn:E.
  - rewrite (drop_all_chan (l_queue x) (set_lst s l (mkL (l_cap x) [] false)) c ch E). f_equal.
    destruct (existsb (fun e => fst e =? c) (l_queue x)) eqn:B; [|reflexivity]. exfalso. apply Hc.
    apply existsb_exists in B as (y & Hy & B). apply Nat.eqb_eq in B. subst c. apply in_map. exact Hy.
  - apply nth_error_None. rewrite Ln. apply nth_error_None in E. exact E.
Qed.
