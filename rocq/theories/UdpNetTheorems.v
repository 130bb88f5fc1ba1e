(** Theorems about any number of endpoints over UDP and the datagrams between them. *)
From Coq Require Import List NArith Bool PeanoNat Lia Permutation.
From Verif Require Import BytesModel MapModel EndpointProofs RuntimeModel RuntimeSpec RuntimeProofs RuntimeWorkTheorems NodeModel NodeSpec NodeProofs NodeTheorems ExchangeSpec
  LexTheorems UdpNetModel FairSpec UdpNetSpec FairTheorems ExchangeTheorems.
From Verif Require UdpModel UdpSpec UdpProofs ExchangeRestTheorems TcpNetRestTheorems.
Import ListNotations.
Open Scope nat_scope.

Section Locks.
Context (bk : iid -> N) (cbk : N -> N).
Notation unet_history := (unet_history bk cbk).
Notation unet_step := (unet_step bk cbk).
Notation node_step := (node_step bk cbk).

Ltac cases_in H :=
  repeat (match type of H with
  | context [match ?x with _ => _ end] =>
      lazymatch x with context [match _ with _ => _ end] => fail | _ => destruct x eqn:? end
  end; try discriminate H).

(** ** What a step is *)
Inductive ustepped (w : unet) : uevent -> unet -> uentry -> Prop :=
| us_at a e s x : (forall b d, e <> NDatagram b d) -> node_step (un_node w a) e = Some (s, x) ->
    ustepped w (UAt a e) (mkUN (net_set a s (un_node w)) (un_flight w ++ match e_out x with Some (b, d) => [(a, b, d)] | None => [] end)) (Did a x)
| us_bring i a b d s x : nth_error (un_flight w) i = Some (a, b, d) -> node_step (un_node w b) (NDatagram a d) = Some (s, x) ->
    ustepped w (UBring i) (mkUN (net_set b s (un_node w)) (cut i (un_flight w))) (Did b x)
| us_lose i p : nth_error (un_flight w) i = Some p -> ustepped w (ULose i) (mkUN (un_node w) (cut i (un_flight w))) (Lost p)
| us_copy i p : nth_error (un_flight w) i = Some p -> ustepped w (UCopy i) (mkUN (un_node w) (un_flight w ++ [p])) (Copied p).
Lemma stepped w ev w' x : unet_step w ev = Some (w', x) -> ustepped w ev w' x.
Proof.
  intros ST. destruct ev as [a e|i|i|i]; cbn [UdpNetModel.unet_step] in ST.
  - assert (N : forall b d, e <> NDatagram b d) by (intros b d ->; discriminate ST).
    assert (E : match node_step (un_node w a) e with
      | Some (s, x) => Some (mkUN (net_set a s (un_node w)) (un_flight w ++ match e_out x with Some (b, d) => [(a, b, d)] | None => [] end), Did a x)
      | None => None end = Some (w', x)) by (destruct e; try exact ST; discriminate ST).
    destruct (node_step (un_node w a) e) as [[s y]|] eqn:S; [|discriminate]. injection E as <- <-. constructor; assumption.
  - destruct (nth_error (un_flight w) i) as [[[a b] d]|] eqn:I; [|discriminate]. destruct (node_step (un_node w b) (NDatagram a d)) as [[s y]|] eqn:S; [|discriminate].
    injection ST as <- <-. econstructor; eassumption.
  - destruct (nth_error (un_flight w) i) as [p|] eqn:I; [|discriminate]. injection ST as <- <-. constructor. exact I.
  - destruct (nth_error (un_flight w) i) as [p|] eqn:I; [|discriminate]. injection ST as <- <-. constructor. exact I.
Qed.
Lemma cut_in {A} i (l : list A) p : In p (cut i l) -> In p l.
Proof. revert i. induction l as [|x l IH]; intros [|i] I; cbn in *; auto. destruct I as [I|I]; eauto. Qed.
Lemma cut_perm {A} i (l : list A) p : nth_error l i = Some p -> Permutation l (p :: cut i l).
Proof.
  revert i. induction l as [|x l IH]; intros [|i] E; cbn in *; try discriminate; [injection E as ->; reflexivity|].
  rewrite (IH _ E) at 1. apply perm_swap.
Qed.
Lemma cut_length {A} i (l : list A) p : nth_error l i = Some p -> S (length (cut i l)) = length l.
Proof. intros E. rewrite (Permutation_length (cut_perm _ _ _ E)). reflexivity. Qed.

Lemma happened_snoc tr x : happened (tr ++ [x]) = happened tr ++ match x with Did a y => [(a, y)] | _ => [] end.
Proof. unfold happened. rewrite flat_map_app. cbn. rewrite app_nil_r. reflexivity. Qed.

(** ** Every history is one of the networks that invent nothing *)
Lemma is_net tr w : unet_history tr w -> net_history bk cbk (happened tr) (un_node w) /\ forall p, In p (un_flight w) -> In p (emitted (happened tr)).
Proof.
  induction 1 as [|tr w ev w' x H [IH FL] ST]; [split; [constructor|intros p []]|]. rewrite happened_snoc.
  destruct (stepped _ _ _ _ ST) as [a e s y N S|i a b d s y I S|i p I|i p I]; cbn [un_node un_flight]; rewrite ?app_nil_r.
  - split; [eapply w_more; [exact IH| |exact S]; destruct e; try exact Logic.I; destruct (N a0 d eq_refl)|].
    intros p P. rewrite emitted_app. apply in_app_iff in P. apply in_app_iff. destruct P as [P|P]; [left; auto|right]. cbn. destruct (e_out y) as [[b d]|]; exact P.
  - split; [eapply w_more; [exact IH| |exact S]; cbn; apply FL; eapply nth_error_In; exact I|].
    intros p P. rewrite emitted_app. apply in_app_iff. left. apply FL. eapply cut_in. exact P.
  - split; [exact IH|]. intros q P. apply FL. eapply cut_in. exact P.
  - split; [exact IH|]. intros q P. apply in_app_iff in P. destruct P as [P|[<-|[]]]; apply FL; [exact P|eapply nth_error_In; exact I].
Qed.
Lemma at_unet tr w a : unet_history tr w -> nhistory bk cbk (at_node a (happened tr)) (un_node w a).
Proof. intros H. apply (at_history bk cbk). apply is_net. exact H. Qed.

(** ... and every network that invents nothing has such a history: it copies what it is going to bring. *)
Lemma node_same w1 w2 a e : (forall b : N, w1 b = w2 b) -> node_step (w1 a) e = node_step (w2 a) e.
Proof. intros E. rewrite E. reflexivity. Qed.
Lemma cut_last {A} (l : list A) p : cut (length l) (l ++ [p]) = l.
Proof. induction l as [|x l IH]; [reflexivity|]. cbn. rewrite IH. reflexivity. Qed.
Lemma every_net tr w : net_history bk cbk tr w -> exists tr' v, unet_history tr' v /\ happened tr' = tr /\ (forall a, un_node v a = w a) /\ lost tr' = [] /\
  forall p, In p (emitted tr) -> In p (un_flight v).
Proof.
  induction 1 as [|tr w a e s x H (tr' & v & HU & HA & NO & LO & FL) AL ST].
  - exists [], unet_init. split; [constructor|]. split; [reflexivity|]. split; [reflexivity|]. split; [reflexivity|intros p []].
  - assert (SET : forall b, net_set a s (un_node v) b = net_set a s w b) by (intros b; unfold net_set; destruct (N.eqb b a); [reflexivity|apply NO]).
    rewrite <- NO in ST.
    assert (DG : (exists c d, e = NDatagram c d) \/ forall c d, e <> NDatagram c d) by (destruct e; try (right; intros c' d'; discriminate); left; eauto).
    destruct DG as [(c & d & ->)|ND].
    + cbn in AL. apply FL in AL. apply In_nth_error in AL. destruct AL as [i I]. change (@nth_error flying (un_flight v) i = Some (c, a, d)) in I.
      exists ((tr' ++ [Copied (c, a, d)]) ++ [Did a x]), (mkUN (net_set a s (un_node v)) (un_flight v)).
      split; [|split; [|split; [exact SET|split]]].
      * assert (S1 : unet_step v (UCopy i) = Some (mkUN (un_node v) (un_flight v ++ [(c, a, d)]), Copied (c, a, d))) by (cbn [UdpNetModel.unet_step]; rewrite I; reflexivity).
        refine (u_more _ _ _ _ (UBring (length (un_flight v))) _ _ (u_more _ _ _ _ _ _ _ HU S1) _).
        cbn [UdpNetModel.unet_step un_flight un_node]. rewrite nth_error_app2, Nat.sub_diag by reflexivity. cbn [nth_error]. rewrite ST, cut_last. reflexivity.
      * rewrite !happened_snoc, app_nil_r, HA. reflexivity.
      * unfold lost in *. rewrite !flat_map_app, LO. reflexivity.
      * intros p P. rewrite emitted_app in P. apply in_app_iff in P. destruct P as [P|P]; [apply FL; exact P|].
        assert (O : e_out x = None) by (cbn in ST; unfold socket_step in ST; cases_in ST; injection ST as <- <-; reflexivity). cbn in P. rewrite O in P. destruct P.
    + exists (tr' ++ [Did a x]), (mkUN (net_set a s (un_node v)) (un_flight v ++ match e_out x with Some (b, d) => [(a, b, d)] | None => [] end)).
      split; [|split; [|split; [exact SET|split]]].
      * refine (u_more _ _ _ _ (UAt a e) _ _ HU _). destruct e; try (cbn [UdpNetModel.unet_step]; rewrite ST; reflexivity). destruct (ND _ _ eq_refl).
      * rewrite happened_snoc, HA. reflexivity.
      * unfold lost in *. rewrite !flat_map_app, LO. reflexivity.
      * intros p P. rewrite emitted_app in P. apply in_app_iff in P. apply in_app_iff. destruct P as [P|P]; [left; apply FL; exact P|right].
        cbn in P. destruct (e_out x) as [[b d]|]; exact P.
Qed.

(** ** Where every datagram is *)
Lemma between_app a b l m : between a b (l ++ m) = between a b l ++ between a b m.
Proof. unfold between. apply flat_map_app. Qed.
Lemma between_perm a b l m : Permutation l m -> Permutation (between a b l) (between a b m).
Proof. intros P. unfold between. apply Permutation_flat_map. exact P. Qed.
Lemma short tr w a b d : unet_history tr w -> In (a, b, d) (un_flight w) -> firstn 1400 d = d.
Proof.
  intros H I. apply firstn_all2. apply (proj2 (is_net _ _ H)) in I. apply emitted_is in I.
  destruct (only_what_was_accepted _ _ _ _ (at_unet _ _ a H)) as [_ F]. rewrite Forall_forall in F. exact (F _ I).
Qed.
Lemma brought_snoc a b tr c x : from_peer a (datagrams (at_node b (tr ++ [(c, x)]))) =
  from_peer a (datagrams (at_node b tr)) ++ if N.eqb c b then from_peer a (UdpSpec.arrivals (match e_udp x with Some p => [p] | None => [] end)) else [].
Proof.
  rewrite at_snoc. unfold datagrams, from_peer. destruct (N.eqb c b); [|rewrite !app_nil_r; reflexivity].
  rewrite socket_snoc, UdpProofs.arrivals_app, filter_app, map_app. reflexivity.
Qed.
Lemma carried_snoc a b tr c x : carried a b (tr ++ [(c, x)]) = carried a b tr ++ between a b (match e_out x with Some (b', d) => [(c, b', d)] | None => [] end).
Proof.
  unfold carried. rewrite at_snoc. unfold sent_out, from_peer. rewrite flat_map_app, filter_app, map_app. f_equal.
  destruct (N.eqb_spec c a) as [->|N]; destruct (e_out x) as [[b' d]|] eqn:O; cbn; rewrite ?O; cbn; rewrite ?N.eqb_refl; cbn; try reflexivity.
  - destruct (N.eqb b' b); reflexivity.
  - destruct (N.eqb_spec c a); [contradiction|]. reflexivity.
Qed.
Lemma brought_out s a d s' x : node_step s (NDatagram a d) = Some (s', x) -> e_out x = None.
Proof. cbn. unfold socket_step. intros H. cases_in H. injection H as <- <-. reflexivity. Qed.
Theorem accounts tr w a b : unet_history tr w ->
  Permutation (from_peer a (datagrams (at_node b (happened tr))) ++ between a b (un_flight w) ++ between a b (lost tr))
              (carried a b (happened tr) ++ between a b (copied tr)).
Proof.
  induction 1 as [|tr w ev w' x H IH ST]; [constructor|]. rewrite happened_snoc. unfold lost, copied in *. rewrite !flat_map_app.
  destruct (stepped _ _ _ _ ST) as [c e s y NDG S|i c c' d s y I S|i p I|i p I]; cbn [un_node un_flight flat_map]; rewrite ?app_nil_r.
  - rewrite brought_snoc, carried_snoc, (arrival_step _ _ _ _ _ _ S), between_app.
    replace (match e with NDatagram a0 d => [(a0, firstn 1400 d)] | _ => [] end) with (@nil (N * list N)) by (destruct e; try reflexivity; destruct (NDG a0 d eq_refl)).
    set (z := between a b (match e_out y with Some (b', d) => [(c, b', d)] | None => [] end)). cbn [from_peer map filter].
    destruct (N.eqb c b); rewrite app_nil_r;
    (rewrite <- (app_assoc (carried a b (happened tr))), (Permutation_app_comm z), (app_assoc (carried a b (happened tr))), <- IH;
     rewrite <- !app_assoc; do 2 apply Permutation_app_head; apply Permutation_app_comm).
  - rewrite brought_snoc, carried_snoc, (arrival_step _ _ _ _ _ _ S), (brought_out _ _ _ _ _ S), app_nil_r, <- IH.
    rewrite <- (between_perm a b _ _ (Permutation_sym (cut_perm _ _ _ I))).
    rewrite (short _ _ _ _ _ H (nth_error_In _ _ I)). change (c, c', d) with (c, c', d). cbn [between flat_map fst snd].
    destruct (N.eqb_spec c' b) as [->|NB]; cbn [from_peer filter map fst snd].
    + rewrite Bool.andb_true_r. destruct (N.eqb c a); cbn [map filter snd app]; rewrite ?app_nil_r; [|reflexivity]. rewrite <- app_assoc. reflexivity.
    + rewrite Bool.andb_false_r, app_nil_r. reflexivity.
  - rewrite <- IH, between_app. apply Permutation_app_head. rewrite <- (between_perm a b _ _ (Permutation_sym (cut_perm _ _ _ I))).
    change (p :: cut i (un_flight w)) with ([p] ++ cut i (un_flight w)). rewrite between_app.
    rewrite (app_assoc (between a b (cut i (un_flight w)))), (Permutation_app_comm _ (between a b [p])). rewrite <- !app_assoc. reflexivity.
  - rewrite !between_app, (app_assoc (carried a b (happened tr))), <- IH, <- !app_assoc. do 2 apply Permutation_app_head. apply Permutation_app_comm.
Qed.
Corollary once tr w a b : unet_history tr w -> between a b (copied tr) = [] -> unduplicated a b (happened tr).
Proof.
  intros H C. pose proof (accounts _ _ a b H) as P. rewrite C, app_nil_r in P. exists (between a b (un_flight w) ++ between a b (lost tr)). exact P.
Qed.
Lemma subseq_all {A} (l m : list A) : subseq l m -> length m <= length l -> l = m.
Proof.
  assert (LE : forall l m : list A, subseq l m -> length l <= length m) by (induction 1; cbn; lia).
  induction 1; cbn; intros L; [reflexivity|apply LE in H; lia|f_equal; apply IHsubseq; lia].
Qed.
Corollary brought tr w a b : unet_history tr w -> between a b (copied tr) = [] -> between a b (lost tr) = [] -> between a b (un_flight w) = [] -> in_sequence a b (happened tr) ->
  all_brought a b (happened tr).
Proof.
  intros H C L F Q. pose proof (accounts _ _ a b H) as P. rewrite C, L, F, !app_nil_r in P. apply subseq_all; [exact Q|]. rewrite (Permutation_length P). reflexivity.
Qed.
End Locks.
