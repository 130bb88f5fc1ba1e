(** Proofs about maps, interfaces and endpoints. *)
From Coq Require Import List NArith ZArith Bool Lia ZifyBool ZifyNat ZifyN.
From Verif Require Import BytesModel UniverseModel WireSpec BytesProofs UniverseProofs
  PrimitivesModel PrimitivesSpec PrimitivesProofs MessageModel MessageSpec MessageProofs MessageTheorems
  MapModel EndpointModel EndpointSpec.
Import ListNotations.
Open Scope N_scope.
Ltac Zify.zify_post_hook ::= Z.div_mod_to_equations.
Arguments N.add : simpl never. Arguments N.mul : simpl never. Arguments N.pow : simpl never.
Arguments N.of_nat : simpl never. Arguments N.sub : simpl never.

(** Maps. *)
Section MapFacts.
Context {K V : Type} (eqb : K -> K -> bool) (eqb_ok : forall a b, eqb a b = true <-> a = b).

Lemma eqb_self k : eqb k k = true.
Proof using eqb_ok. apply eqb_ok. reflexivity. Qed.
Lemma eqb_diff a b : a <> b -> eqb a b = false.
Proof using eqb_ok. intros H. destruct (eqb a b) eqn:E; [apply eqb_ok in E; contradiction|reflexivity]. Qed.

Lemma get_remove_same k (m : list (K * V)) : map_get eqb k (map_remove eqb k m) = None.
Proof using.
  unfold map_remove. induction m as [|[k' v] m IH]; [reflexivity|]. cbn [filter fst].
  destruct (eqb k k') eqn:E; cbn [negb map_get]; [|rewrite E]; exact IH.
Qed.
Lemma get_remove_other k k' (m : list (K * V)) : k' <> k -> map_get eqb k' (map_remove eqb k m) = map_get eqb k' m.
Proof using eqb_ok.
  intros Hd. unfold map_remove. induction m as [|[j v] m IH]; [reflexivity|]. cbn [filter fst].
  destruct (eqb k j) eqn:E; cbn [negb map_get].
  - rewrite IH. apply eqb_ok in E. subst j. rewrite eqb_diff by exact Hd. reflexivity.
  - rewrite IH. reflexivity.
Qed.
Lemma get_insert_same k v (m : list (K * V)) : map_get eqb k (map_insert eqb k v m) = Some v.
Proof using eqb_ok. cbn. rewrite eqb_self. reflexivity. Qed.
Lemma get_insert_other k k' v (m : list (K * V)) : k' <> k -> map_get eqb k' (map_insert eqb k v m) = map_get eqb k' m.
Proof using eqb_ok. intros H. cbn. rewrite eqb_diff by exact H. apply get_remove_other. exact H. Qed.
Lemma get_update_same k f (m : list (K * V)) : map_get eqb k (map_update eqb k f m) = option_map f (map_get eqb k m).
Proof using.
  unfold map_update. induction m as [|[j v] m IH]; [reflexivity|]. cbn [map map_get fst snd].
  destruct (eqb k j) eqn:E; cbn [map_get]; rewrite E; [reflexivity|exact IH].
Qed.
Lemma get_update_other k k' f (m : list (K * V)) : k' <> k -> map_get eqb k' (map_update eqb k f m) = map_get eqb k' m.
Proof using eqb_ok.
  intros H. unfold map_update. induction m as [|[j v] m IH]; [reflexivity|]. cbn [map map_get fst snd].
  destruct (eqb k j) eqn:E; cbn [map_get]; rewrite IH; [|reflexivity].
  apply eqb_ok in E. subst j. rewrite eqb_diff by exact H. reflexivity.
Qed.
End MapFacts.

Lemma mt_eqb_ok a b : mt_eqb a b = true <-> a = b.
Proof.
  destruct a, b; cbn; try (split; intros H; [discriminate H|discriminate H]); try (split; reflexivity).
  rewrite N.eqb_eq. split; [intros ->; reflexivity|intros [= ->]; reflexivity].
Qed.
Lemma mt_eqb_spec a b : reflect (a = b) (mt_eqb a b).
Proof. apply iff_reflect. symmetry. apply mt_eqb_ok. Qed.

(** The interface check. *)
Lemma check_cases {B} i (m : message header B) d :
  match check i m d with
  | None => passes i m d
  | Some (Invalid c) | Some (Dropped c) => fault i m d c
  end.
Proof.
  unfold check. destruct (N.eqb_spec (msg_interface m) (i_version i)) as [Hv|Hv]; cbn [negb].
  2:{ unfold invalid_or_dropped. destruct (mt_eqb _ _); constructor; exact Hv. }
  destruct (map_get N.eqb (m_method m) (i_methods i)) as [kind|] eqn:Em.
  2:{ unfold invalid_or_dropped. destruct (mt_eqb _ _); apply fault_method; assumption. }
  assert (F : ~ sent_by kind (msg_type m) (sender (i_flavor i) d) -> fault i m d RcWrongMessageType).
  { apply fault_type; assumption. }
  assert (P : sent_by kind (msg_type m) (sender (i_flavor i) d) -> passes i m d).
  { intros S. split; [exact Hv|]. exists kind. split; assumption. }
  destruct d, (i_flavor i), kind; cbn [sender other] in *; destruct (msg_type m); cbn [mt_eqb negb];
    first [ apply P; constructor | apply F; intros S; inversion S ].
Qed.

Lemma fault_excludes {B} i (m : message header B) d c : fault i m d c -> ~ passes i m d.
Proof.
  intros F (Hv & kind & Hk & Hs). destruct F as [H|H H'|k H H' H'']; [contradiction|congruence|].
  rewrite Hk in H'. injection H' as <-. contradiction.
Qed.
Lemma fault_unique {B} i (m : message header B) d c c' : fault i m d c -> fault i m d c' -> c = c'.
Proof. intros F F'. destruct F, F'; try reflexivity; congruence. Qed.

Lemma check_passes {B} i (m : message header B) d : check i m d = None <-> passes i m d.
Proof.
  assert (H := check_cases i m d). destruct (check i m d) as [[c|c]|]; split; intros E; try assumption;
    try discriminate; try reflexivity; exfalso; exact (fault_excludes _ _ _ _ H E).
Qed.

(** Which rejections can be answered. *)
Lemma check_answerable {B} i (m : message header B) c :
  (check i m Incoming = Some (Invalid c) <->
     fault i m Incoming c /\
     (msg_type m = Request /\ c <> RcWrongMessageType \/
      c = RcWrongMessageType /\ i_flavor i = Stub /\ i_get i (m_method m) = Some Method)) /\
  (check i m Incoming = Some (Dropped c) <->
     fault i m Incoming c /\
     ~ (msg_type m = Request /\ c <> RcWrongMessageType \/
        c = RcWrongMessageType /\ i_flavor i = Stub /\ i_get i (m_method m) = Some Method)).
Proof.
  assert (H := check_cases i m Incoming).
  assert (K : forall err, check i m Incoming = Some err ->
    match err with
    | Invalid c => msg_type m = Request /\ c <> RcWrongMessageType \/
        c = RcWrongMessageType /\ i_flavor i = Stub /\ i_get i (m_method m) = Some Method
    | Dropped c => ~ (msg_type m = Request /\ c <> RcWrongMessageType \/
        c = RcWrongMessageType /\ i_flavor i = Stub /\ i_get i (m_method m) = Some Method)
    end).
  { clear H. intros err. unfold check, i_get, invalid_or_dropped.
    destruct (N.eqb_spec (msg_interface m) (i_version i)) as [Hv|Hv]; cbn [negb].
    2:{ destruct (mt_eqb_spec (msg_type m) Request); intros [= <-]; [left; split; [assumption|discriminate]|].
        intros [[? _]|[? _]]; [contradiction|discriminate]. }
    destruct (map_get N.eqb (m_method m) (i_methods i)) as [kind|] eqn:Em.
    2:{ destruct (mt_eqb_spec (msg_type m) Request); intros [= <-]; [left; split; [assumption|discriminate]|].
        intros [[? _]|[? _]]; [contradiction|discriminate]. }
    destruct (i_flavor i), kind; destruct (msg_type m); cbn [mt_eqb negb]; intros [= <-];
      first [ right; repeat split; reflexivity
            | intros [[? Hc]|(? & ? & ?)]; congruence ]. }
  split; split; intros E.
  - rewrite E in H. split; [exact H|]. exact (K _ E).
  - destruct E as [F D]. destruct (check i m Incoming) as [[c'|c']|] eqn:E.
    + rewrite (fault_unique _ _ _ _ _ H F). reflexivity.
    + exfalso. specialize (K _ eq_refl). cbn in K. apply K. rewrite (fault_unique _ _ _ _ _ H F). exact D.
    + exfalso. exact (fault_excludes _ _ _ _ F H).
  - rewrite E in H. split; [exact H|]. exact (K _ E).
  - destruct E as [F D]. destruct (check i m Incoming) as [[c'|c']|] eqn:E.
    + exfalso. specialize (K _ eq_refl). cbn in K. apply D. rewrite (fault_unique _ _ _ _ _ F H). exact K.
    + rewrite (fault_unique _ _ _ _ _ H F). reflexivity.
    + exfalso. exact (fault_excludes _ _ _ _ F H).
Qed.

Lemma check_outgoing_answerable {B} i (m : message header B) :
  (msg_type m = Request -> forall c, check i m Outgoing <> Some (Dropped c)).
Proof.
  intros Ht c. unfold check, invalid_or_dropped. rewrite Ht. cbn [mt_eqb negb].
  destruct (N.eqb_spec (msg_interface m) (i_version i)); cbn [negb]; [|congruence].
  destruct (map_get N.eqb (m_method m) (i_methods i)) as [kind|]; [|congruence].
  destruct (i_flavor i), kind; congruence.
Qed.

(** Endpoints. *)
Lemma rejected_excludes {B} e (m : message header B) d c : rejected e m d c -> ~ accepted e m d.
Proof.
  intros R (Hp & i & Hi & P). destruct R as [H|H H'|j c H H' F]; [contradiction|congruence|].
  assert (i = j) by congruence. subst j. exact (fault_excludes _ _ _ _ F P).
Qed.
Lemma rejected_unique {B} e (m : message header B) d c c' : rejected e m d c -> rejected e m d c' -> c = c'.
Proof.
  intros R R'. destruct R as [?|? ?|i1 c1 ? ? F1], R' as [?|? ?|i2 c2 ? ? F2]; try reflexivity; try congruence.
  assert (i1 = i2) by congruence. subst i2. exact (fault_unique _ _ _ _ _ F1 F2).
Qed.

(** Complementary interfaces. *)
Lemma sender_dual r : sender r Outgoing = sender (other r) Incoming.
Proof. destruct r; reflexivity. Qed.
