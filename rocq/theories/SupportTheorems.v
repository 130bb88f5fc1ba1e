(** Proofs about shared maps, response channels and macros. *)
From Coq Require Import List NArith ZArith Bool PeanoNat Lia.
From Verif Require Import BytesModel UniverseModel WireSpec BytesProofs UniverseProofs BytesTheorems
  MapModel EndpointProofs SupportModel SupportSpec.
Import ListNotations.
Open Scope nat_scope.

Section Shared.
Context {K V : Type} (eqb : K -> K -> bool) (eq_dec : forall a b : K, {a = b} + {a <> b}) (clone : V -> option V)
  (eqb_ok : forall a b, eqb a b = true <-> a = b).
Local Notation apply := (sm_apply eqb clone).
Local Notation srun := (sm_run eqb clone).
Local Notation after ops := (snd (srun sm_new ops)).

Lemma run_app s a b : srun s (a ++ b) =
  (fst (srun s a) ++ fst (srun (snd (srun s a)) b), snd (srun (snd (srun s a)) b)).
Proof.
  revert s. induction a as [|o a IH]; intros s; cbn.
  - destruct (srun s b). reflexivity.
  - destruct (apply s o) as [r s1]. rewrite IH. destruct (srun s1 a) as [rs s2]. cbn. reflexivity.
Qed.

Lemma run_length s ops : length (fst (srun s ops)) = length ops.
Proof.
  revert s. induction ops as [|o ops IH]; intros s; cbn; [reflexivity|].
  destruct (apply s o) as [r s1]. specialize (IH s1). destruct (srun s1 ops). cbn in *. congruence.
Qed.

Lemma run_snoc s ops o : srun s (ops ++ [o]) =
  (fst (srun s ops) ++ [fst (apply (snd (srun s ops)) o)], snd (apply (snd (srun s ops)) o)).
Proof. rewrite run_app. cbn. destruct (apply (snd (srun s ops)) o). reflexivity. Qed.

Lemma result_at ops i o : nth_error ops i = Some o ->
  nth_error (fst (srun sm_new ops)) i = Some (fst (apply (after (firstn i ops)) o)).
Proof.
  intros H. destruct (nth_error_split _ _ H) as (l1 & l2 & E & L). subst ops i.
  rewrite firstn_app, Nat.sub_diag, firstn_O, app_nil_r, firstn_all.
  rewrite run_app. cbn [fst]. rewrite nth_error_app2 by (rewrite run_length; lia).
  rewrite run_length, Nat.sub_diag. cbn. destruct (apply (after l1) o) as [r s1]. destruct (srun s1 l2). reflexivity.
Qed.

Lemma holds ops : sm_poisoned (after ops) = false ->
  forall k, map_get eqb k (sm_map (after ops)) = entry eq_dec k (rev ops).
Proof.
  induction ops as [|o ops IH] using rev_ind; intros P k; [reflexivity|].
  rewrite run_snoc in *. cbn [snd] in *. rewrite rev_app_distr. cbn [rev app].
  unfold sm_apply in *. destruct (sm_poisoned (after ops)) eqn:Q; [cbn in P; congruence|].
  specialize (IH eq_refl). destruct o as [k' v|k'|k']; cbn [entry].
  - cbn [snd sm_map]. destruct (eq_dec k' k) as [->|N].
    + apply (get_insert_same eqb eqb_ok).
    + rewrite (get_insert_other eqb eqb_ok) by congruence. apply IH.
  - destruct (map_get eqb k' (sm_map (after ops))) as [v|]; [destruct (clone v)|]; cbn [snd sm_map] in *; apply IH.
  - cbn [snd sm_map]. destruct (eq_dec k' k) as [->|N].
    + apply (get_remove_same eqb).
    + rewrite (get_remove_other eqb eqb_ok) by congruence. apply IH.
Qed.

Lemma poisoned_iff ops : sm_poisoned (after ops) = true <-> exists j, panicking_get eq_dec clone ops j.
Proof.
  induction ops as [|o ops IH] using rev_ind.
  - split; [intros [=]|]. intros (j & k & v & H & _). destruct j; discriminate.
  - assert (OLD : forall j, panicking_get eq_dec clone ops j -> panicking_get eq_dec clone (ops ++ [o]) j).
    { intros j (k & v & H & R). assert (L := nth_error_Some ops j). rewrite H in L. assert (j < length ops) by (apply L; discriminate).
      exists k, v. rewrite nth_error_app1, firstn_app by assumption. replace (j - length ops) with 0 by lia. rewrite app_nil_r.
      split; [exact H|exact R]. }
    rewrite run_snoc. cbn [snd]. unfold sm_apply. destruct (sm_poisoned (after ops)) eqn:Q.
    + split; [|intros _; exact Q]. intros _. destruct (proj1 IH eq_refl) as [j P]. exists j. apply OLD, P.
    + assert (HO := holds ops Q). split.
      * intros P. destruct o as [k v|k|k]; try discriminate. exists (length ops).
        destruct (map_get eqb k (sm_map (after ops))) as [v|] eqn:G; [destruct (clone v) eqn:C|]; cbn [snd sm_poisoned] in P; try congruence.
        exists k, v. rewrite nth_error_app2, Nat.sub_diag by lia. split; [reflexivity|]. split; [|exact C].
        rewrite firstn_app, Nat.sub_diag, firstn_O, app_nil_r, firstn_all. rewrite <- HO. exact G.
      * intros (j & k & v & H & E & C).
        destruct (Nat.lt_ge_cases j (length ops)) as [L|L].
        { assert (false = true); [|discriminate]. apply IH. exists j, k, v. rewrite nth_error_app1 in H by exact L.
          rewrite firstn_app in E. replace (j - length ops) with 0 in E by lia. rewrite app_nil_r in E. repeat split; assumption. }
        assert (j = length ops).
        { assert (X := nth_error_Some (ops ++ [o]) j). rewrite H, app_length in X. cbn in X.
          assert (j < length ops + 1) by (apply X; discriminate). lia. }
        subst j. rewrite nth_error_app2, Nat.sub_diag in H by lia. cbn in H. injection H as ->.
        rewrite firstn_app, Nat.sub_diag, firstn_O, app_nil_r, firstn_all, <- HO in E. rewrite E, C. reflexivity.
Qed.

Lemma panicking_firstn ops i j : j < i -> panicking_get eq_dec clone (firstn i ops) j <-> panicking_get eq_dec clone ops j /\ j < length ops.
Proof.
  intros L. unfold panicking_get. split.
  - intros (k & v & H & R).
    assert (X : j < length (firstn i ops)) by (apply nth_error_Some; rewrite H; discriminate).
    rewrite firstn_length in X.
    rewrite firstn_firstn in R. replace (Nat.min j i) with j in R by lia.
    split; [|lia]. exists k, v. split; [|exact R]. rewrite <- H. rewrite <- (firstn_skipn i ops) at 1. apply nth_error_app1. rewrite firstn_length. lia.
  - intros [(k & v & H & R) X]. exists k, v. rewrite firstn_firstn. replace (Nat.min j i) with j by lia. split; [|exact R].
    rewrite <- H. symmetry. rewrite <- (firstn_skipn i ops) at 1. apply nth_error_app1. rewrite firstn_length. lia.
Qed.

(** Until a [clone] panics every operation returns what the map holds; from then on every
    operation panics. *)
Lemma shared_map_history ops i o : nth_error ops i = Some o ->
  (nth_error (fst (srun sm_new ops)) i = Some SmPanic <-> exists j, j <= i /\ panicking_get eq_dec clone ops j) /\
  ((forall j, j <= i -> ~ panicking_get eq_dec clone ops j) ->
   nth_error (fst (srun sm_new ops)) i = Some (SmOk
     (match o with
      | SmGet k => match entry eq_dec k (rev (firstn i ops)) with Some v => clone v | None => None end
      | _ => entry eq_dec (key_of o) (rev (firstn i ops))
      end))).
Proof.
  intros H. rewrite (result_at _ _ _ H).
  assert (L : i < length ops) by (apply nth_error_Some; rewrite H; discriminate).
  assert (PB : sm_poisoned (after (firstn i ops)) = true <-> exists j, j < i /\ panicking_get eq_dec clone ops j).
  { rewrite poisoned_iff. split; intros (j & P).
    - assert (X : j < i).
      { destruct P as (k & v & P & _). assert (X : j < length (firstn i ops)) by (apply nth_error_Some; rewrite P; discriminate).
        rewrite firstn_length in X. lia. }
      exists j. split; [exact X|]. apply (panicking_firstn ops i j X). exact P.
    - destruct P as [X P]. exists j. apply panicking_firstn; [exact X|]. split; [exact P|lia]. }
  unfold sm_apply. destruct (sm_poisoned (after (firstn i ops))) eqn:Q; cbn [fst].
  - destruct (proj1 PB eq_refl) as (j & X & P). split.
    + split; [intros _; exists j; split; [lia|exact P]|reflexivity].
    + intros NP. exfalso. apply (NP j); [lia|exact P].
  - assert (HO := holds _ Q).
    assert (EQ : (exists j, j <= i /\ panicking_get eq_dec clone ops j) <-> panicking_get eq_dec clone ops i).
    { split; [|intros P; exists i; split; [lia|exact P]]. intros (j & X & P). destruct (Nat.eq_dec j i) as [<-|NE]; [exact P|].
      exfalso. assert (false = true); [|discriminate]. apply PB. exists j. split; [lia|exact P]. }
    rewrite EQ. split.
    + split.
      * intros R. destruct o as [k v|k|k]; try discriminate. rewrite (HO k) in R.
        destruct (entry eq_dec k (rev (firstn i ops))) as [v|] eqn:E; [|discriminate]. destruct (clone v) eqn:C; [discriminate|].
        exists k, v. repeat split; assumption.
      * intros (k & v & H' & E & C). rewrite H in H'. injection H' as ->. rewrite (HO k), E, C. reflexivity.
    + intros NP. destruct o as [k v|k|k]; cbn [key_of]; rewrite ?HO; try reflexivity.
      destruct (entry eq_dec k (rev (firstn i ops))) as [v|] eqn:E; [|reflexivity]. destruct (clone v) eqn:C; [reflexivity|].
      exfalso. apply (NP i); [lia|]. exists k, v. repeat split; assumption.
Qed.
End Shared.

Lemma shared_map_poisoning {K V} (eqb : K -> K -> bool) (eq_dec : forall a b : K, {a = b} + {a <> b}) (clone : V -> option V) :
  (forall a b, eqb a b = true <-> a = b) ->
  forall ops i o, nth_error ops i = Some o ->
  (nth_error (fst (sm_run eqb clone sm_new ops)) i = Some SmPanic <-> exists j, j <= i /\ panicking_get eq_dec clone ops j) /\
  ((forall j, j <= i -> ~ panicking_get eq_dec clone ops j) ->
   nth_error (fst (sm_run eqb clone sm_new ops)) i = Some (SmOk
     (match o with
      | SmGet k => match entry eq_dec k (rev (firstn i ops)) with Some v => clone v | None => None end
      | _ => entry eq_dec (key_of o) (rev (firstn i ops))
      end))).
Proof. exact (shared_map_history eqb eq_dec clone). Qed.

(** The usual case: copying a value gives the value. *)
Lemma shared_map_lawful {K V} (eqb : K -> K -> bool) (eq_dec : forall a b : K, {a = b} + {a <> b}) (clone : V -> option V) :
  (forall a b, eqb a b = true <-> a = b) -> (forall v, clone v = Some v) ->
  forall ops i o, nth_error ops i = Some o ->
  nth_error (fst (sm_run eqb clone sm_new ops)) i = Some (SmOk (entry eq_dec (key_of o) (rev (firstn i ops)))).
Proof.
  intros EO CL ops i o H. destruct (shared_map_history eqb eq_dec clone EO ops i o H) as [_ R]. rewrite R.
  - f_equal. f_equal. destruct o; try reflexivity. cbn [key_of]. destruct (entry eq_dec k (rev (firstn i ops))); [apply CL|reflexivity].
  - intros j _ (k & v & _ & _ & C). rewrite CL in C. discriminate.
Qed.

(** Response channels. *)
Lemma o_run_app {R} (s : oneshot R) a b s' rs : o_run s (a ++ b) = Some (s', rs) ->
  exists s1 r1 r2, o_run s a = Some (s1, r1) /\ o_run s1 b = Some (s', r2) /\ rs = r1 ++ r2 /\ length r1 = length a.
Proof.
  revert s rs. induction a as [|e a IH]; intros s rs H; cbn in *.
  - exists s, [], rs. repeat split. exact H.
  - destruct (o_step s e) as [[s1 r]|]; [|discriminate]. destruct (o_run s1 (a ++ b)) as [[s2 rs']|] eqn:E; [|discriminate].
    injection H as <- <-. destruct (IH _ _ E) as (s3 & r1 & r2 & A & B & C & D). rewrite A.
    exists s3, (r :: r1), r2. repeat split; [exact B|cbn; congruence|cbn; congruence].
Qed.

Lemma o_invariant {R} es (s : oneshot R) rs : o_run response_channels es = Some (s, rs) -> o_receiver s = true ->
  (o_sender s = true -> o_value s = None /\ (forall r, ~ In (OSend r) es) /\ ~ In ODropSender es) /\
  (forall r, o_value s = Some r <-> In (OSend r) es) /\
  (o_sender s = false -> o_value s = None -> In ODropSender es).
Proof.
  revert s rs. induction es as [|e es IH] using rev_ind; intros s rs H RX.
  - cbn in H. injection H as <- <-. cbn. repeat split; try discriminate; try tauto; try (intros []).
  - destruct (o_run_app _ _ _ _ _ H) as (s1 & r1 & r2 & A & B & _ & _). cbn in B.
    destruct (o_step s1 e) as [[s2 r]|] eqn:E; [|discriminate]. injection B as -> <-.
    assert (RX1 : o_receiver s1 = true).
    { destruct e; cbn in E.
      - destruct (o_sender s1); [|discriminate]. injection E as <- <-. exact RX.
      - destruct (o_sender s1); [|discriminate]. injection E as <- <-. exact RX.
      - destruct (o_receiver s1); [reflexivity|discriminate].
      - destruct (o_receiver s1); [reflexivity|discriminate]. }
    destruct (IH _ _ A RX1) as (I1 & I2 & I3). clear IH H A.
    destruct e as [x| | |]; cbn in E; rewrite ?RX1 in E.
    + destruct (o_sender s1) eqn:SX; [|discriminate]. injection E as <- <-. destruct (I1 eq_refl) as (J1 & J2 & J3). cbn.
      repeat split; try discriminate.
      * intros [= ->]. apply in_or_app. right. left. reflexivity.
      * intros X. apply in_app_or in X. destruct X as [X|[X|[]]]; [destruct (J2 _ X)|congruence].
    + destruct (o_sender s1) eqn:SX; [|discriminate]. injection E as <- <-. destruct (I1 eq_refl) as (J1 & J2 & J3). cbn.
      rewrite J1. repeat split; try discriminate.
      * intros X. apply in_app_or in X. destruct X as [X|[X|[]]]; [destruct (J2 _ X)|discriminate].
      * intros _ _. apply in_or_app. right. left. reflexivity.
    + destruct (o_value s1) eqn:VX; [injection E as <- <-; discriminate|].
      destruct (o_sender s1) eqn:SX; injection E as <- <-; [|discriminate].
      destruct (I1 eq_refl) as (J1 & J2 & J3). rewrite SX, VX in *. repeat split; try discriminate.
      * intros r X. apply in_app_or in X. destruct X as [X|[X|[]]]; [destruct (J2 _ X)|discriminate].
      * intros X. apply in_app_or in X. destruct X as [X|[X|[]]]; [destruct (J3 X)|discriminate].
      * intros X. apply in_app_or in X. destruct X as [X|[X|[]]]; [destruct (J2 _ X)|discriminate].
    + injection E as <- <-. discriminate.
Qed.

(** A response is held from when it is sent until it is taken or nobody can take it. *)
Lemma response_held {R} es (s : oneshot R) rs : o_run response_channels es = Some (s, rs) ->
  forall r, o_value s = Some r <-> In (OSend r) es /\ o_receiver s = true.
Proof.
  intros H r. destruct (o_receiver s) eqn:RX.
  - destruct (o_invariant _ _ _ H RX) as (_ & I2 & _). rewrite I2. tauto.
  - assert (V : o_value s = None); [|rewrite V; split; [discriminate|intros [_ F]; discriminate F]].
    revert s rs H RX. induction es as [|e es IH] using rev_ind; intros s rs H RX; [cbn in H; injection H as <- <-; discriminate RX|].
    destruct (o_run_app _ _ _ _ _ H) as (s1 & r1 & r2 & A & B & _ & _). cbn in B. destruct (o_step s1 e) as [[s2 o]|] eqn:E; [|discriminate].
    injection B as -> <-. destruct e; cbn in E.
    + destruct (o_sender s1); [|discriminate]. injection E as <- <-. cbn in *. rewrite RX. reflexivity.
    + destruct (o_sender s1); [|discriminate]. injection E as <- <-. exact (IH _ _ A RX).
    + destruct (o_receiver s1) eqn:F; [|discriminate]. destruct (o_value s1) eqn:G; [injection E as <- <-; reflexivity|].
      destruct (o_sender s1); injection E as <- <-; [exact G|reflexivity].
    + destruct (o_receiver s1); [|discriminate]. injection E as <- <-. reflexivity.
Qed.

(** What [get] returns: the response that was sent, [None] if the sender was dropped without one,
    and it waits only while neither has happened. *)
Lemma response_got {R} es es' (s : oneshot R) rs :
  o_run response_channels (es ++ OGet :: es') = Some (s, rs) ->
  (forall r, nth_error rs (length es) = Some (Some (Some r)) <-> In (OSend r) es) /\
  (nth_error rs (length es) = Some (Some None) <-> In ODropSender es) /\
  (nth_error rs (length es) = Some None <-> (forall r, ~ In (OSend r) es) /\ ~ In ODropSender es).
Proof.
  intros H. destruct (o_run_app _ _ _ _ _ H) as (s1 & r1 & r2 & A & B & -> & L). cbn in B.
  destruct (o_receiver s1) eqn:RX; [|discriminate]. destruct (o_invariant _ _ _ A RX) as (I1 & I2 & I3).
  assert (ONE : (exists r, In (OSend r) es) -> ~ In ODropSender es).
  { clear B. intros [r S] D. destruct (in_split _ _ D) as (x & y & ->).
    destruct (o_run_app _ _ _ _ _ A) as (s2 & r3 & r4 & A2 & B2 & _ & _). cbn in B2. destruct (o_sender s2) eqn:SX; [|discriminate].
    apply in_app_or in S. destruct S as [S|[S|S]]; [| |].
    - destruct (in_split _ _ S) as (x1 & x2 & ->). destruct (o_run_app _ _ _ _ _ A2) as (s3 & r5 & r6 & A3 & B3 & _ & _).
      cbn in B3. destruct (o_sender s3); [|discriminate]. destruct (o_run _ x2) as [[s4 q]|] eqn:Q in B3; [|discriminate]. injection B3 as -> _.
      assert (GONE : forall l (u : oneshot R) u' q, o_run u l = Some (u', q) -> o_sender u = false -> o_sender u' = false).
      { clear. induction l as [|e l IH]; intros u u' q H F; cbn in H; [congruence|].
        destruct (o_step u e) as [[u1 r]|] eqn:E; [|discriminate]. destruct (o_run u1 l) as [[u2 q']|] eqn:E'; [|discriminate]. injection H as <- _.
        eapply IH; [exact E'|]. destruct e; cbn in E; rewrite ?F in E; try discriminate;
          (destruct (o_receiver u); [|discriminate]); try (destruct (o_value u)); injection E as <- _; try reflexivity; exact F. }
      apply GONE in Q; [congruence|reflexivity].
    - discriminate.
    - destruct (in_split _ _ S) as (x1 & x2 & ->). destruct (o_run _ (x1 ++ OSend r :: x2)) as [[s4 q]|] eqn:Q in B2; [|discriminate].
      destruct (o_run_app _ _ _ _ _ Q) as (s3 & r5 & r6 & A3 & B3 & _ & _).
      assert (GONE : forall l (u : oneshot R) u' q, o_run u l = Some (u', q) -> o_sender u = false -> o_sender u' = false).
      { clear. induction l as [|e l IH]; intros u u' q H F; cbn in H; [congruence|].
        destruct (o_step u e) as [[u1 r]|] eqn:E; [|discriminate]. destruct (o_run u1 l) as [[u2 q']|] eqn:E'; [|discriminate]. injection H as <- _.
        eapply IH; [exact E'|]. destruct e; cbn in E; rewrite ?F in E; try discriminate;
          (destruct (o_receiver u); [|discriminate]); try (destruct (o_value u)); injection E as <- _; try reflexivity; exact F. }
      apply GONE in A3; [|reflexivity]. cbn in B3. rewrite A3 in B3. discriminate. }
  rewrite nth_error_app2 by lia. rewrite L, Nat.sub_diag.
  assert (HD : exists q, nth_error r2 0 = Some q /\
            ((exists r, q = Some (Some r) /\ o_value s1 = Some r) \/
             (q = None /\ o_value s1 = None /\ o_sender s1 = true) \/ (q = Some None /\ o_value s1 = None /\ o_sender s1 = false))).
  { destruct (o_value s1) as [r|].
    - destruct (o_run (mkO (o_sender s1) false None) es') as [[u q]|]; [|discriminate]. injection B as _ <-.
      eexists. split; [reflexivity|]. left. exists r. split; reflexivity.
    - destruct (o_sender s1).
      + destruct (o_run s1 es') as [[u q]|]; [|discriminate]. injection B as _ <-. eexists. split; [reflexivity|]. right. left. repeat split.
      + destruct (o_run (mkO false false None) es') as [[u q]|]; [|discriminate]. injection B as _ <-.
        eexists. split; [reflexivity|]. right. right. repeat split. }
  destruct HD as (q & -> & HD). split; [|split].
  - intros r. rewrite <- I2. destruct HD as [(r' & -> & E)|[(-> & E & _)|(-> & E & _)]]; rewrite E; split; congruence.
  - destruct HD as [(r' & -> & E)|[(-> & E & T)|(-> & E & T)]].
    + split; [discriminate|]. intros D. exfalso. apply (ONE (ex_intro _ r' (proj1 (I2 r') E)) D).
    + split; [discriminate|]. intros D. exfalso. apply (I1 T). exact D.
    + split; [intros _; apply I3; assumption|reflexivity].
  - destruct HD as [(r' & -> & E)|[(-> & E & T)|(-> & E & T)]].
    + split; [discriminate|]. intros [NS _]. exfalso. apply (NS r'). apply I2. exact E.
    + split; [intros _|reflexivity]. split; apply (I1 T).
    + split; [discriminate|]. intros [_ ND]. exfalso. apply ND. apply I3; assumption.
Qed.

(** The macros. *)
Open Scope N_scope.
Lemma hint_sum ts : forall size v, size_hint_sum ts size v = size + size_hint (ser (TTuple ts)) v.
Proof.
  induction ts as [|t ts IH]; intros size v.
  - cbn. lia.
  - cbn [size_hint_sum]. rewrite IH. cbn [ser ser_tuple_cons size_hint]. rewrite N.add_assoc. reflexivity.
Qed.

Lemma macro_size ts lf v b n b' :
  valid (TTuple ts) v = true ->
  (serialize_into ts v b = WOk n b' -> size_hint_of ts v = n) /\
  (serialize_into_len lf ts v b = WOk n b' -> size_hint_len_of lf ts v = n).
Proof.
  intros V. split; intros H.
  - unfold size_hint_of. rewrite hint_sum. destruct (size_hint_exact _ _ _ _ _ V H) as [E _]. rewrite E. lia.
  - unfold size_hint_len_of. rewrite hint_sum.
    assert (H' : serialize (ser (TLen lf (TTuple ts))) v b = WOk n b') by exact H.
    destruct (size_hint_exact (TLen lf (TTuple ts)) _ _ _ _ V H') as [E _]. rewrite <- E. destruct lf; reflexivity.
Qed.

Lemma macro_round_trip ts v data room n b' rest :
  delimited (TTuple ts) = true -> valid (TTuple ts) v = true -> nul_free (TTuple ts) v = true ->
  serialize_into ts v (mkW data room) = WOk n b' ->
  exists bs, w_data b' = data ++ bs /\ len bs = n /\ deserialize_from ts (bs ++ rest) = DOk (untuple ts v) rest.
Proof.
  intros D V Z H. destruct (serialize_then_deserialize _ _ _ _ _ _ rest D V Z H) as (bs & A & B & C).
  exists bs. split; [exact A|]. split; [exact B|]. unfold deserialize_from.
  destruct ts as [|t [|t' ts]]; cbn [from_ty untuple]; try exact C.
  cbn [de] in C. unfold de_tuple_cons in C. destruct (de t (bs ++ rest)); cbn in C; try discriminate. injection C as C1 C2.
  rewrite <- C1, <- C2. reflexivity.
Qed.

Lemma macro_len_round_trip lf ts v data room n b' rest :
  framed (TTuple ts) = true -> valid (TTuple ts) v = true -> nul_free (TTuple ts) v = true ->
  serialize_into_len lf ts v (mkW data room) = WOk n b' ->
  exists bs, w_data b' = data ++ bs /\ len bs = n /\ deserialize_from_len lf ts (bs ++ rest) = DOk (untuple ts v) rest.
Proof.
  intros F V Z H. destruct (round_trip_len _ _ _ _ _ _ _ rest F V Z H) as (bs & A & B & C).
  exists bs. split; [exact A|]. split; [exact B|]. unfold deserialize_from_len.
  destruct ts as [|t [|t' ts]]; cbn [from_ty untuple]; try exact C.
  assert (ONE : forall buf, de (TTuple [t]) buf = match de t buf with
     | DOk w r => DOk (w, tt) r | DErr e r => DErr e r | DPanic => DPanic | DHang => DHang end).
  { intros buf. cbn [de]. unfold de_tuple_cons. destruct (de t buf); reflexivity. }
  unfold deserialize_len in *. destruct (de_uint (lf_size lf) (bs ++ rest)) as [k buf|e buf| |]; cbn [dbind] in *; try discriminate.
  unfold with_take in *. rewrite ONE in C.
  destruct (de t (firstn (N.to_nat (N.min k (len buf))) buf)); try discriminate. injection C as C1 C2. rewrite <- C1, <- C2. reflexivity.
Qed.
