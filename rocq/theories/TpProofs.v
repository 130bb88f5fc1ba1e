(** Proofs about the transport protocol. *)
From Coq Require Import List NArith ZArith Bool Lia ZifyBool ZifyNat ZifyN.
From Verif Require Import BytesModel UniverseModel WireSpec BytesProofs UniverseProofs StringProofs
  PrimitivesModel PrimitivesSpec PrimitivesProofs PrimitivesTheorems MessageModel MessageSpec MessageProofs MessageTheorems
  TpModel TpSpec.
Import ListNotations.
Open Scope N_scope.
Ltac Zify.zify_post_hook ::= Z.div_mod_to_equations.
Arguments N.add : simpl never. Arguments N.mul : simpl never. Arguments N.pow : simpl never.
Arguments N.of_nat : simpl never. Arguments N.sub : simpl never.
Arguments N.div : simpl never. Arguments N.modulo : simpl never.

Lemma len_firstn {A} (l : list A) n : n <= len l -> len (firstn (N.to_nat n) l) = n.
Proof. intros H. unfold len in *. rewrite firstn_length. lia. Qed.
Lemma len_skipn {A} (l : list A) n : len (skipn (N.to_nat n) l) = len l - n.
Proof. unfold len. rewrite skipn_length. lia. Qed.

(** * split *)

Lemma split_spec h limit : 16 <= limit ->
  exists units, units = limit / 16 /\ 1 <= units /\ 16 * units <= limit /\
  ((len (tp_body h) <= 16 * units /\ tp_split h limit = (None, mkTp (tp_offset h) false (tp_body h))) \/
   (16 * units < len (tp_body h) /\ exists front back,
      tp_body h = front ++ back /\ len front = 16 * units /\ back <> [] /\
      tp_split h limit = (Some (mkTp (tp_offset h) true front), mkTp (tp_offset h + units) (tp_more h) back))).
Proof.
  intros Hl. exists (limit / 16). split; [reflexivity|]. split; [lia|]. split; [lia|].
  unfold tp_split, offset_unit. destruct (N.ltb_spec limit 16) as [Hc|_]; [lia|]. cbv zeta.
  destruct (N.leb_spec (len (tp_body h)) (limit / 16 * 16)) as [Hb|Hb].
  - left. split; [lia|reflexivity].
  - right. split; [lia|].
    exists (firstn (N.to_nat (limit / 16 * 16)) (tp_body h)), (skipn (N.to_nat (limit / 16 * 16)) (tp_body h)).
    split; [symmetry; apply firstn_skipn|]. split; [rewrite len_firstn by lia; lia|]. split.
    + intros E. assert (X := len_skipn (tp_body h) (limit / 16 * 16)). rewrite E in X. change (len (@nil N)) with 0 in X. lia.
    + replace (limit / 16 * 16 / 16) with (limit / 16) by lia. reflexivity.
Qed.

Lemma cut_cons off body s rest : rest <> [] ->
  (cut off body (s :: rest) <->
   tp_offset s = off /\ tp_more s = true /\
   (exists units, 0 < units /\ len (tp_body s) = 16 * units /\
      exists body', body = tp_body s ++ body' /\ cut (off + units) body' rest)).
Proof. destruct rest; [congruence|]. intros _. reflexivity. Qed.

Lemma cut_nonempty off body segs : cut off body segs -> segs <> [].
Proof. destruct segs; [contradiction|discriminate]. Qed.

Lemma run_cut h segs : split_run h segs -> cut (tp_offset h) (tp_body h) segs.
Proof.
  induction 1 as [h limit h' Hl E|h limit s h' segs Hl E Hr IH].
  - destruct (split_spec h limit Hl) as (u & _ & Hu & _ & [[_ E']|(_ & f & b & _ & _ & _ & E')]); rewrite E' in E; [|discriminate].
    injection E as <-. reflexivity.
  - destruct (split_spec h limit Hl) as (u & _ & Hu & _ & [[_ E']|(_ & f & b & Eb & Hf & _ & E')]); rewrite E' in E; [discriminate|].
    injection E as <- <-. apply cut_cons; [apply (cut_nonempty _ _ _ IH)|].
    cbn [tp_offset tp_more tp_body] in *. split; [reflexivity|]. split; [reflexivity|].
    exists u. split; [lia|]. split; [exact Hf|]. exists b. split; [exact Eb|exact IH].
Qed.

Lemma split_loop_run fuel : forall limits h, (forall i, 16 <= limits i) -> (length (tp_body h) < fuel)%nat ->
  exists segs, split_loop fuel limits h = Some segs /\ split_run h segs.
Proof.
  induction fuel as [|fuel IH]; intros limits h Hl Hf; [lia|].
  cbn [split_loop].
  destruct (split_spec h (limits O) (Hl O)) as (u & _ & Hu & _ & [[_ E]|(_ & f & b & Eb & Hlf & _ & E)]); rewrite E.
  - eexists. split; [reflexivity|]. eapply run_last; [apply (Hl O)|exact E].
  - destruct (IH (fun i => limits (S i)) (mkTp (tp_offset h + u) (tp_more h) b)) as (segs & Es & Hr).
    + intros i. apply Hl.
    + cbn [tp_body]. rewrite Eb, app_length in Hf. unfold len in Hlf. lia.
    + rewrite Es. eexists. split; [reflexivity|]. eapply run_more; [apply (Hl O)|exact E|exact Hr].
Qed.

(** * join *)

Lemma join_accept h s : tp_more h = true -> len (tp_body h) / 16 = tp_offset s ->
  tp_join h s = (None, mkTp (tp_offset h) (tp_more s) (tp_body h ++ tp_body s)).
Proof.
  intros Hm Ho. unfold tp_join, offset_unit. rewrite Hm. cbn [negb]. cbv zeta. rewrite Ho, N.eqb_refl. reflexivity.
Qed.
Lemma join_refuse h s : (tp_more h = false \/ len (tp_body h) / 16 <> tp_offset s) -> snd (tp_join h s) = h.
Proof.
  intros [Hm|Ho]; unfold tp_join, offset_unit.
  - rewrite Hm. reflexivity.
  - destruct (tp_more h); [|reflexivity]. cbn [negb]. cbv zeta.
    destruct (N.eqb_spec (len (tp_body h) / 16) (tp_offset s)); [contradiction|reflexivity].
Qed.

Lemma join_chain : forall segs off body o pre, cut off body segs -> len pre = 16 * off ->
  join_all (mkTp o true pre) segs = Some (mkTp o false (pre ++ body)).
Proof.
  induction segs as [|s segs IH]; intros off body o pre Hc Hp; [contradiction|].
  cbn [join_all]. destruct segs as [|s2 segs].
  - cbn [cut] in Hc. subst s. rewrite join_accept by (cbn [tp_more tp_body tp_offset]; lia || reflexivity). reflexivity.
  - apply cut_cons in Hc; [|discriminate]. destruct Hc as (Ho & Hm & u & Hu & Hlen & b & -> & Hc).
    rewrite join_accept; [|reflexivity|cbn [tp_body]; lia]. cbn [tp_offset tp_body]. rewrite Hm.
    rewrite (IH (off + u) b o (pre ++ tp_body s) Hc).
    + rewrite <- app_assoc. reflexivity.
    + rewrite len_app. lia.
Qed.

Lemma reassemble body first rest : cut 0 body (first :: rest) ->
  join_all first rest = Some (mkTp 0 false body).
Proof.
  intros Hc. destruct rest as [|s2 rest].
  - cbn [cut] in Hc. subst first. reflexivity.
  - apply cut_cons in Hc; [|discriminate]. destruct Hc as (Ho & Hm & u & Hu & Hlen & b & -> & Hc).
    destruct first as [o m p]. cbn [tp_offset tp_more tp_body] in *. subst o m.
    apply (join_chain (s2 :: rest) (0 + u)); [exact Hc|lia].
Qed.

(** * Unreliable delivery *)

Lemma cut_head off body s rest : cut off body (s :: rest) -> tp_offset s = off.
Proof.
  destruct rest as [|s2 rest].
  - cbn [cut]. intros ->. reflexivity.
  - intros H. apply cut_cons in H; [|discriminate]. apply H.
Qed.
Lemma cut_later : forall rest off body s x, cut off body (s :: rest) -> In x rest -> off < tp_offset x.
Proof.
  induction rest as [|s2 rest IH]; intros off body s x Hc Hx; [contradiction|].
  apply cut_cons in Hc; [|discriminate]. destruct Hc as (_ & _ & u & Hu & _ & b & _ & Hc).
  destruct Hx as [<-|Hx].
  - rewrite (cut_head _ _ _ _ Hc). lia.
  - specialize (IH _ _ _ _ Hc Hx). lia.
Qed.

(** What a receiver holds after collecting some of the segments, with [todo] to come. *)
Definition todo_of (body : list N) (segs todo : list tp) (h : tp) : Prop :=
  exists pre suf off done, tp_more h = true /\ body = pre ++ suf /\ tp_body h = pre /\
    len pre = 16 * off /\ segs = done ++ todo /\ cut off suf todo /\
    Forall (fun s => tp_offset s < off) done.

Lemma join_step body segs todo h s : todo_of body segs todo h -> In s segs ->
  (exists todo', todo = s :: todo' /\ tp_offset (snd (tp_join h s)) = tp_offset h /\
     ((todo' = [] /\ tp_more (snd (tp_join h s)) = false /\ tp_body (snd (tp_join h s)) = body) \/
      todo_of body segs todo' (snd (tp_join h s)))) \/
  (snd (tp_join h s) = h /\ forall todo', todo <> s :: todo').
Proof.
  intros (pre & suf & off & done & Hm & Eb & Hp & Hlen & Es & Hc & Hd) Hin.
  assert (Hcur : len (tp_body h) / 16 = off) by (rewrite Hp; lia).
  destruct (N.eq_dec (tp_offset s) off) as [Heq|Hne].
  - left.
    assert (Hs : exists todo', todo = s :: todo').
    { rewrite Es in Hin. apply in_app_iff in Hin. destruct Hin as [Hin|Hin].
      - rewrite Forall_forall in Hd. specialize (Hd _ Hin). cbn in Hd. lia.
      - destruct todo as [|s0 todo]; [contradiction|]. destruct Hin as [->|Hin]; [eexists; reflexivity|].
        assert (X := cut_later _ _ _ _ _ Hc Hin). lia. }
    destruct Hs as [todo' ->]. exists todo'. split; [reflexivity|].
    rewrite join_accept by (exact Hm || (rewrite Hcur; symmetry; exact Heq)). cbn [snd tp_offset tp_more tp_body].
    split; [reflexivity|].
    destruct todo' as [|s2 todo'].
    + left. split; [reflexivity|]. cbn [cut] in Hc. subst s. cbn [tp_more tp_body]. split; [reflexivity|]. rewrite Hp, Eb. reflexivity.
    + right. apply cut_cons in Hc; [|discriminate]. destruct Hc as (Ho & Hmo & u & Hu & Hl & b & Hsuf & Hc). subst suf.
      exists (pre ++ tp_body s), b, (off + u), (done ++ [s]).
      split; [exact Hmo|]. split; [rewrite <- app_assoc; exact Eb|]. split; [cbn [tp_body]; rewrite Hp; reflexivity|].
      split; [rewrite len_app; lia|]. split; [rewrite <- app_assoc; exact Es|]. split; [exact Hc|].
      apply Forall_app. split.
      * eapply Forall_impl; [|exact Hd]. cbn. intros a Ha. lia.
      * constructor; [lia|constructor].
  - right. split.
    + apply join_refuse. right. rewrite Hcur. congruence.
    + intros todo' ->. apply Hne. apply (cut_head _ _ _ _ Hc).
Qed.

Lemma finished_stays h s : tp_more h = false -> snd (tp_join h s) = h.
Proof. intros H. apply join_refuse. left. exact H. Qed.

Lemma receive_finished h arrivals : tp_more h = false -> receive h arrivals = h.
Proof.
  intros H. unfold receive. induction arrivals as [|s l IH]; [reflexivity|]. cbn [fold_left].
  rewrite finished_stays by exact H. exact IH.
Qed.

Lemma receive_cons h s arrivals : receive h (s :: arrivals) = receive (snd (tp_join h s)) arrivals.
Proof. reflexivity. Qed.

Lemma receive_invariant body segs : forall arrivals h todo, todo_of body segs todo h ->
  (forall s, In s arrivals -> In s segs) ->
  let r := receive h arrivals in
  (exists suf, body = tp_body r ++ suf) /\ (tp_more r = false -> tp_body r = body).
Proof.
  induction arrivals as [|s arrivals IH]; intros h todo Ht Hin r.
  - destruct Ht as (pre & suf & off & done & Hm & Eb & Hp & _). subst r. unfold receive. cbn [fold_left]. split.
    + exists suf. rewrite Hp. exact Eb.
    + congruence.
  - subst r. rewrite receive_cons.
    destruct (join_step body segs todo h s Ht (Hin s (or_introl eq_refl)))
      as [(todo' & -> & _ & [(-> & Hm & Hb)|Ht'])|(-> & _)].
    + rewrite receive_finished by exact Hm. split; [exists []; rewrite app_nil_r; congruence|congruence].
    + apply (IH _ _ Ht'). intros x Hx. apply Hin. right. exact Hx.
    + apply (IH _ _ Ht). intros x Hx. apply Hin. right. exact Hx.
Qed.

Lemma receive_complete body segs : forall arrivals h todo, todo_of body segs todo h ->
  (forall s, In s arrivals -> In s segs) -> subseq todo arrivals ->
  let r := receive h arrivals in tp_more r = false /\ tp_body r = body.
Proof.
  induction arrivals as [|s arrivals IH]; intros h todo Ht Hin Hsub r.
  - inversion Hsub; subst. destruct Ht as (pre & suf & off & done & _ & _ & _ & _ & _ & Hc & _). contradiction.
  - subst r. rewrite receive_cons.
    assert (Hin' : forall x, In x arrivals -> In x segs) by (intros x Hx; apply Hin; right; exact Hx).
    destruct (join_step body segs todo h s Ht (Hin s (or_introl eq_refl)))
      as [(todo' & -> & _ & [(-> & Hm & Hb)|Ht'])|(-> & Hne)].
    + rewrite receive_finished by exact Hm. auto.
    + apply (IH _ _ Ht'); [exact Hin'|]. inversion Hsub as [|x a b Hs|x a b Hs]; subst; [exact Hs|].
      clear - Hs. revert Hs. generalize s. induction arrivals as [|y l IHl]; intros s0 Hs; inversion Hs; subst.
      * constructor. assumption.
      * constructor. eapply IHl. eassumption.
    + apply (IH _ _ Ht); [exact Hin'|]. inversion Hsub as [|x a b Hs|x a b Hs]; subst.
      * destruct Ht as (pre & suf & off & done & _ & _ & _ & _ & _ & Hc & _). contradiction.
      * exfalso. apply (Hne a). reflexivity.
      * exact Hs.
Qed.

Lemma first_todo body first rest : cut 0 body (first :: rest) ->
  (rest = [] /\ first = mkTp 0 false body) \/ todo_of body (first :: rest) rest first.
Proof.
  intros Hc. destruct rest as [|s2 rest].
  - left. split; [reflexivity|exact Hc].
  - right. apply cut_cons in Hc; [|discriminate]. destruct Hc as (Ho & Hm & u & Hu & Hlen & b & Eb & Hc).
    exists (tp_body first), b, u, [first]. split; [exact Hm|]. split; [exact Eb|]. split; [reflexivity|].
    split; [exact Hlen|]. split; [reflexivity|]. split; [exact Hc|]. constructor; [lia|constructor].
Qed.

Lemma receive_offset : forall arrivals h, tp_offset (receive h arrivals) = tp_offset h.
Proof.
  induction arrivals as [|s l IH]; intros h; [reflexivity|]. rewrite receive_cons, IH.
  unfold tp_join. destruct (tp_more h); cbn [negb]; [|reflexivity]. cbv zeta.
  destruct (negb _); reflexivity.
Qed.

(** * Wire form *)

Lemma wire_offset_exact ubits o : 32 <= ubits -> o < 2 ^ 28 -> tp_wire_offset ubits o = o * 2 ^ 4.
Proof.
  intros Hu Ho. unfold tp_wire_offset. cbv zeta. rewrite N.shiftl_mul_pow2.
  assert (Hp : 2 ^ 32 <= 2 ^ ubits) by (apply N.pow_le_mono_r; lia).
  change (2 ^ 28) with 268435456 in Ho. change (2 ^ 4) with 16. change (2 ^ 32) with 4294967296 in *.
  rewrite N.mod_small by lia. destruct (N.ltb_spec (o * 16) 4294967296); [reflexivity|lia].
Qed.

Lemma wire_offset_saturates o : 2 ^ 28 <= o -> o <= max_offset -> tp_wire_offset 64 o = 0xfffffff0.
Proof.
  intros H1 H2. unfold tp_wire_offset, max_offset in *. cbv zeta. rewrite N.shiftl_mul_pow2.
  change (2 ^ 28) with 268435456 in *. change (2 ^ 4) with 16. change (2 ^ 32) with 4294967296.
  change (2 ^ 64) with 18446744073709551616. rewrite N.mod_small by lia.
  destruct (N.ltb_spec (o * 16) 4294967296); [lia|reflexivity].
Qed.

Lemma wire_offset_wraps o : tp_wire_offset 32 o = (o mod 2 ^ 28) * 16.
Proof.
  unfold tp_wire_offset. cbv zeta. rewrite N.shiftl_mul_pow2.
  change (2 ^ 28) with 268435456. change (2 ^ 4) with 16. change (2 ^ 32) with 4294967296.
  destruct (N.ltb_spec (o * 16 mod 4294967296) 4294967296); lia.
Qed.

Lemma tp_word_emits w body :
  emits (ser_tuple_cons (ser_uint 4) (ser_tuple_cons ser_bytes ser_tuple_nil)) (w, (body, tt)) (be 4 w ++ body).
Proof.
  rewrite <- (app_nil_r body) at 2.
  apply meets_tuple; [apply (ser_uint_meets 4 w)|]. apply meets_tuple; [apply (ser_bytes_meets body)|].
  apply (ser_tuple_nil_meets tt).
Qed.

Lemma tp_serialize ubits h b : tp_offset h <= max_offset ->
  serialize (ser_tp ubits) h b =
  serialize (ser_tuple_cons (ser_uint 4) (ser_tuple_cons ser_bytes ser_tuple_nil))
    (N.lor (tp_wire_offset ubits (tp_offset h)) (if tp_more h then 1 else 0), (tp_body h, tt)) b.
Proof.
  intros H. cbn [ser_tp serialize]. destruct (N.ltb_spec max_offset (tp_offset h)); [lia|]. reflexivity.
Qed.

Lemma word_flag o m : N.lor (o * 2 ^ 4) (if m : bool then 1 else 0) = o * 16 + (if m then 1 else 0).
Proof. rewrite (lor_add o 4) by (destruct m; reflexivity). reflexivity. Qed.

Lemma tp_emits ubits h : 32 <= ubits -> tp_offset h < 2 ^ 28 -> emits (ser_tp ubits) h (tp_form h).
Proof.
  intros Hu Ho. unfold tp_form. split.
  - cbn [ser_tp size_hint ser_bytes]. rewrite len_app, be_len. reflexivity.
  - eapply writes_ext.
    + intros b. apply tp_serialize. unfold max_offset. change (2 ^ 28) with 268435456 in Ho. lia.
    + rewrite (wire_offset_exact ubits) by assumption. rewrite word_flag. apply tp_word_emits.
Qed.

Lemma low_bit v : (N.land v 1 =? 1) = N.odd v.
Proof.
  change 1 with (N.ones 1) at 1. rewrite N.land_ones. change (2 ^ 1) with 2.
  rewrite <- N.bit0_mod. rewrite N.bit0_odd. destruct (N.odd v); reflexivity.
Qed.
Lemma high_bits v : v < 2 ^ 32 -> N.shiftr (N.land v 0xfffffff0) 4 = v / 16.
Proof.
  intros Hv. rewrite N.shiftr_land. change (N.shiftr 0xfffffff0 4) with (N.ones 28).
  rewrite N.land_ones, N.shiftr_div_pow2. change (2 ^ 4) with 16. change (2 ^ 28) with 268435456.
  change (2 ^ 32) with 4294967296 in Hv. apply N.mod_small. lia.
Qed.

Lemma tp_decode v body : v < 2 ^ 32 -> de_tp (be 4 v ++ body) = DOk (mkTp (v / 16) (N.odd v) body) [].
Proof.
  intros Hv. unfold de_tp. rewrite de_uint_be by exact Hv. cbn [dbind].
  rewrite high_bits by exact Hv. rewrite low_bit. reflexivity.
Qed.

Lemma odd_flag o m : N.odd (o * 16 + (if m : bool then 1 else 0)) = m.
Proof.
  rewrite N.odd_add. replace (o * 16) with (2 * (o * 8)) by lia. rewrite N.odd_mul. cbn. destruct m; reflexivity.
Qed.

Lemma tp_reads h : tp_offset h < 2 ^ 28 -> de_tp (tp_form h) = DOk h [].
Proof.
  intros Ho. unfold tp_form. change (2 ^ 28) with 268435456 in Ho.
  rewrite tp_decode by (change (2 ^ 32) with 4294967296; destruct (tp_more h); lia).
  rewrite odd_flag. replace ((tp_offset h * 16 + (if tp_more h then 1 else 0)) / 16) with (tp_offset h) by (destruct (tp_more h); lia).
  destruct h; reflexivity.
Qed.

Lemma cut_offset_bound : forall segs off body s, cut off body segs -> In s segs ->
  16 * tp_offset s <= 16 * off + len body /\ len (tp_body s) <= len body.
Proof.
  induction segs as [|s0 segs IH]; intros off body s Hc Hin; [contradiction|].
  destruct segs as [|s2 segs].
  - cbn [cut] in Hc. subst s0. destruct Hin as [<-|[]]. cbn [tp_offset tp_body]. lia.
  - apply cut_cons in Hc; [|discriminate]. destruct Hc as (Ho & Hm & u & Hu & Hl & b & -> & Hc).
    rewrite len_app. destruct Hin as [<-|Hin]; [lia|]. specialize (IH _ _ _ Hc Hin). lia.
Qed.

(** All but the last segment start before the end; an empty last segment is the only segment. *)
Lemma cut_offset_strict : forall segs off body s, cut off body segs -> In s segs ->
  (forall x, In x segs -> tp_body x <> []) -> 16 * tp_offset s < 16 * off + len body.
Proof.
  induction segs as [|s0 segs IH]; intros off body s Hc Hin Hne; [contradiction|].
  destruct segs as [|s2 segs].
  - cbn [cut] in Hc. subst s0. destruct Hin as [<-|[]]. cbn [tp_offset tp_body].
    specialize (Hne _ (or_introl eq_refl)). cbn [tp_body] in Hne. destruct body; [congruence|]. rewrite len_cons. lia.
  - apply cut_cons in Hc; [|discriminate]. destruct Hc as (Ho & Hm & u & Hu & Hl & b & -> & Hc).
    rewrite len_app. destruct Hin as [<-|Hin]; [lia|].
    assert (X := IH _ _ _ Hc Hin (fun x Hx => Hne x (or_intror Hx))). lia.
Qed.

Lemma run_bodies h segs : split_run h segs -> tp_body h <> [] -> forall s, In s segs -> tp_body s <> [].
Proof.
  induction 1 as [h limit h' Hl E|h limit s0 h' segs Hl E Hr IH]; intros Hne s Hin.
  - destruct (split_spec h limit Hl) as (u & _ & Hu & _ & [[_ E']|(_ & f & b & _ & _ & _ & E')]); rewrite E' in E; [|discriminate].
    injection E as <-. destruct Hin as [<-|[]]. exact Hne.
  - destruct (split_spec h limit Hl) as (u & _ & Hu & _ & [[_ E']|(_ & f & b & Eb & Hf & Hbn & E')]); rewrite E' in E; [discriminate|].
    injection E as <- <-. destruct Hin as [<-|Hin].
    + cbn [tp_body]. intros ->. change (len (@nil N)) with 0 in Hf. lia.
    + apply IH; assumption.
Qed.

Lemma run_offsets h segs s : split_run h segs -> tp_offset h = 0 -> len (tp_body h) <= 2 ^ 32 -> In s segs ->
  tp_offset s < 2 ^ 28.
Proof.
  intros Hr H0 Hl Hin. assert (Hc := run_cut _ _ Hr). rewrite H0 in Hc.
  change (2 ^ 32) with 4294967296 in Hl. change (2 ^ 28) with 268435456.
  destruct (tp_body h) as [|b0 body] eqn:Eb.
  - destruct (cut_offset_bound _ _ _ _ Hc Hin) as [X _]. change (len (@nil N)) with 0 in X. lia.
  - assert (X := cut_offset_strict _ _ _ _ Hc Hin (run_bodies _ _ Hr ltac:(rewrite Eb; discriminate))). lia.
Qed.
