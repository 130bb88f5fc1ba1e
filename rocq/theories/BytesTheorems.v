(** The statements of C01-C14, proved from BytesProofs.v and UniverseProofs.v. *)
From Coq Require Import List NArith ZArith Bool Lia ZifyBool ZifyNat ZifyN.
From Verif Require Import BytesModel StringModel UniverseModel StringSpec WireSpec BytesProofs UniverseProofs.
Import ListNotations.
Open Scope N_scope.
Ltac Zify.zify_post_hook ::= Z.div_mod_to_equations.
Arguments N.add : simpl never. Arguments N.mul : simpl never. Arguments N.pow : simpl never.
Arguments N.of_nat : simpl never. Arguments N.sub : simpl never.
Arguments Z.mul : simpl never. Arguments Z.pow : simpl never.

Lemma serialize_appends_wire t v bs data room :
  valid t v = true -> wire t v = Some bs -> len bs <= room ->
  serialize (ser t) v (mkW data room) = WOk (len bs) (mkW (data ++ bs) (room - len bs)).
Proof.
  intros Hv Hw Hr. assert (H := ser_wire t v Hv). unfold meets in H. rewrite Hw in H.
  destruct H as [_ H]. rewrite H. cbn [w_room]. destruct (N.leb_spec (len bs) room); [reflexivity|lia].
Qed.

Lemma serialize_success_is_wire t v b n b' :
  valid t v = true -> serialize (ser t) v b = WOk n b' ->
  exists bs, wire t v = Some bs /\ n = len bs /\ size_hint (ser t) v = n /\
             len bs <= w_room b /\ b' = mkW (w_data b ++ bs) (w_room b - len bs).
Proof.
  intros Hv E. assert (H := ser_wire t v Hv). unfold meets in H.
  destruct (wire t v) as [bs|].
  - destruct H as [Hh H]. rewrite H in E.
    destruct (N.leb_spec (len bs) (w_room b)); [|discriminate]. injection E as <- <-.
    exists bs. repeat split; assumption.
  - destruct H as [pre [r [m [_ H]]]]. rewrite H in E. destruct (_ <=? _) in E; discriminate.
Qed.

Lemma serialize_error_is_invalid_length t v b e b' :
  valid t v = true -> serialize (ser t) v b = WErr e b' ->
  wire t v = None /\ (exists required maximum, maximum < required /\ e = InvalidLength required maximum) /\
  exists pre, b' = mkW (w_data b ++ pre) (w_room b - len pre).
Proof.
  intros Hv E. assert (H := ser_wire t v Hv). unfold meets in H. destruct (wire t v) as [bs|].
  - destruct H as [_ H]. rewrite H in E. destruct (_ <=? _) in E; discriminate.
  - destruct H as [pre [r [m [Hm H]]]]. rewrite H in E. destruct (_ <=? _) in E; [|discriminate].
    injection E as <- <-. split; [reflexivity|]. split; [exists r, m; split; [exact Hm|reflexivity]|].
    exists pre. reflexivity.
Qed.

Lemma serialize_unencodable t v : valid t v = true -> wire t v = None -> exists pre required maximum,
  maximum < required /\ forall b,
  (len pre <= w_room b ->
   serialize (ser t) v b = WErr (InvalidLength required maximum) (mkW (w_data b ++ pre) (w_room b - len pre))) /\
  (w_room b < len pre -> serialize (ser t) v b = WPanic).
Proof.
  intros Hv Hw. assert (H := ser_wire t v Hv). unfold meets in H. rewrite Hw in H.
  destruct H as [pre [r [m [Hm H]]]]. exists pre, r, m. split; [exact Hm|]. intros b. rewrite H.
  destruct (N.leb_spec (len pre) (w_room b)); split; intros; try lia; reflexivity.
Qed.

Lemma serialize_len_exact t lf v payload :
  valid t v = true -> wire t v = Some payload ->
  (len payload < 256 ^ N.of_nat (lf_size lf) -> forall data room,
     N.of_nat (lf_size lf) + len payload <= room ->
     serialize_len (ser t) lf v (mkW data room) =
     WOk (N.of_nat (lf_size lf) + len payload)
         (mkW (data ++ be (lf_size lf) (len payload) ++ payload)
              (room - (N.of_nat (lf_size lf) + len payload)))) /\
  (256 ^ N.of_nat (lf_size lf) <= len payload -> forall b,
     serialize_len (ser t) lf v b =
     WErr (InvalidLength (len payload) (256 ^ N.of_nat (lf_size lf) - 1)) b).
Proof.
  intros Hv Hw. assert (H := serialize_len_meets (ser t) (wire t) lf v (ser_wire t v Hv)).
  rewrite Hw in H. unfold length_prefixed in H.
  split; intros Hl; revert H.
  - intros H data room Hr. revert H. destruct (N.ltb_spec (len payload) (256 ^ N.of_nat (lf_size lf))) as [Hlt|Hge]; [|lia]. intros H.
    rewrite H. unfold appended. cbn [w_room w_data]. rewrite len_app, be_len.
    destruct (N.leb_spec (N.of_nat (lf_size lf) + len payload) room); [reflexivity|lia].
  - intros H b. revert H. destruct (N.ltb_spec (len payload) (256 ^ N.of_nat (lf_size lf))) as [Hlt|Hge]; [lia|]. intros H.
    destruct (H b) as [-> _]. rewrite <- lf_max_spec. do 2 f_equal. lia.
Qed.

Lemma serialize_panics_iff_no_room t v bs b :
  valid t v = true -> wire t v = Some bs ->
  (serialize (ser t) v b = WPanic <-> w_room b < len bs) /\
  (forall e b', serialize (ser t) v b <> WErr e b').
Proof.
  intros Hv Hw. assert (H := ser_wire t v Hv). unfold meets in H. rewrite Hw in H. destruct H as [_ H].
  rewrite H. destruct (N.leb_spec (len bs) (w_room b)) as [Hl|Hl].
  - split; [split; [intros E; discriminate E|lia]|intros e b' E; rewrite H in E; destruct (_ <=? _) in E; discriminate].
  - split; [split; intros _; [exact Hl|reflexivity]|intros e b' E; rewrite H in E; destruct (_ <=? _) in E; discriminate].
Qed.

Lemma round_trip_delimited t v bs rest :
  delimited t = true -> valid t v = true -> nul_free t v = true -> wire t v = Some bs ->
  de t (bs ++ rest) = DOk v rest.
Proof. intros Hd Hv Hz Hw. destruct (round_trip t) as [H _]. apply (H Hd v bs Hv Hz Hw). Qed.

Lemma serialize_then_deserialize t v data room n b' rest :
  delimited t = true -> valid t v = true -> nul_free t v = true ->
  serialize (ser t) v (mkW data room) = WOk n b' ->
  exists bs, w_data b' = data ++ bs /\ len bs = n /\ de t (bs ++ rest) = DOk v rest.
Proof.
  intros Hd Hv Hz E. apply serialize_success_is_wire in E; [|exact Hv]. destruct E as [bs [Hw [Hn [_ [_ ->]]]]].
  exists bs. split; [reflexivity|]. split; [symmetry; exact Hn|]. apply round_trip_delimited; assumption.
Qed.

Lemma round_trip_framed t v bs :
  framed t = true -> valid t v = true -> nul_free t v = true -> wire t v = Some bs -> de t bs = DOk v [].
Proof. intros Hd Hv Hz Hw. destruct (round_trip t) as [_ H]. apply (H Hd v bs Hv Hz Hw). Qed.

Lemma round_trip_len t lf v data room n b' rest :
  framed t = true -> valid t v = true -> nul_free t v = true ->
  serialize_len (ser t) lf v (mkW data room) = WOk n b' ->
  exists bs, w_data b' = data ++ bs /\ len bs = n /\ deserialize_len (de t) lf (bs ++ rest) = DOk v rest.
Proof.
  intros Hf Hv Hz E. assert (H := serialize_then_deserialize (TLen lf t) v data room n b' rest).
  cbn [ser de] in H. exact (H Hf Hv Hz E).
Qed.

Lemma basic_unsigned s used rest :
  length used = isize_bytes s -> bytes_ok used ->
  de (TUInt s) (used ++ rest) = DOk (be_value used) rest.
Proof. intros H1 H2. apply de_uint_ok; assumption. Qed.

Lemma basic_float s used rest :
  length used = fsize_bytes s -> bytes_ok used ->
  de (TFloat s) (used ++ rest) = DOk (be_value used) rest.
Proof. intros H1 H2. apply de_uint_ok; assumption. Qed.

Lemma basic_signed s used rest :
  length used = isize_bytes s -> bytes_ok used ->
  exists z, de (TSInt s) (used ++ rest) = DOk z rest /\
    (- 2 ^ (8 * Z.of_nat (isize_bytes s) - 1) <= z < 2 ^ (8 * Z.of_nat (isize_bytes s) - 1))%Z /\
    (z mod 2 ^ (8 * Z.of_nat (isize_bytes s)) = Z.of_N (be_value used))%Z.
Proof.
  intros H1 H2. exists (of_twos (isize_bytes s) (be_value used)).
  assert (Hlt : be_value used < 256 ^ N.of_nat (isize_bytes s)).
  { rewrite <- H1. apply be_value_lt. exact H2. }
  split; [|split].
  - cbn [de]. unfold de_sint. rewrite de_uint_ok by assumption. reflexivity.
  - apply of_twos_range; [apply isize_pos|exact Hlt].
  - assert (H := to_of_twos (isize_bytes s) (be_value used) (isize_pos s) Hlt).
    unfold to_twos in H.
    assert (Hp : (0 < 2 ^ (8 * Z.of_nat (isize_bytes s)))%Z) by (apply Z.pow_pos_nonneg; lia).
    assert (Hm := Z.mod_pos_bound (of_twos (isize_bytes s) (be_value used)) _ Hp). lia.
Qed.

Lemma basic_short t k buf :
  basic_size t = Some k -> (length buf < k)%nat ->
  de t buf = DErr (InsufficientData (N.of_nat k) (len buf)) buf.
Proof.
  destruct t; cbn [basic_size]; try discriminate; intros E H; injection E as <-; cbn [de];
    unfold de_sint, de_float; rewrite ?de_bool_unfold, de_uint_short by exact H; reflexivity.
Qed.

Lemma bool_lsb b rest : de TBool (b :: rest) = DOk (N.odd b) rest.
Proof.
  cbn [de]. rewrite de_bool_unfold.
  destruct (de_uint_cases 1 (b :: rest)) as [[H _]|[_ ->]]; [cbn [length] in H; lia|].
  cbn [dmap dbind skipn firstn]. do 1 f_equal.
  unfold from_be_bytes. cbn [fold_left]. rewrite N.shiftl_0_l, N.lor_0_l.
  change 1 with (N.ones 1). rewrite N.land_ones. change (2^1) with 2. change (N.ones 1) with 1.
  rewrite <- N.bit0_mod, N.bit0_odd. destruct (N.odd b); reflexivity.
Qed.

Lemma bool_wire : wire TBool true = Some [1] /\ wire TBool false = Some [0].
Proof. split; reflexivity. Qed.

Lemma decode_never_panics t buf :
  de t buf <> DPanic /\
  (forall v rest, de t buf = DOk v rest -> exists used, buf = used ++ rest) /\
  (forall e rest, de t buf = DErr e rest -> exists used, buf = used ++ rest).
Proof.
  assert (H := de_sane t buf). destruct (de t buf) as [v r|e r| |] eqn:E.
  - split; [discriminate|]. split; [|discriminate]. intros v' r' E'. injection E' as <- <-. exact H.
  - split; [discriminate|]. split; [discriminate|]. intros v' r' E'. injection E' as <- <-. exact H.
  - destruct H.
  - split; [discriminate|]. split; discriminate.
Qed.

Lemma strict_injective t b1 b2 v rest : strict t = true -> bytes_ok b1 -> bytes_ok b2 ->
  de t b1 = DOk v rest -> de t b2 = DOk v rest -> b1 = b2.
Proof.
  intros Hs H1 H2 E1 E2.
  destruct (strict_reencode t Hs b1 v rest H1 E1) as [u1 [W1 ->]].
  destruct (strict_reencode t Hs b2 v rest H2 E2) as [u2 [W2 ->]]. congruence.
Qed.

Lemma fixed_size_decodes t n buf : fixed_size t = Some n -> n <= len buf ->
  exists v, forall other,
    de t (firstn (N.to_nat n) buf ++ other) = DOk v other.
Proof.
  intros Hf Hl. apply (fixed_complete t n Hf). unfold len in *. rewrite firstn_length. lia.
Qed.

Lemma array_never_fails t n buf :
  (forall b, de t b <> DHang) ->
  exists v rest, de (TArray t n) buf = DOk v rest /\ length v = n.
Proof.
  intros Hh. cbn [de value]. revert buf. induction n as [|n IH]; intros buf; cbn [de_array].
  - exists [], buf. split; reflexivity.
  - assert (Hs := de_sane t buf). specialize (Hh buf).
    destruct (de t buf) as [x r|e r| |]; [| |destruct Hs|congruence];
      destruct (IH r) as [v [rest [E Hl]]]; rewrite E; eexists; exists rest;
      (split; [reflexivity|cbn [length]; lia]).
Qed.

Lemma array_goes_on t n buf rest vs rest' : de (TArray t n) rest = DOk vs rest' ->
  (forall v, de t buf = DOk v rest -> de (TArray t (S n)) buf = DOk (v :: vs) rest') /\
  (forall e, de t buf = DErr e rest -> de (TArray t (S n)) buf = DOk (default t :: vs) rest').
Proof.
  intros E. cbn [de value de_array] in *. split; intros x Ex; rewrite Ex, E; reflexivity.
Qed.

Lemma array_default_fill t n (vs : list (value t)) used tail e :
  (length vs < n)%nat ->
  wire (TVec t) vs = Some used -> valid (TVec t) vs = true -> nul_free (TVec t) vs = true ->
  delimited t = true -> de t tail = DErr e tail ->
  de (TArray t n) (used ++ tail) = DOk (vs ++ repeat (default t) (n - length vs)) tail.
Proof.
  intros Hn Hw Hv Hz Hd He. cbn [de value]. revert n used Hn Hw.
  induction vs as [|x vs IH]; intros n used Hn Hw.
  - cbn [wire map concat_all] in Hw. injection Hw as <-. cbn [app length]. rewrite Nat.sub_0_r.
    clear Hn. induction n as [|n IHn]; [reflexivity|]. cbn [de_array repeat]. rewrite He, IHn. reflexivity.
  - cbn [wire map concat_all] in Hw. destruct (wire t x) as [bx|] eqn:Ex; [|discriminate].
    destruct (concat_all (map (wire t) vs)) as [bv|] eqn:Ev; [|discriminate]. injection Hw as <-.
    cbn [valid] in Hv. rewrite forallb_cons in Hv. apply andb_true_iff in Hv as [Hx Hv].
    cbn [nul_free] in Hz. rewrite forallb_cons in Hz. apply andb_true_iff in Hz as [Hzx Hz].
    destruct n as [|n]; [cbn [length] in Hn; lia|]. cbn [de_array]. rewrite <- app_assoc.
    rewrite (round_trip_delimited t x bx (bv ++ tail) Hd Hx Hzx Ex).
    rewrite (IH Hv Hz n bv ltac:(cbn [length] in Hn; lia) Ev). reflexivity.
Qed.

Lemma loops_hangs {A} (d : Deserialize A) buf : loops d buf -> forall fuel, vec_loop d fuel buf = DHang.
Proof.
  intros H. induction H as [buf v Hne E|buf Hne E|buf v rest Hne E Hl IH]; intros fuel.
  - apply (vec_stall d buf v Hne E).
  - destruct fuel; [reflexivity|]. cbn [vec_loop]. destruct buf; [congruence|]. rewrite E. reflexivity.
  - destruct fuel as [|fuel]; [reflexivity|]. cbn [vec_loop]. destruct buf; [congruence|]. rewrite E.
    cbn [dbind]. rewrite IH. reflexivity.
Qed.

Lemma hangs_loops {A} (d : Deserialize A) : sane d -> forall buf, de_vec d buf = DHang -> loops d buf.
Proof.
  intros Hs buf. unfold de_vec.
  enough (H : forall n buf, (length buf <= n)%nat -> vec_loop d (S (length buf)) buf = DHang -> loops d buf)
    by (apply (H (length buf)); lia).
  clear buf. induction n as [|n IH]; intros buf Hn E.
  - destruct buf; [discriminate|cbn [length] in Hn; lia].
  - destruct buf as [|b buf]; [discriminate|]. assert (Hne : b :: buf <> []) by congruence.
    assert (Hs' := Hs (b :: buf)).
    destruct (d (b :: buf)) as [x r|e r| |] eqn:Ex.
    + destruct Hs' as [u Hu].
      destruct (Nat.ltb_spec (length r) (length (b :: buf))) as [Hlt|Hge].
      * apply (loops_later d _ x r Hne Ex). apply IH; [cbn [length] in *; lia|].
        cbn [vec_loop] in E. rewrite Ex in E. cbn [dbind] in E.
        assert (Ef : vec_loop d (length (b :: buf)) r = vec_loop d (S (length r)) r).
        { apply (vec_fuel_enough d r _ Hs). exact Hlt. }
        cbn [length] in *. rewrite Ef in E. destruct (vec_loop d (S (length r)) r); try discriminate. reflexivity.
      * rewrite Hu in Hge. assert (u = []) by (eapply suffix_same_length; exact Hge). subst u.
        cbn [app] in Hu. subst r. apply (loops_stall d _ x Hne Ex).
    + cbn [vec_loop] in E. rewrite Ex in E. discriminate.
    + destruct Hs'.
    + apply (loops_hang d _ Hne Ex).
Qed.

Lemma vec_hangs_iff t buf :
  (forall fuel, vec_loop (de t) fuel buf = DHang) <-> loops (de t) buf.
Proof.
  split; [intros H; apply hangs_loops; [apply de_sane|]; apply H|apply loops_hangs].
Qed.

Lemma vec_fuel_irrelevant t buf fuel : (length buf < fuel)%nat ->
  vec_loop (de t) fuel buf = de (TVec t) buf.
Proof. intros H. apply (vec_fuel_enough (de t) buf fuel (de_sane t) H). Qed.

Lemma vec_of_empty_arrays_hangs t buf : buf <> [] ->
  forall fuel, vec_loop (de (TArray t 0)) fuel buf = DHang.
Proof. intros H. apply (vec_stall _ buf [] H). reflexivity. Qed.

Lemma vec_of_wide_arrays_hangs s n b : isize_bytes s <> 1%nat ->
  forall fuel, vec_loop (de (TArray (TUInt s) n)) fuel [b] = DHang.
Proof.
  intros Hs. apply (vec_stall _ [b] (repeat 0 n)); [congruence|].
  assert (Hd : de (TUInt s) [b] = DErr (InsufficientData (N.of_nat (isize_bytes s)) 1) [b]).
  { apply (de_uint_short (isize_bytes s) [b]). cbn [length]. assert (H := isize_pos s). lia. }
  cbn [de] in *. induction n as [|n IH]; [reflexivity|]. cbn [de_array repeat]. rewrite Hd.
  change (default (TUInt s)) with 0 in *. rewrite IH. reflexivity.
Qed.

Lemma len_confined {A} (d : Deserialize A) lf n payload rest :
  n < 256 ^ N.of_nat (lf_size lf) -> len payload = n ->
  deserialize_len d lf (be (lf_size lf) n ++ payload ++ rest) =
  match d payload with
  | DOk v unread => DOk v (unread ++ rest)
  | DErr e unread => DErr e (unread ++ rest)
  | DPanic => DPanic
  | DHang => DHang
  end.
Proof. intros Hn Hl. subst n. apply deserialize_len_exact. exact Hn. Qed.

Lemma len_not_enforced {A} (d : Deserialize A) lf n payload :
  n < 256 ^ N.of_nat (lf_size lf) -> len payload <= n ->
  deserialize_len d lf (be (lf_size lf) n ++ payload) = d payload.
Proof.
  intros Hn Hl. unfold deserialize_len. rewrite de_uint_be by exact Hn. cbn [dbind].
  unfold with_take. rewrite N.min_r by exact Hl.
  replace (N.to_nat (len payload)) with (length payload) by (unfold len; lia).
  rewrite firstn_all, skipn_all.
  destruct (d payload); rewrite ?app_nil_r; reflexivity.
Qed.

Lemma len_short_field {A} (d : Deserialize A) lf buf : (length buf < lf_size lf)%nat ->
  deserialize_len d lf buf = DErr (InsufficientData (N.of_nat (lf_size lf)) (len buf)) buf.
Proof. intros H. unfold deserialize_len. rewrite de_uint_short by exact H. reflexivity. Qed.

(** C09: different inputs, same value. *)
Lemma bool_ambiguous : exists b1 b2 v, b1 <> b2 /\ bytes_ok b1 /\ bytes_ok b2 /\
  de TBool b1 = DOk v [] /\ de TBool b2 = DOk v [].
Proof.
  exists [1], [3], true. split; [discriminate|].
  repeat split; try (repeat constructor; fail); vm_compute; reflexivity.
Qed.

Lemma array_ambiguous : exists b1 b2 v, b1 <> b2 /\ bytes_ok b1 /\ bytes_ok b2 /\
  de (TArray (TUInt B1) 2) b1 = DOk v [] /\ de (TArray (TUInt B1) 2) b2 = DOk v [].
Proof.
  exists [1], [1; 0], [1; 0]. split; [discriminate|].
  repeat split; try (repeat constructor; fail); vm_compute; reflexivity.
Qed.

Lemma len_ambiguous : exists b1 b2 v, b1 <> b2 /\ bytes_ok b1 /\ bytes_ok b2 /\
  de (TLen LF8 TBytes) b1 = DOk v [] /\ de (TLen LF8 TBytes) b2 = DOk v [].
Proof.
  exists [1; 7], [5; 7], [7]. split; [discriminate|].
  repeat split; try (repeat constructor; fail); vm_compute; reflexivity.
Qed.

Lemma string_ambiguous e : exists b1 b2 v, b1 <> b2 /\ bytes_ok b1 /\ bytes_ok b2 /\
  de (TString e) b1 = DOk v [] /\ de (TString e) b2 = DOk v [].
Proof.
  exists (text_utf8 [65]), (text_utf16_be [65]), [65]. split; [discriminate|].
  repeat split; try (repeat constructor; fail); vm_compute; reflexivity.
Qed.

Lemma vec_of_string_arrays_hangs e n b :
  forall fuel, vec_loop (de (TArray (TString e) n)) fuel [b] = DHang.
Proof.
  apply (vec_stall _ [b] (repeat [] n)); [congruence|].
  cbn [de]. induction n as [|n IH]; [reflexivity|]. cbn [de_array repeat].
  change (de_string Little [b]) with (@DErr (list N) (InsufficientData 2 1) [b]).
  cbn [default] in *. rewrite IH. reflexivity.
Qed.

(** Decoded strings contain no U+0000. *)
Lemma de_nul_free t : forall buf v rest, bytes_ok buf -> de t buf = DOk v rest -> nul_free t v = true.
Proof.
  ty_induction t; intros buf v rest Hb E; try reflexivity.
  - cbn [de nul_free] in *. apply string_text in E; [|exact Hb]. apply forallb_forall. intros c Hc.
    unfold text in E. rewrite Forall_forall in E. destruct (E c Hc) as [_ H]. apply negb_true_iff, N.eqb_neq, H.
  - cbn [de nul_free] in *. revert buf v rest Hb E.
    assert (D : nul_free t (default t) = true).
    { clear. ty_induction t; try reflexivity.
      - cbn [nul_free default]. apply forallb_forall. intros x Hx. apply repeat_spec in Hx. subst x. exact IH.
      - change (nul_free t (default t) && nul_free (TTuple ts) (default (TTuple ts)) = true).
        rewrite IHt, IHts. reflexivity.
      - exact IH. }
    induction n as [|n IHn]; intros buf v rest Hb E; cbn [de_array] in E.
    + injection E as <- _. reflexivity.
    + destruct (de t buf) as [x r|e r| |] eqn:Ex; try discriminate.
      * destruct (de_array (de t) (default t) n r) as [y r'|e r'| |] eqn:Ey; try discriminate.
        cbn [dmap dbind] in E. injection E as <- <-.
        rewrite forallb_cons, (IH _ _ _ Hb Ex). exact (IHn r y r' (sane_ok _ _ _ _ (de_sane t) Hb Ex) Ey).
      * destruct (de_array (de t) (default t) n r) as [y r'|e' r'| |] eqn:Ey; try discriminate.
        cbn [dmap dbind] in E. injection E as <- <-.
        rewrite forallb_cons, D. exact (IHn r y r' (sane_err _ _ _ _ (de_sane t) Hb Ex) Ey).
  - cbn [de nul_free] in *. unfold de_vec in E. revert E. generalize (S (length buf)). intros fuel.
    revert buf v rest Hb. induction fuel as [|fuel IHf]; intros buf v rest Hb E; cbn [vec_loop] in E;
      [discriminate|].
    destruct buf as [|b buf]; [injection E as <- _; reflexivity|].
    destruct (de t (b :: buf)) as [x r|e r| |] eqn:Ex; try discriminate. cbn [dbind] in E.
    destruct (vec_loop (de t) fuel r) as [y r'|e r'| |] eqn:Ey; try discriminate.
    cbn [dmap dbind] in E. injection E as <- <-.
    rewrite forallb_cons, (IH _ _ _ Hb Ex).
    exact (IHf r y r' (sane_ok _ _ _ _ (de_sane t) Hb Ex) Ey).
  - change (de_tuple_cons (de t) (de (TTuple ts)) buf = DOk v rest) in E.
    change (nul_free t (fst v) && nul_free (TTuple ts) (snd v) = true).
    unfold de_tuple_cons in E. destruct (de t buf) as [x r|e r| |] eqn:Ex; try discriminate.
    cbn [dbind] in E. destruct (de (TTuple ts) r) as [y r'|e r'| |] eqn:Ey; try discriminate.
    cbn [dbind] in E. injection E as <- <-. cbn [fst snd].
    rewrite (IHt _ _ _ Hb Ex), (IHts _ _ _ (sane_ok _ _ _ _ (de_sane t) Hb Ex) Ey). reflexivity.
  - cbn [de nul_free] in *. unfold deserialize_len in E.
    destruct (de_uint (lf_size lf) buf) as [n r|e r| |] eqn:En; try discriminate. cbn [dbind] in E.
    unfold with_take in E.
    destruct (de t (firstn (N.to_nat (N.min n (len r))) r)) as [x r'|e r'| |] eqn:Ex; try discriminate.
    injection E as <- _. eapply IH; [|exact Ex].
    apply bytes_ok_firstn. apply (sane_ok _ _ _ _ (de_uint_sane (lf_size lf)) Hb En).
Qed.

Lemma de_in_range t buf v rest : bytes_ok buf -> de t buf = DOk v rest ->
  valid t v = true /\ nul_free t v = true.
Proof. intros Hb E. split; [exact (de_valid t buf v rest Hb E)|exact (de_nul_free t buf v rest Hb E)]. Qed.

(** C02. *)
Lemma size_hint_exact : forall t v b n b',
  valid t v = true -> serialize (ser t) v b = WOk n b' ->
  size_hint (ser t) v = n /\ len (w_data b') = len (w_data b) + n.
Proof.
  intros t v b n b' Hv E. destruct (serialize_success_is_wire t v b n b' Hv E) as (bs & _ & Hn & Hh & _ & Hb).
  split; [exact Hh|]. rewrite Hb. cbn [w_data]. rewrite len_app. lia.
Qed.

Lemma size_hint_is_wire_length : forall t v bs, valid t v = true -> wire t v = Some bs -> size_hint (ser t) v = len bs.
Proof.
  intros t v bs Hv Hw.
  assert (E := serialize_appends_wire t v bs [] (len bs) Hv Hw (N.le_refl _)).
  destruct (size_hint_exact _ _ _ _ _ Hv E) as [H _]. exact H.
Qed.
