(** Facts about the codec of BytesModel.v that do not depend on the universe of types. *)
From Coq Require Import List NArith ZArith Bool Lia ZifyBool ZifyNat ZifyN.
From Verif Require Import BytesModel UniverseModel WireSpec.
Import ListNotations.
Open Scope N_scope.
Ltac Zify.zify_post_hook ::= Z.div_mod_to_equations.
Arguments N.add : simpl never. Arguments N.mul : simpl never. Arguments N.pow : simpl never.
Arguments N.of_nat : simpl never. Arguments N.sub : simpl never.
Arguments Z.mul : simpl never. Arguments Z.pow : simpl never.

(** * Lengths *)

Lemma len_nil {A} : len (@nil A) = 0. Proof. reflexivity. Qed.
Lemma len_cons {A} (x : A) l : len (x :: l) = 1 + len l.
Proof. unfold len; cbn [length]; lia. Qed.
Lemma len_app {A} (a b : list A) : len (a ++ b) = len a + len b.
Proof. unfold len; rewrite app_length; lia. Qed.
Lemma len_zero {A} (l : list A) : len l = 0 -> l = [].
Proof. destruct l; [reflexivity|rewrite len_cons; lia]. Qed.
Lemma len_map {A B} (f : A -> B) l : len (map f l) = len l.
Proof. unfold len; rewrite map_length; reflexivity. Qed.
Lemma len_length {A} (l : list A) k : len l = N.of_nat k <-> length l = k.
Proof. unfold len; lia. Qed.

Lemma firstn_app_exact {A} (a b : list A) : firstn (length a) (a ++ b) = a.
Proof. rewrite firstn_app, firstn_all, Nat.sub_diag, firstn_O, app_nil_r; reflexivity. Qed.
Lemma skipn_app_exact {A} (a b : list A) : skipn (length a) (a ++ b) = b.
Proof. rewrite skipn_app, skipn_all, Nat.sub_diag; reflexivity. Qed.

(** * Big-endian integers *)

Lemma land_255 x : N.land x 255 = x mod 256.
Proof. change 255 with (N.ones 8). rewrite N.land_ones. reflexivity. Qed.

Lemma be_S k v : be (S k) v = (v / 256 ^ N.of_nat k) mod 256 :: be k v.
Proof.
  unfold be. cbn [seq map]. f_equal.
  - replace (S k - 1 - 0)%nat with k by lia. reflexivity.
  - rewrite <- seq_shift, map_map. apply map_ext_in. intros i Hi.
    apply in_seq in Hi. replace (S k - 1 - S i)%nat with (k - 1 - i)%nat by lia. reflexivity.
Qed.

Lemma be_len k v : len (be k v) = N.of_nat k.
Proof. unfold be. rewrite len_map. unfold len. rewrite seq_length. reflexivity. Qed.
Lemma be_length k v : length (be k v) = k.
Proof. unfold be. rewrite map_length, seq_length. reflexivity. Qed.

Lemma pow256 k : 256 ^ k = 2 ^ (8 * k).
Proof. rewrite N.pow_mul_r. reflexivity. Qed.

Lemma to_be_bytes_be k v : to_be_bytes k v = be k v.
Proof.
  induction k as [|k IH]; [reflexivity|].
  cbn [to_be_bytes]. rewrite be_S, IH, land_255, N.shiftr_div_pow2, <- pow256. reflexivity.
Qed.

Lemma be_is_byte k v : Forall (fun b => b < 256) (be k v).
Proof.
  unfold be. apply Forall_forall. intros x Hx. apply in_map_iff in Hx.
  destruct Hx as [i [<- _]]. apply N.mod_lt. lia.
Qed.

Lemma lor_shiftl_add a b : b < 256 -> N.lor (N.shiftl a 8) b = a * 256 + b.
Proof.
  intros Hb. rewrite N.shiftl_mul_pow2.
  assert (Hz : N.land (a * 2 ^ 8) b = 0).
  { apply N.bits_inj_0. intros i. rewrite N.land_spec.
    destruct (N.ltb_spec i 8) as [Hi|Hi].
    - rewrite N.mul_pow2_bits_low by exact Hi. reflexivity.
    - rewrite andb_comm. destruct (N.eq_dec b 0) as [->|Hn].
      + rewrite N.bits_0. reflexivity.
      + rewrite (N.bits_above_log2 b i); [reflexivity|].
        enough (N.log2 b < 8) by lia.
        apply N.log2_lt_pow2; [lia|]. change (2^8) with 256. lia. }
  assert (H := N.add_nocarry_lxor _ _ Hz).
  rewrite <- N.lxor_lor by exact Hz. rewrite <- H. change (2^8) with 256. reflexivity.
Qed.

Lemma from_be_acc bs : forall acc, Forall (fun b => b < 256) bs ->
  fold_left (fun acc b => N.lor (N.shiftl acc 8) b) bs acc = acc * 256 ^ len bs + be_value bs.
Proof.
  induction bs as [|b bs IH]; intros acc H.
  - cbn [fold_left be_value]. rewrite len_nil, N.pow_0_r. lia.
  - inversion H; subst. cbn [fold_left be_value]. rewrite IH by assumption.
    rewrite lor_shiftl_add by assumption. rewrite len_cons, N.add_1_l, N.pow_succ_r'. lia.
Qed.

Lemma from_be_value bs : Forall (fun b => b < 256) bs -> from_be_bytes bs = be_value bs.
Proof. intros H. unfold from_be_bytes. rewrite from_be_acc by exact H. lia. Qed.

Lemma be_value_be k v : be_value (be k v) = v mod 256 ^ N.of_nat k.
Proof.
  induction k as [|k IH].
  - cbn [be seq map be_value]. change (N.of_nat 0) with 0. rewrite N.pow_0_r, N.mod_1_r. reflexivity.
  - rewrite be_S. cbn [be_value]. rewrite IH, be_len.
    rewrite Nat2N.inj_succ, N.pow_succ_r'.
    assert (Hp : 256 ^ N.of_nat k <> 0) by (apply N.pow_nonzero; lia).
    rewrite (N.mul_comm 256), N.mod_mul_r by lia. lia.
Qed.

Lemma be_value_lt bs : Forall (fun b => b < 256) bs -> be_value bs < 256 ^ len bs.
Proof.
  induction bs as [|b bs IH]; intros H.
  - reflexivity.
  - inversion H; subst. cbn [be_value]. specialize (IH ltac:(assumption)).
    rewrite len_cons, N.add_1_l, N.pow_succ_r'. nia.
Qed.

Lemma be_mod k : forall v m, be k (v mod 256 ^ N.of_nat (k + m)) = be k v.
Proof.
  induction k as [|k IH]; intros v m; [reflexivity|].
  rewrite !be_S. f_equal.
  - assert (Hp : 256 ^ N.of_nat k <> 0) by (apply N.pow_nonzero; lia).
    replace (N.of_nat (S k + m)) with (N.of_nat k + N.of_nat (S m)) by lia.
    rewrite N.pow_add_r.
    assert (Hq : 256 ^ N.of_nat (S m) <> 0) by (apply N.pow_nonzero; lia).
    rewrite N.mod_mul_r by assumption.
    rewrite (N.mul_comm (256 ^ N.of_nat k)), N.div_add by assumption.
    rewrite (N.div_small (v mod _)) by (apply N.mod_lt; assumption).
    rewrite N.add_0_l. rewrite Nat2N.inj_succ, N.pow_succ_r'.
    rewrite (N.mod_mul_r _ 256) by (try apply N.pow_nonzero; lia).
    rewrite (N.mul_comm 256), N.mod_add by lia. rewrite N.mod_mod by lia. reflexivity.
  - replace (S k + m)%nat with (k + S m)%nat by lia. apply IH.
Qed.

Lemma be_be_value bs : Forall (fun b => b < 256) bs -> be (length bs) (be_value bs) = bs.
Proof.
  induction bs as [|b bs IH]; intros H; [reflexivity|].
  inversion H; subst. cbn [length]. rewrite be_S. cbn [be_value].
  assert (Hlt := be_value_lt bs ltac:(assumption)).
  assert (Hp : 256 ^ len bs <> 0) by (apply N.pow_nonzero; lia).
  f_equal.
  - fold (len bs). rewrite N.add_comm, N.div_add by exact Hp.
    rewrite (N.div_small (be_value bs)) by exact Hlt. rewrite N.add_0_l. apply N.mod_small. assumption.
  - etransitivity; [|exact (IH ltac:(assumption))].
    rewrite <- (be_mod (length bs) _ 0). rewrite Nat.add_0_r. fold (len bs).
    rewrite N.add_comm, N.mod_add by exact Hp. rewrite N.mod_small by exact Hlt. reflexivity.
Qed.

Lemma from_be_be k v : v < 256 ^ N.of_nat k -> from_be_bytes (be k v) = v.
Proof.
  intros H. rewrite from_be_value by apply be_is_byte. rewrite be_value_be.
  apply N.mod_small. exact H.
Qed.

(** * Two's complement *)

Lemma of_to_twos k z : (0 < k)%nat ->
  (- 2 ^ (8 * Z.of_nat k - 1) <= z < 2 ^ (8 * Z.of_nat k - 1))%Z ->
  of_twos k (to_twos k z) = z.
Proof.
  intros Hk Hz. unfold of_twos, to_twos.
  assert (Hp : (2 ^ (8 * Z.of_nat k) = 2 * 2 ^ (8 * Z.of_nat k - 1))%Z).
  { rewrite <- Z.pow_succ_r by lia. f_equal. lia. }
  set (h := (2 ^ (8 * Z.of_nat k - 1))%Z) in *.
  assert (Hh : (0 < h)%Z) by (apply Z.pow_pos_nonneg; lia).
  assert (HN : Z.of_N (2 ^ (8 * N.of_nat k - 1)) = h).
  { unfold h. rewrite N2Z.inj_pow. f_equal. lia. }
  rewrite Hp.
  assert (Hm : (z mod (2 * h) = if z <? 0 then z + 2 * h else z)%Z).
  { destruct (Z.ltb_spec z 0) as [Hn|Hn].
    - replace z with ((z + 2 * h) + (-1) * (2 * h))%Z at 1 by lia.
      rewrite Z.mod_add by lia. apply Z.mod_small. lia.
    - apply Z.mod_small. lia. }
  rewrite Hm. clear Hm. destruct (Z.ltb_spec z 0) as [Hn|Hn];
    (match goal with |- context [N.ltb ?a ?b] => destruct (N.ltb_spec a b) as [Hlt|Hge] end); lia.
Qed.

Lemma to_twos_lt k z : to_twos k z < 256 ^ N.of_nat k.
Proof.
  unfold to_twos. rewrite pow256.
  assert (H : (0 < 2 ^ (8 * Z.of_nat k))%Z) by (apply Z.pow_pos_nonneg; lia).
  assert (Hm := Z.mod_pos_bound z _ H).
  assert (HN : Z.of_N (2 ^ (8 * N.of_nat k)) = (2 ^ (8 * Z.of_nat k))%Z).
  { rewrite N2Z.inj_pow. f_equal. lia. }
  lia.
Qed.

Lemma to_of_twos k n : (0 < k)%nat -> n < 256 ^ N.of_nat k -> to_twos k (of_twos k n) = n.
Proof.
  intros Hk Hn. rewrite pow256 in Hn. unfold of_twos, to_twos.
  assert (HN : Z.of_N (2 ^ (8 * N.of_nat k)) = (2 ^ (8 * Z.of_nat k))%Z).
  { rewrite N2Z.inj_pow. f_equal. lia. }
  set (m := (2 ^ (8 * Z.of_nat k))%Z) in *.
  destruct (n <? 2 ^ (8 * N.of_nat k - 1)).
  - rewrite Z.mod_small by lia. lia.
  - replace (Z.of_N n - m)%Z with (Z.of_N n + (-1) * m)%Z by lia.
    rewrite Z.mod_add by lia. rewrite Z.mod_small by lia. lia.
Qed.

Lemma of_twos_range k n : (0 < k)%nat -> n < 256 ^ N.of_nat k ->
  (- 2 ^ (8 * Z.of_nat k - 1) <= of_twos k n < 2 ^ (8 * Z.of_nat k - 1))%Z.
Proof.
  intros Hk Hn. rewrite pow256 in Hn. unfold of_twos.
  assert (Hp : (2 ^ (8 * Z.of_nat k) = 2 * 2 ^ (8 * Z.of_nat k - 1))%Z).
  { rewrite <- Z.pow_succ_r by lia. f_equal. lia. }
  assert (HN : Z.of_N (2 ^ (8 * N.of_nat k)) = (2 ^ (8 * Z.of_nat k))%Z).
  { rewrite N2Z.inj_pow. f_equal. lia. }
  assert (HN' : Z.of_N (2 ^ (8 * N.of_nat k - 1)) = (2 ^ (8 * Z.of_nat k - 1))%Z).
  { rewrite N2Z.inj_pow. f_equal. lia. }
  assert (Hpos : (0 < 2 ^ (8 * Z.of_nat k - 1))%Z) by (apply Z.pow_pos_nonneg; lia).
  destruct (N.ltb_spec n (2 ^ (8 * N.of_nat k - 1))); lia.
Qed.

(** * Serializers *)

(** [appends b bs]: the buffer [b] after writing [bs]. *)
Definition appended (b : wbuf) (bs : list N) : wbuf := mkW (w_data b ++ bs) (w_room b - len bs).

(** A serializer call that writes [bs] whatever the buffer, panicking without room. *)
Definition writes (f : wbuf -> wres) (bs : list N) : Prop :=
  forall b, f b = if len bs <=? w_room b then WOk (len bs) (appended b bs) else WPanic.

(** A serializer call that fails after writing [pre]. *)
Definition fails (f : wbuf -> wres) (pre : list N) (e : ser_error) : Prop :=
  forall b, f b = if len pre <=? w_room b then WErr e (appended b pre) else WPanic.

Definition meets {A} (S : Serialize A) (w : A -> option (list N)) (v : A) : Prop :=
  match w v with
  | Some bs => size_hint S v = len bs /\ writes (serialize S v) bs
  | None => exists pre required maximum, maximum < required /\
              fails (serialize S v) pre (InvalidLength required maximum)
  end.

Lemma put_slice_spec bs b :
  put_slice bs b = if len bs <=? w_room b then Some (appended b bs) else None.
Proof. reflexivity. Qed.

Lemma appended_nil b : appended b [] = b.
Proof. unfold appended. rewrite len_nil, app_nil_r, N.sub_0_r. destruct b; reflexivity. Qed.

Lemma appended_app b x y : appended (appended b x) y = appended b (x ++ y).
Proof. unfold appended; cbn [w_data w_room]. rewrite app_assoc, len_app, N.sub_add_distr. reflexivity. Qed.

Lemma room_appended b x : w_room (appended b x) = w_room b - len x.
Proof. reflexivity. Qed.

Lemma ser_uint_writes k v : writes (serialize (ser_uint k) v) (be k v).
Proof.
  intros b. cbn [ser_uint serialize]. rewrite to_be_bytes_be, put_slice_spec.
  destruct (len (be k v) <=? w_room b); [rewrite be_len|]; reflexivity.
Qed.

(** Sequencing two calls. *)
Definition wseq (f g : wbuf -> wres) (b : wbuf) : wres :=
  wbind (f b) (fun n b1 => wbind (g b1) (fun m b2 => WOk (n + m) b2)).

Lemma wseq_writes f g x y : writes f x -> writes g y -> writes (wseq f g) (x ++ y).
Proof.
  intros Hf Hg b. unfold wseq. rewrite Hf, len_app.
  destruct (N.leb_spec (len x) (w_room b)) as [H1|H1]; cbn [wbind].
  - rewrite Hg, room_appended, appended_app.
    destruct (N.leb_spec (len y) (w_room b - len x)) as [H2|H2]; cbn [wbind];
      destruct (N.leb_spec (len x + len y) (w_room b)) as [H3|H3]; try lia; reflexivity.
  - destruct (N.leb_spec (len x + len y) (w_room b)) as [H3|H3]; [lia|reflexivity].
Qed.

Lemma wseq_fails_l f g pre e : fails f pre e -> fails (wseq f g) pre e.
Proof.
  intros Hf b. unfold wseq. rewrite Hf. destruct (len pre <=? w_room b); reflexivity.
Qed.

Lemma wseq_fails_r f g x pre e : writes f x -> fails g pre e -> fails (wseq f g) (x ++ pre) e.
Proof.
  intros Hf Hg b. unfold wseq. rewrite Hf, len_app.
  destruct (N.leb_spec (len x) (w_room b)) as [H1|H1]; cbn [wbind].
  - rewrite Hg, room_appended, appended_app.
    destruct (N.leb_spec (len pre) (w_room b - len x)) as [H2|H2]; cbn [wbind];
      destruct (N.leb_spec (len x + len pre) (w_room b)) as [H3|H3]; try lia; reflexivity.
  - destruct (N.leb_spec (len x + len pre) (w_room b)) as [H3|H3]; [lia|reflexivity].
Qed.

Lemma ser_uint_meets k v : meets (ser_uint k) (fun v => Some (be k v)) v.
Proof. split; [symmetry; apply be_len|apply ser_uint_writes]. Qed.

Lemma ser_bool_meets v : meets ser_bool (fun v : bool => Some [if v then 1 else 0]) v.
Proof.
  split; [destruct v; reflexivity|]. intros b. destruct v; apply (ser_uint_writes 1).
Qed.

Lemma ser_bytes_meets v : meets ser_bytes (fun v => Some v) v.
Proof.
  split; [reflexivity|]. intros b. cbn [ser_bytes serialize]. rewrite put_slice_spec.
  destruct (len v <=? w_room b); reflexivity.
Qed.

Lemma ser_elems_total {A} (S : Serialize A) l : forall total b,
  ser_elems S l total b = wbind (ser_elems S l 0 b) (fun n b' => WOk (total + n) b').
Proof.
  induction l as [|x l IH]; intros total b; cbn [ser_elems wbind].
  - rewrite N.add_0_r. reflexivity.
  - destruct (serialize S x b) as [n b'|e b'|]; cbn [wbind]; [|reflexivity|reflexivity].
    rewrite (IH (total + n)), (IH (0 + n)).
    destruct (ser_elems S l 0 b') as [m b''|e b''|]; cbn [wbind]; [|reflexivity|reflexivity].
    f_equal. lia.
Qed.

Lemma hint_elems_total {A} (S : Serialize A) l : forall total,
  hint_elems S l total = total + hint_elems S l 0.
Proof.
  induction l as [|x l IH]; intros total; cbn [hint_elems]; [lia|].
  rewrite (IH (total + _)), (IH (0 + _)). lia.
Qed.

Lemma ser_elems_cons {A} (S : Serialize A) x l b :
  ser_elems S (x :: l) 0 b = wseq (serialize S x) (ser_elems S l 0) b.
Proof.
  cbn [ser_elems]. unfold wseq. destruct (serialize S x b); cbn [wbind]; [|reflexivity|reflexivity].
  rewrite ser_elems_total, N.add_0_l. reflexivity.
Qed.

Lemma writes_ext f g bs : (forall b, f b = g b) -> writes g bs -> writes f bs.
Proof. intros H Hg b. rewrite H. apply Hg. Qed.
Lemma fails_ext f g pre e : (forall b, f b = g b) -> fails g pre e -> fails f pre e.
Proof. intros H Hg b. rewrite H. apply Hg. Qed.

Lemma ser_slice_meets {A} (S : Serialize A) (w : A -> option (list N)) l :
  (forall v, In v l -> meets S w v) ->
  meets (ser_slice S) (fun l => concat_all (map w l)) l.
Proof.
  unfold meets at 2. induction l as [|x l IH]; intros H.
  - cbn [map concat_all]. split; [reflexivity|]. intros b. cbn [ser_slice serialize ser_elems].
    rewrite appended_nil. change (len (@nil N)) with 0. destruct (N.leb_spec 0 (w_room b)); [reflexivity|lia].
  - assert (Hx := H x (or_introl eq_refl)). specialize (IH (fun v Hv => H v (or_intror Hv))).
    cbn [map concat_all]. unfold meets in Hx. destruct (w x) as [bx|].
    + destruct Hx as [Hhx Hwx]. destruct (concat_all (map w l)) as [bl|].
      * destruct IH as [Hhl Hwl]. split.
        -- cbn [ser_slice size_hint] in *. cbn [hint_elems]. rewrite hint_elems_total, len_app. lia.
        -- eapply writes_ext; [intros b; apply ser_elems_cons|]. apply wseq_writes; assumption.
      * destruct IH as [pre [r [m [Hm Hf]]]]. exists (bx ++ pre), r, m. split; [exact Hm|].
        eapply fails_ext; [intros b; apply ser_elems_cons|]. apply wseq_fails_r; assumption.
    + destruct Hx as [pre [r [m [Hm Hf]]]]. exists pre, r, m. split; [exact Hm|].
      eapply fails_ext; [intros b; apply ser_elems_cons|]. apply wseq_fails_l; assumption.
Qed.

Lemma ser_tuple_nil_meets v : meets ser_tuple_nil (fun _ => Some []) v.
Proof.
  split; [reflexivity|]. intros b. cbn [ser_tuple_nil serialize]. rewrite appended_nil.
  change (len (@nil N)) with 0.
  destruct (N.leb_spec 0 (w_room b)); [reflexivity|lia].
Qed.

Lemma concat_all_2 x y : concat_all [x; y] =
  match x, y with Some a, Some b => Some (a ++ b) | _, _ => None end.
Proof. cbn [concat_all]. destruct x, y; rewrite ?app_nil_r; reflexivity. Qed.

Lemma ser_tuple_cons_meets {A B} (SA : Serialize A) (SB : Serialize B) wa wb v :
  meets SA wa (fst v) -> meets SB wb (snd v) ->
  meets (ser_tuple_cons SA SB) (fun v => concat_all [wa (fst v); wb (snd v)]) v.
Proof.
  unfold meets. rewrite concat_all_2.
  destruct (wa (fst v)) as [xa|].
  - intros [Hha Hwa]. destruct (wb (snd v)) as [xb|].
    + intros [Hhb Hwb]. split.
      * cbn [ser_tuple_cons size_hint]. rewrite len_app. lia.
      * apply (wseq_writes _ _ _ _ Hwa Hwb).
    + intros [pre [r [m [Hm Hf]]]]. exists (xa ++ pre), r, m. split; [exact Hm|].
      apply (wseq_fails_r _ _ _ _ _ Hwa Hf).
  - intros [pre [r [m [Hm Hf]]]] _. exists pre, r, m. split; [exact Hm|].
    apply (wseq_fails_l _ _ _ _ Hf).
Qed.

Lemma lf_max_spec lf : lf_max lf + 1 = 256 ^ N.of_nat (lf_size lf).
Proof. destruct lf; reflexivity. Qed.

Lemma serialize_len_unfold {A} (S : Serialize A) lf v b :
  serialize_len S lf v b =
  if size_hint S v <=? lf_max lf
  then wseq (serialize (ser_uint (lf_size lf)) (size_hint S v)) (serialize S v) b
  else WErr (InvalidLength (size_hint S v) (lf_max lf)) b.
Proof. reflexivity. Qed.

Lemma serialize_len_meets {A} (S : Serialize A) w lf v :
  meets S w v ->
  match w v with
  | Some payload =>
      match length_prefixed (lf_size lf) payload with
      | Some bs => writes (serialize_len S lf v) bs
      | None => forall b, serialize_len S lf v b = WErr (InvalidLength (len payload) (lf_max lf)) b
                          /\ lf_max lf < len payload
      end
  | None => exists pre required maximum, maximum < required /\
              fails (serialize_len S lf v) pre (InvalidLength required maximum)
  end.
Proof.
  unfold meets. destruct (w v) as [payload|].
  - intros [Hh Hw]. unfold length_prefixed. rewrite <- lf_max_spec.
    destruct (N.ltb_spec (len payload) (lf_max lf + 1)) as [Hlt|Hge].
    + intros b. rewrite serialize_len_unfold, Hh.
      destruct (N.leb_spec (len payload) (lf_max lf)); [|lia].
      apply wseq_writes; [apply ser_uint_writes|exact Hw].
    + intros b. rewrite serialize_len_unfold, Hh.
      destruct (N.leb_spec (len payload) (lf_max lf)); [lia|]. split; [reflexivity|lia].
  - intros [pre [r [m [Hm Hf]]]].
    destruct (N.leb_spec (size_hint S v) (lf_max lf)) as [Hle|Hgt].
    + exists (be (lf_size lf) (size_hint S v) ++ pre), r, m. split; [exact Hm|].
      intros b. rewrite serialize_len_unfold.
      destruct (N.leb_spec (size_hint S v) (lf_max lf)); [|lia].
      apply wseq_fails_r; [apply ser_uint_writes|exact Hf].
    + exists [], (size_hint S v), (lf_max lf). split; [exact Hgt|].
      intros b. rewrite serialize_len_unfold, appended_nil. change (len (@nil N)) with 0.
      destruct (N.leb_spec (size_hint S v) (lf_max lf)); [lia|].
      destruct (N.leb_spec 0 (w_room b)); [reflexivity|lia].
Qed.

Lemma ser_with_len_meets {A} (S : Serialize A) w lf v :
  meets S w v ->
  meets (ser_with_len lf S)
    (fun v => match w v with Some p => length_prefixed (lf_size lf) p | None => None end) v.
Proof.
  intros H. assert (HL := serialize_len_meets S w lf v H).
  unfold meets in *. destruct (w v) as [payload|].
  - destruct (length_prefixed (lf_size lf) payload) as [bs|] eqn:E.
    + split; [|exact HL]. destruct H as [Hh _]. cbn [ser_with_len size_hint]. rewrite Hh.
      unfold length_prefixed in E. destruct (_ <? _) in E; [|discriminate].
      injection E as <-. rewrite len_app, be_len. reflexivity.
    + exists [], (len payload), (lf_max lf). split; [apply (HL (mkW [] 0))|].
      intros b. rewrite appended_nil. change (len (@nil N)) with 0.
      destruct (N.leb_spec 0 (w_room b)); [apply HL|lia].
  - exact HL.
Qed.

(** * Deserializers *)

(** The rest is a suffix of the input, and the call does not panic. *)
Definition sane {A} (d : Deserialize A) : Prop := forall buf,
  match d buf with
  | DOk _ rest => exists used, buf = used ++ rest
  | DErr _ rest => exists used, buf = used ++ rest
  | DPanic => False
  | DHang => True
  end.

Lemma de_uint_ok k bs rest : length bs = k -> Forall (fun b => b < 256) bs ->
  de_uint k (bs ++ rest) = DOk (be_value bs) rest.
Proof.
  intros Hk Hb. unfold de_uint, get_uint.
  destruct (N.ltb_spec (len (bs ++ rest)) (N.of_nat k)) as [H|H].
  - rewrite len_app in H. unfold len in H. lia.
  - subst k. rewrite firstn_app_exact, skipn_app_exact, from_be_value by exact Hb. reflexivity.
Qed.

Lemma de_uint_short k buf : (length buf < k)%nat ->
  de_uint k buf = DErr (InsufficientData (N.of_nat k) (len buf)) buf.
Proof.
  intros H. unfold de_uint. destruct (N.ltb_spec (len buf) (N.of_nat k)) as [H'|H']; [reflexivity|].
  unfold len in H'. lia.
Qed.

Lemma de_uint_cases k buf :
  ((length buf < k)%nat /\ de_uint k buf = DErr (InsufficientData (N.of_nat k) (len buf)) buf) \/
  ((k <= length buf)%nat /\
   de_uint k buf = DOk (from_be_bytes (firstn k buf)) (skipn k buf)).
Proof.
  destruct (Nat.ltb_spec (length buf) k) as [H|H]; [left|right]; (split; [lia|]).
  - apply de_uint_short. exact H.
  - unfold de_uint, get_uint. destruct (N.ltb_spec (len buf) (N.of_nat k)) as [H'|H'].
    + unfold len in H'. lia.
    + reflexivity.
Qed.

Lemma de_uint_be k v rest : v < 256 ^ N.of_nat k -> de_uint k (be k v ++ rest) = DOk v rest.
Proof.
  intros H. rewrite de_uint_ok; [|apply be_length|apply be_is_byte].
  rewrite be_value_be, N.mod_small by exact H. reflexivity.
Qed.

Lemma de_uint_sane k : sane (de_uint k).
Proof.
  intros buf. destruct (de_uint_cases k buf) as [[H ->]|[H ->]].
  - exists []. reflexivity.
  - exists (firstn k buf). symmetry. apply firstn_skipn.
Qed.

Lemma dmap_sane {A B} (f : A -> B) d : sane d -> sane (fun buf => dmap f (d buf)).
Proof.
  intros H buf. specialize (H buf). destruct (d buf); exact H.
Qed.

Lemma de_bool_unfold buf :
  de_bool buf = dmap (fun v => N.land v 1 =? 1) (de_uint 1 buf).
Proof.
  unfold de_bool, de_uint. change (N.of_nat 1) with 1. 
  destruct (len buf <? 1); [reflexivity|]. destruct (get_uint 1 buf) as [[v rest]|]; reflexivity.
Qed.

Lemma de_bool_sane : sane de_bool.
Proof.
  intros buf. rewrite de_bool_unfold. apply (dmap_sane _ _ (de_uint_sane 1)).
Qed.

Lemma de_bytes_sane : sane de_bytes.
Proof. intros buf. exists buf. rewrite app_nil_r. reflexivity. Qed.

Lemma dbind_sane {A B} (r : dres A) (k : A -> list N -> dres B) buf :
  (match r with
   | DOk _ rest | DErr _ rest => exists used, buf = used ++ rest
   | DPanic => False
   | DHang => True
   end) ->
  (forall v rest, match k v rest with
   | DOk _ rest' | DErr _ rest' => exists used, rest = used ++ rest'
   | DPanic => False
   | DHang => True
   end) ->
  match dbind r k with
  | DOk _ rest' | DErr _ rest' => exists used, buf = used ++ rest'
  | DPanic => False
  | DHang => True
  end.
Proof.
  intros Hr Hk. destruct r as [v rest|e rest| |]; cbn [dbind]; try exact Hr.
  specialize (Hk v rest). destruct Hr as [u1 ->].
  destruct (k v rest) as [v' rest'|e' rest'| |]; try exact Hk;
    destruct Hk as [u2 ->]; exists (u1 ++ u2); rewrite app_assoc; reflexivity.
Qed.

Lemma de_tuple_cons_sane {A B} (da : Deserialize A) (db : Deserialize B) :
  sane da -> sane db -> sane (de_tuple_cons da db).
Proof.
  intros Ha Hb buf. unfold de_tuple_cons. apply dbind_sane; [apply Ha|].
  intros v rest. apply dbind_sane; [apply Hb|]. intros v' rest'. exists []. reflexivity.
Qed.

Lemma de_array_sane {A} (d : Deserialize A) dflt n : sane d -> sane (de_array d dflt n).
Proof.
  intros Hd. induction n as [|n IH]; intros buf; cbn [de_array].
  - exists []. reflexivity.
  - assert (H := Hd buf). destruct (d buf) as [v rest|e rest| |]; try exact H;
      destruct H as [u1 ->]; specialize (IH rest);
      (destruct (de_array d dflt n rest) as [v' rest'|e' rest'| |]; cbn [dmap dbind]; try exact IH);
      destruct IH as [u2 ->]; exists (u1 ++ u2); rewrite app_assoc; reflexivity.
Qed.

Lemma vec_loop_sane {A} (d : Deserialize A) fuel : sane d -> sane (vec_loop d fuel).
Proof.
  intros Hd. induction fuel as [|fuel IH]; intros buf; cbn [vec_loop]; [exact I|].
  destruct buf as [|b buf]; [exists []; reflexivity|].
  apply dbind_sane; [apply Hd|]. intros v rest. apply dbind_sane; [apply IH|].
  intros v' rest'. exists []. reflexivity.
Qed.

Lemma de_vec_sane {A} (d : Deserialize A) : sane d -> sane (de_vec d).
Proof. intros Hd buf. unfold de_vec. apply (vec_loop_sane d _ Hd). Qed.

Lemma with_take_sane {A} (d : Deserialize A) limit : sane d -> sane (with_take d limit).
Proof.
  intros Hd buf. unfold with_take.
  set (k := N.to_nat (N.min limit (len buf))).
  assert (H := Hd (firstn k buf)).
  destruct (d (firstn k buf)) as [v rest|e rest| |]; try exact H;
    destruct H as [used H]; exists used; rewrite app_assoc, <- H; symmetry; apply firstn_skipn.
Qed.

Lemma deserialize_len_sane {A} (d : Deserialize A) lf : sane d -> sane (deserialize_len d lf).
Proof.
  intros Hd buf. unfold deserialize_len. apply dbind_sane; [apply de_uint_sane|].
  intros v rest. apply (with_take_sane d v Hd).
Qed.

(** ** The loop of Vec *)

(** When every successful element decode consumes something or stalls (it cannot grow the
    buffer), one more unit of fuel than there are bytes is as good as any larger amount. *)
Lemma vec_stall {A} (d : Deserialize A) buf v : buf <> [] -> d buf = DOk v buf ->
  forall fuel, vec_loop d fuel buf = DHang.
Proof.
  intros Hne Hd. induction fuel as [|fuel IH]; [reflexivity|].
  cbn [vec_loop]. destruct buf as [|b buf]; [congruence|].
  rewrite Hd. cbn [dbind]. rewrite IH. reflexivity.
Qed.

Lemma suffix_same_length {A} (used rest : list A) : (length (used ++ rest) <= length rest)%nat -> used = [].
Proof. rewrite app_length. destruct used; [reflexivity|cbn [length]; lia]. Qed.

Lemma vec_fuel_enough_gen {A} (d : Deserialize A) : sane d ->
  forall n buf, (length buf <= n)%nat -> forall f1 f2, (length buf < f1)%nat -> (length buf < f2)%nat ->
  vec_loop d f1 buf = vec_loop d f2 buf.
Proof.
  intros Hd. induction n as [|n IH]; intros buf Hn f1 f2 H1 H2.
  - destruct buf; [|cbn [length] in Hn; lia]. destruct f1, f2; try lia; reflexivity.
  - destruct f1 as [|f1]; [lia|]. destruct f2 as [|f2]; [lia|].
    destruct buf as [|b buf]; [reflexivity|].
    destruct (d (b :: buf)) as [v rest|e rest| |] eqn:E.
    + assert (H := Hd (b :: buf)). rewrite E in H. destruct H as [used H].
      destruct (Nat.ltb_spec (length rest) (length (b :: buf))) as [Hlt|Hge].
      * cbn [vec_loop]. rewrite E. cbn [dbind]. cbn [length] in *.
        rewrite (IH rest ltac:(lia) f1 f2 ltac:(lia) ltac:(lia)). reflexivity.
      * rewrite H in Hge. assert (used = []) by (eapply suffix_same_length; exact Hge).
        subst used. cbn [app] in H. subst rest.
        rewrite (vec_stall d (b :: buf) v ltac:(congruence) E (S f1)).
        rewrite (vec_stall d (b :: buf) v ltac:(congruence) E (S f2)). reflexivity.
    + cbn [vec_loop]. rewrite E. reflexivity.
    + cbn [vec_loop]. rewrite E. reflexivity.
    + cbn [vec_loop]. rewrite E. reflexivity.
Qed.

Lemma vec_fuel_enough {A} (d : Deserialize A) buf fuel : sane d -> (length buf < fuel)%nat ->
  vec_loop d fuel buf = de_vec d buf.
Proof.
  intros Hd Hf. unfold de_vec. apply (vec_fuel_enough_gen d Hd (length buf)); lia.
Qed.

Lemma de_vec_cons {A} (d : Deserialize A) buf v rest : sane d ->
  buf <> [] -> d buf = DOk v rest -> (length rest < length buf)%nat ->
  de_vec d buf = dmap (cons v) (de_vec d rest).
Proof.
  intros Hd Hne E Hlt. unfold de_vec at 1. destruct buf as [|b buf]; [congruence|].
  cbn [vec_loop]. rewrite E. cbn [dbind].
  rewrite (vec_fuel_enough d rest _ Hd); [reflexivity|cbn [length] in *; lia].
Qed.

(** ** Round trip of the combinators *)

Definition reads {A} (d : Deserialize A) (bs : list N) (v : A) : Prop :=
  forall rest, d (bs ++ rest) = DOk v rest.

Lemma de_array_reads {A} (d : Deserialize A) dflt (l : list (list N * A)) :
  Forall (fun p => reads d (fst p) (snd p)) l ->
  reads (de_array d dflt (length l)) (concat (map fst l)) (map snd l).
Proof.
  intros H. induction H as [|[bs v] l Hv Hl IH]; intros rest; [reflexivity|].
  cbn [length map concat de_array fst snd] in *. rewrite <- app_assoc, Hv, IH. reflexivity.
Qed.

Lemma de_vec_reads {A} (d : Deserialize A) (l : list (list N * A)) : sane d ->
  Forall (fun p => reads d (fst p) (snd p) /\ fst p <> []) l ->
  de_vec d (concat (map fst l)) = DOk (map snd l) [].
Proof.
  intros Hd H. induction H as [|[bs v] l [Hv Hne] Hl IH]; [reflexivity|].
  cbn [map concat fst snd] in *.
  rewrite (de_vec_cons d _ v (concat (map fst l)) Hd).
  - rewrite IH. reflexivity.
  - destruct bs; [congruence|discriminate].
  - apply Hv.
  - rewrite app_length. destruct bs; [congruence|cbn [length]; lia].
Qed.

Lemma with_take_exact {A} (d : Deserialize A) bs rest :
  with_take d (len bs) (bs ++ rest) =
  match d bs with
  | DOk v r => DOk v (r ++ rest)
  | DErr e r => DErr e (r ++ rest)
  | DPanic => DPanic
  | DHang => DHang
  end.
Proof.
  unfold with_take. rewrite len_app, N.min_l by lia.
  replace (N.to_nat (len bs)) with (length bs) by (unfold len; lia). rewrite firstn_app_exact, skipn_app_exact. reflexivity.
Qed.

Lemma deserialize_len_exact {A} (d : Deserialize A) lf bs rest :
  len bs < 256 ^ N.of_nat (lf_size lf) ->
  deserialize_len d lf (be (lf_size lf) (len bs) ++ bs ++ rest) =
  match d bs with
  | DOk v r => DOk v (r ++ rest)
  | DErr e r => DErr e (r ++ rest)
  | DPanic => DPanic
  | DHang => DHang
  end.
Proof.
  intros H. unfold deserialize_len. rewrite de_uint_be by exact H. cbn [dbind].
  apply with_take_exact.
Qed.
