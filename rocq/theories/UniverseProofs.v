(** Proofs about the codec of every type of the universe. *)
From Coq Require Import List NArith ZArith Bool Lia ZifyBool ZifyNat ZifyN.
From Verif Require Import BytesModel StringModel UniverseModel StringSpec WireSpec BytesProofs StringProofs StringTheorems.
Import ListNotations.
Open Scope N_scope.
Ltac Zify.zify_post_hook ::= Z.div_mod_to_equations.
Arguments N.add : simpl never. Arguments N.mul : simpl never. Arguments N.pow : simpl never.
Arguments N.of_nat : simpl never. Arguments N.sub : simpl never.
Arguments Z.mul : simpl never. Arguments Z.pow : simpl never.

Section TyInd.
  Context (P : ty -> Prop).
  Context (HU : forall s, P (TUInt s)) (HS : forall s, P (TSInt s)) (HF : forall s, P (TFloat s))
          (HB : P TBool) (HY : P TBytes) (HX : forall e, P (TString e))
          (HA : forall t n, P t -> P (TArray t n)) (HV : forall t, P t -> P (TVec t))
          (HTn : P (TTuple [])) (HTc : forall t ts, P t -> P (TTuple ts) -> P (TTuple (t :: ts)))
          (HL : forall lf t, P t -> P (TLen lf t)).
  Fixpoint ty_rect_list (t : ty) : P t :=
    match t with
    | TUInt s => HU s
    | TSInt s => HS s
    | TFloat s => HF s
    | TBool => HB
    | TBytes => HY
    | TString e => HX e
    | TArray t' n => HA t' n (ty_rect_list t')
    | TVec t' => HV t' (ty_rect_list t')
    | TTuple ts =>
        (fix go (ts : list ty) : P (TTuple ts) :=
           match ts with
           | [] => HTn
           | t' :: ts' => HTc t' ts' (ty_rect_list t') (go ts')
           end) ts
    | TLen lf t' => HL lf t' (ty_rect_list t')
    end.
End TyInd.

Ltac ty_induction t :=
  induction t as [s|s|s| | |te|t n IH|t IH| |t ts IHt IHts|lf t IH] using ty_rect_list.

Lemma isize_pos s : (0 < isize_bytes s)%nat. Proof. destruct s; cbn; lia. Qed.
Lemma fsize_pos s : (0 < fsize_bytes s)%nat. Proof. destruct s; cbn; lia. Qed.

(** * Serialization *)

Lemma chars_scalar s : forallb is_char s = true -> Forall scalar s.
Proof.
  intros H. rewrite forallb_forall in H. apply Forall_forall. intros c Hc. apply is_char_scalar, H, Hc.
Qed.

Lemma ser_text_meets e s : forallb is_char s = true -> meets (ser_text e) (fun s => Some (text_form e s)) s.
Proof.
  intros H. apply chars_scalar in H. destruct e as [|e].
  - exact (ser_utf8_writes s H).
  - assert (W := ser_utf16_writes e s H). destruct e; exact W.
Qed.

Lemma ser_wire t : forall v, valid t v = true -> meets (ser t) (wire t) v.
Proof.
  ty_induction t; intros v Hv.
  - apply ser_uint_meets.
  - destruct (ser_uint_meets (isize_bytes s) (to_twos (isize_bytes s) v)) as [H1 H2].
    split; [exact H1|exact H2].
  - apply ser_uint_meets.
  - apply ser_bool_meets.
  - apply ser_bytes_meets.
  - apply (ser_text_meets te v Hv).
  - cbn [valid] in Hv. apply andb_true_iff in Hv as [_ Hv]. rewrite forallb_forall in Hv.
    apply (ser_slice_meets (ser t) (wire t)). intros x Hx. apply IH, Hv, Hx.
  - cbn [valid] in Hv. rewrite forallb_forall in Hv.
    apply (ser_slice_meets (ser t) (wire t)). intros x Hx. apply IH, Hv, Hx.
  - apply ser_tuple_nil_meets.
  - change (valid t (fst v) && valid (TTuple ts) (snd v) = true) in Hv. apply andb_true_iff in Hv as [H1 H2].
    apply (ser_tuple_cons_meets (ser t) (ser (TTuple ts)) (wire t) (wire (TTuple ts)) v (IHt _ H1) (IHts _ H2)).
  - apply (ser_with_len_meets (ser t) (wire t)). apply IH. exact Hv.
Qed.

(** * Deserialization never panics and consumes from the front *)

Lemma de_sane t : sane (de t).
Proof.
  ty_induction t.
  - apply de_uint_sane.
  - apply (dmap_sane (of_twos (isize_bytes s)) (de_uint (isize_bytes s))), de_uint_sane.
  - apply de_uint_sane.
  - apply de_bool_sane.
  - apply de_bytes_sane.
  - apply de_string_sane.
  - apply (de_array_sane (de t) (default t) n IH).
  - apply (de_vec_sane (de t) IH).
  - intros buf. exists []. reflexivity.
  - apply (de_tuple_cons_sane (de t) (de (TTuple ts)) IHt IHts).
  - apply (deserialize_len_sane (de t) lf IH).
Qed.

(** * Sizes *)

Lemma concat_all_pieces {A} (w : A -> option (list N)) vs : forall bs,
  concat_all (map w vs) = Some bs ->
  exists l, map snd l = vs /\ concat (map fst l) = bs /\ Forall (fun p => w (snd p) = Some (fst p)) l.
Proof.
  induction vs as [|v vs IH]; cbn [map concat_all]; intros bs H.
  - injection H as <-. exists []. repeat split. constructor.
  - destruct (w v) as [x|] eqn:E; [|discriminate].
    destruct (concat_all (map w vs)) as [y|]; [|discriminate]. injection H as <-.
    destruct (IH y eq_refl) as [l [H1 [H2 H3]]].
    exists ((x, v) :: l). cbn [map concat fst snd]. rewrite H1, H2. repeat split.
    constructor; [exact E|exact H3].
Qed.

Lemma pieces_concat_all {A} (w : A -> option (list N)) l :
  Forall (fun p => w (snd p) = Some (fst p)) l ->
  concat_all (map w (map snd l)) = Some (concat (map fst l)).
Proof.
  intros H. induction H as [|[x v] l Hp Hl IH]; [reflexivity|].
  cbn [map concat concat_all fst snd] in *. rewrite Hp, IH. reflexivity.
Qed.

Lemma length_prefixed_inv k p bs : length_prefixed k p = Some bs ->
  len p < 256 ^ N.of_nat k /\ bs = be k (len p) ++ p.
Proof.
  unfold length_prefixed. destruct (N.ltb_spec (len p) (256 ^ N.of_nat k)); [|discriminate].
  intros E. injection E as <-. split; [assumption|reflexivity].
Qed.

Lemma forallb_cons {A} (f : A -> bool) x l : forallb f (x :: l) = f x && forallb f l.
Proof. reflexivity. Qed.

Lemma wire_min_size t : forall v bs, valid t v = true -> wire t v = Some bs -> min_size t <= len bs.
Proof.
  ty_induction t; intros v bs Hv Hw; cbn [wire min_size] in *.
  - injection Hw as <-. rewrite be_len. lia.
  - injection Hw as <-. rewrite be_len. lia.
  - injection Hw as <-. rewrite be_len. lia.
  - injection Hw as <-. destruct v; vm_compute; congruence.
  - lia.
  - injection Hw as <-. destruct te as [|[]]; unfold text_form, text_utf8, text_utf16_be, text_utf16_le;
      rewrite !len_app, ?len_cons, ?len_nil; lia.
  - cbn [value] in v. cbn [valid] in Hv. apply andb_true_iff in Hv as [Hn Hv]. apply Nat.eqb_eq in Hn. subst n.
    revert bs Hv Hw. induction v as [|x v IHv]; intros bs Hv Hw.
    + cbn [length]. lia.
    + cbn [map concat_all] in Hw. destruct (wire t x) as [bx|] eqn:Ex; [|discriminate].
      destruct (concat_all (map (wire t) v)) as [bv|] eqn:Ev; [|discriminate]. injection Hw as <-.
      apply andb_true_iff in Hv as [Hx Hv].
      specialize (IH x bx Hx Ex). specialize (IHv bv Hv eq_refl).
      cbn [length]. rewrite len_app. lia.
  - lia.
  - cbn [fold_right]. lia.
  - cbn [fold_right]. change (valid (TTuple (t :: ts)) v) with (valid t (fst v) && valid (TTuple ts) (snd v)) in Hv.
    apply andb_true_iff in Hv as [Hx Hv].
    change (concat_all [wire t (fst v); wire (TTuple ts) (snd v)] = Some bs) in Hw.
    rewrite concat_all_2 in Hw. destruct (wire t (fst v)) as [bx|] eqn:Ex; [|discriminate].
    destruct (wire (TTuple ts) (snd v)) as [bv|] eqn:Ev; [|discriminate]. injection Hw as <-.
    specialize (IHt _ _ Hx Ex). specialize (IHts _ _ Hv Ev). cbn [min_size] in IHts. rewrite len_app. lia.
  - destruct (wire t v) as [p|] eqn:E; [|discriminate].
    apply length_prefixed_inv in Hw as [_ ->]. rewrite len_app, be_len.
    specialize (IH v p Hv E). lia.
Qed.

(** * Round trip *)

Lemma wire_sint s v bs : wire (TSInt s) v = Some bs -> bs = be (isize_bytes s) (to_twos (isize_bytes s) v).
Proof. unfold to_twos. cbn [wire]. congruence. Qed.

Definition rt_delimited t := delimited t = true -> forall v bs,
  valid t v = true -> nul_free t v = true -> wire t v = Some bs -> reads (de t) bs v.
Definition rt_framed t := framed t = true -> forall v bs,
  valid t v = true -> nul_free t v = true -> wire t v = Some bs -> de t bs = DOk v [].

Lemma reads_framed {A} (d : Deserialize A) bs v : reads d bs v -> d bs = DOk v [].
Proof. intros H. specialize (H []). rewrite app_nil_r in H. exact H. Qed.

Lemma delimited_framed t : delimited t = true -> framed t = true.
Proof.
  ty_induction t; intros H; try reflexivity; try discriminate.
  - cbn [delimited framed] in *. destruct n as [|[|n]]; [reflexivity|apply IH; exact H|exact H].
  - change (delimited t && delimited (TTuple ts) = true) in H. apply andb_true_iff in H as [H1 H2].
    specialize (IHts H2). destruct ts as [|t' ts]; [apply IHt; exact H1|].
    change (delimited t && framed (TTuple (t' :: ts)) = true). rewrite H1, IHts. reflexivity.
  - exact H.
Qed.

Lemma valid_pieces t l : forallb (valid t) (map snd l) = true -> forallb (nul_free t) (map snd l) = true ->
  Forall (fun p : list N * value t => wire t (snd p) = Some (fst p)) l ->
  Forall (fun p => valid t (snd p) = true /\ nul_free t (snd p) = true /\ wire t (snd p) = Some (fst p)) l.
Proof.
  induction l as [|p l IH]; intros Hv Hz Hw; constructor; cbn [map] in Hv, Hz; rewrite forallb_cons in Hv, Hz;
    apply andb_true_iff in Hv as [H1 H2]; apply andb_true_iff in Hz as [Z1 Z2]; inversion Hw; subst.
  - repeat split; assumption.
  - apply IH; assumption.
Qed.

Lemma round_trip t : rt_delimited t /\ rt_framed t.
Proof.
  ty_induction t.
  - assert (H : rt_delimited (TUInt s)).
    { intros _ v bs Hv Hz Hw. injection Hw as <-. intros rest. apply de_uint_be.
      rewrite pow256. cbn [valid] in Hv. lia. }
    split; [exact H|]. intros _ v bs Hv Hz Hw. apply reads_framed, H; [reflexivity|exact Hv|exact Hz|exact Hw].
  - assert (H : rt_delimited (TSInt s)).
    { intros _ v bs Hv Hz Hw. apply wire_sint in Hw. subst bs. intros rest. cbn [de]. unfold de_sint.
      rewrite (de_uint_be (isize_bytes s) (to_twos (isize_bytes s) v) rest (to_twos_lt _ _)).
      change (DOk (of_twos (isize_bytes s) (to_twos (isize_bytes s) v)) rest = DOk v rest).
      rewrite of_to_twos; [reflexivity|apply isize_pos|]. cbn [valid] in Hv. lia. }
    split; [exact H|]. intros _ v bs Hv Hz Hw. apply reads_framed, H; [reflexivity|exact Hv|exact Hz|exact Hw].
  - assert (H : rt_delimited (TFloat s)).
    { intros _ v bs Hv Hz Hw. injection Hw as <-. intros rest. apply de_uint_be.
      rewrite pow256. cbn [valid] in Hv. lia. }
    split; [exact H|]. intros _ v bs Hv Hz Hw. apply reads_framed, H; [reflexivity|exact Hv|exact Hz|exact Hw].
  - assert (H : rt_delimited TBool).
    { intros _ v bs Hv Hz Hw. injection Hw as <-. intros rest. cbn [de]. rewrite de_bool_unfold.
      destruct v; (rewrite de_uint_ok; [reflexivity|reflexivity|repeat constructor]). }
    split; [exact H|]. intros _ v bs Hv Hz Hw. apply reads_framed, H; [reflexivity|exact Hv|exact Hz|exact Hw].
  - split; [discriminate|]. intros _ v bs Hv Hz Hw. injection Hw as <-. reflexivity.
  - assert (H : rt_delimited (TString te)).
    { intros _ v bs Hv Hz Hw. injection Hw as <-. intros rest. cbn [de valid nul_free value] in *.
      assert (Ht : text v).
      { apply chars_scalar in Hv. rewrite forallb_forall in Hz. unfold text. rewrite Forall_forall in *.
        intros c Hc. split; [apply Hv, Hc|]. specialize (Hz c Hc). lia. }
      destruct te as [|[]]; cbn [text_form];
        [apply read_utf8|apply read_utf16_le|apply read_utf16_be]; exact Ht. }
    split; [exact H|]. intros _ v bs Hv Hz Hw. apply reads_framed, H; [reflexivity|exact Hv|exact Hz|exact Hw].
  - destruct IH as [IHd IHf].
    assert (Hgen : forall v bs, delimited t = true -> valid (TArray t n) v = true ->
                   nul_free (TArray t n) v = true -> wire (TArray t n) v = Some bs -> reads (de (TArray t n)) bs v).
    { intros v bs Hd Hv Hz Hw. cbn [value] in v. cbn [valid wire nul_free] in Hv, Hw, Hz. apply andb_true_iff in Hv as [Hn Hv].
      apply Nat.eqb_eq in Hn. subst n.
      apply concat_all_pieces in Hw as [l [<- [<- Hl]]].
      rewrite map_length. cbn [de]. apply (de_array_reads (de t) (default t) l).
      apply valid_pieces in Hl; [|exact Hv|exact Hz].
      eapply Forall_impl; [|exact Hl]. intros p (Hp1 & Hp2 & Hp3). apply (IHd Hd); assumption. }
    assert (Hzero : forall v bs, valid (TArray t 0) v = true ->
                   wire (TArray t 0) v = Some bs -> v = [] /\ bs = []).
    { intros v bs Hv Hw. cbn [valid wire] in *. apply andb_true_iff in Hv as [Hn _].
      apply Nat.eqb_eq in Hn. destruct v; [|discriminate]. injection Hw as <-. split; reflexivity. }
    split.
    + intros Hd v bs Hv Hz Hw. destruct n as [|n].
      * apply Hzero in Hw as [-> ->]; [|exact Hv]. intros rest. reflexivity.
      * apply Hgen; [exact Hd|exact Hv|exact Hz|exact Hw].
    + intros Hd v bs Hv Hz Hw. destruct n as [|[|n]].
      * apply Hzero in Hw as [-> ->]; [|exact Hv]. reflexivity.
      * cbn [valid wire framed nul_free] in Hd, Hv, Hw, Hz. apply andb_true_iff in Hv as [Hn Hv].
        apply Nat.eqb_eq in Hn. destruct v as [|x [|y v]]; try discriminate.
        cbn [map concat_all] in Hw. destruct (wire t x) as [bx|] eqn:Ex; [|discriminate].
        injection Hw as <-. rewrite app_nil_r. rewrite forallb_cons in Hv, Hz.
        apply andb_true_iff in Hv as [Hx _]. apply andb_true_iff in Hz as [Hz _].
        cbn [de de_array]. rewrite (IHf Hd x bx Hx Hz Ex). reflexivity.
      * apply reads_framed. apply Hgen; [exact Hd|exact Hv|exact Hz|exact Hw].
  - destruct IH as [IHd _]. split; [discriminate|].
    intros Hf v bs Hv Hz Hw. cbn [framed valid wire de nul_free] in *. apply andb_true_iff in Hf as [Hd Hm].
    apply concat_all_pieces in Hw as [l [<- [<- Hl]]].
    apply valid_pieces in Hl; [|exact Hv|exact Hz].
    apply (de_vec_reads (de t) l (de_sane t)).
    eapply Forall_impl; [|exact Hl]. intros p (Hp1 & Hp2 & Hp3). split.
    + apply (IHd Hd); assumption.
    + assert (H := wire_min_size t _ _ Hp1 Hp3). intros E. rewrite E in H.
      change (len (@nil N)) with 0 in H. lia.
  - split.
    + intros _ v bs _ _ Hw. injection Hw as <-. destruct v. intros rest. reflexivity.
    + intros _ v bs _ _ Hw. injection Hw as <-. destruct v. reflexivity.
  - destruct IHt as [IHd IHf]. destruct IHts as [IHsd IHsf].
    assert (Hinv : forall v bs, valid (TTuple (t :: ts)) v = true -> nul_free (TTuple (t :: ts)) v = true ->
      wire (TTuple (t :: ts)) v = Some bs ->
      exists bx bv, valid t (fst v) = true /\ valid (TTuple ts) (snd v) = true /\
        nul_free t (fst v) = true /\ nul_free (TTuple ts) (snd v) = true /\
        wire t (fst v) = Some bx /\ wire (TTuple ts) (snd v) = Some bv /\ bs = bx ++ bv).
    { intros v bs Hv Hz Hw.
      change (valid t (fst v) && valid (TTuple ts) (snd v) = true) in Hv.
      change (nul_free t (fst v) && nul_free (TTuple ts) (snd v) = true) in Hz.
      apply andb_true_iff in Hv as [Hx Hv]. apply andb_true_iff in Hz as [Hz1 Hz2].
      change (concat_all [wire t (fst v); wire (TTuple ts) (snd v)] = Some bs) in Hw.
      rewrite concat_all_2 in Hw. destruct (wire t (fst v)) as [bx|] eqn:Ex; [|discriminate].
      destruct (wire (TTuple ts) (snd v)) as [bv|] eqn:Ev; [|discriminate]. injection Hw as <-.
      exists bx, bv. repeat split; assumption. }
    split.
    + intros Hd v bs Hv Hz Hw. change (delimited t && delimited (TTuple ts) = true) in Hd.
      apply andb_true_iff in Hd as [Hd1 Hd2].
      destruct (Hinv v bs Hv Hz Hw) as (bx & bv & Hx & Hv' & Hz1 & Hz2 & Ex & Ev & ->).
      intros rest. change (de_tuple_cons (de t) (de (TTuple ts)) ((bx ++ bv) ++ rest) = DOk v rest).
      unfold de_tuple_cons. rewrite <- app_assoc, (IHd Hd1 _ _ Hx Hz1 Ex). cbn [dbind].
      rewrite (IHsd Hd2 _ _ Hv' Hz2 Ev). cbn [dbind]. rewrite <- surjective_pairing. reflexivity.
    + intros Hf v bs Hv Hz Hw.
      destruct (Hinv v bs Hv Hz Hw) as (bx & bv & Hx & Hv' & Hz1 & Hz2 & Ex & Ev & ->).
      change (de_tuple_cons (de t) (de (TTuple ts)) (bx ++ bv) = DOk v []).
      unfold de_tuple_cons. destruct ts as [|t' ts].
      * cbn [framed] in Hf. injection Ev as <-. rewrite app_nil_r, (IHf Hf _ _ Hx Hz1 Ex).
        cbn [dbind]. destruct v as [x []]. reflexivity.
      * change (delimited t && framed (TTuple (t' :: ts)) = true) in Hf.
        apply andb_true_iff in Hf as [Hf1 Hf2].
        rewrite (IHd Hf1 _ _ Hx Hz1 Ex). cbn [dbind].
        rewrite (IHsf Hf2 _ _ Hv' Hz2 Ev). cbn [dbind]. rewrite <- surjective_pairing. reflexivity.
  - destruct IH as [_ IHf].
    assert (H : rt_delimited (TLen lf t)).
    { intros Hd v bs Hv Hz Hw. cbn [delimited valid wire nul_free] in Hd, Hv, Hw, Hz.
      destruct (wire t v) as [p|] eqn:E; [|discriminate].
      apply length_prefixed_inv in Hw as [Hlt ->]. intros rest. rewrite <- app_assoc. cbn [de].
      rewrite (deserialize_len_exact (de t) lf p rest Hlt), (IHf Hd v p Hv Hz E). reflexivity. }
    split; [exact H|]. intros Hf v bs Hv Hz Hw. apply reads_framed, H; [exact Hf|exact Hv|exact Hz|exact Hw].
Qed.

(** * Decoded values are in range *)

Lemma bytes_ok_app a b : bytes_ok (a ++ b) <-> bytes_ok a /\ bytes_ok b.
Proof. apply Forall_app. Qed.
Lemma bytes_ok_firstn k bs : bytes_ok bs -> bytes_ok (firstn k bs).
Proof. intros H. rewrite <- (firstn_skipn k bs) in H. apply bytes_ok_app in H. tauto. Qed.
Lemma bytes_ok_skipn k bs : bytes_ok bs -> bytes_ok (skipn k bs).
Proof. intros H. rewrite <- (firstn_skipn k bs) in H. apply bytes_ok_app in H. tauto. Qed.

Lemma sane_ok {A} (d : Deserialize A) buf v rest : sane d -> bytes_ok buf ->
  d buf = DOk v rest -> bytes_ok rest.
Proof.
  intros Hs Hb E. specialize (Hs buf). rewrite E in Hs. destruct Hs as [u ->].
  apply bytes_ok_app in Hb. tauto.
Qed.
Lemma sane_err {A} (d : Deserialize A) buf e rest : sane d -> bytes_ok buf ->
  d buf = DErr e rest -> bytes_ok rest.
Proof.
  intros Hs Hb E. specialize (Hs buf). rewrite E in Hs. destruct Hs as [u ->].
  apply bytes_ok_app in Hb. tauto.
Qed.

Lemma from_be_lt k buf : bytes_ok buf -> (k <= length buf)%nat ->
  from_be_bytes (firstn k buf) < 256 ^ N.of_nat k.
Proof.
  intros Hb Hk. assert (H := bytes_ok_firstn k buf Hb).
  rewrite from_be_value by exact H. apply be_value_lt in H.
  replace (N.of_nat k) with (len (firstn k buf)); [exact H|].
  unfold len. rewrite firstn_length. lia.
Qed.

Lemma default_valid t : valid t (default t) = true.
Proof.
  ty_induction t; try reflexivity.
  - cbn [valid default]. destruct s; reflexivity.
  - cbn [valid default]. destruct s; reflexivity.
  - cbn [valid default]. destruct s; reflexivity.
  - cbn [valid default]. rewrite repeat_length, Nat.eqb_refl. cbn [andb].
    apply forallb_forall. intros x Hx. apply repeat_spec in Hx. subst x. exact IH.
  - change (valid t (default t) && valid (TTuple ts) (default (TTuple ts)) = true).
    rewrite IHt, IHts. reflexivity.
  - exact IH.
Qed.

Lemma string_text buf s rest : bytes_ok buf -> de_string Little buf = DOk s rest -> text s.
Proof.
  intros Hb E. apply accepts_iff in E; [|exact Hb]. tauto.
Qed.

Lemma de_valid t : forall buf v rest, bytes_ok buf -> de t buf = DOk v rest -> valid t v = true.
Proof.
  ty_induction t; intros buf v rest Hb E.
  - cbn [de valid] in *. destruct (de_uint_cases (isize_bytes s) buf) as [[H E']|[H E']];
      rewrite E' in E; [discriminate|]. injection E as <- _.
    rewrite <- pow256. apply N.ltb_lt. apply from_be_lt; assumption.
  - cbn [de valid] in *. unfold de_sint in E.
    destruct (de_uint_cases (isize_bytes s) buf) as [[H E']|[H E']];
      rewrite E' in E; [discriminate|]. injection E as <- _.
    assert (Hr := of_twos_range (isize_bytes s) (from_be_bytes (firstn (isize_bytes s) buf))
      (isize_pos s) (from_be_lt _ _ Hb H)). lia.
  - cbn [de valid] in *. unfold de_float in E. destruct (de_uint_cases (fsize_bytes s) buf) as [[H E']|[H E']];
      rewrite E' in E; [discriminate|]. injection E as <- _.
    rewrite <- pow256. apply N.ltb_lt. apply from_be_lt; assumption.
  - reflexivity.
  - cbn [de valid] in *. injection E as <- _. apply forallb_forall. intros x Hx.
    unfold bytes_ok in Hb. rewrite Forall_forall in Hb. apply N.ltb_lt. apply Hb. exact Hx.
  - cbn [de valid] in *. apply string_text in E; [|exact Hb]. apply forallb_forall. intros c Hc.
    unfold text in E. rewrite Forall_forall in E. apply is_char_scalar, E, Hc.
  - cbn [de valid] in *. revert buf v rest Hb E.
    induction n as [|n IHn]; intros buf v rest Hb E; cbn [de_array] in E.
    + injection E as <- _. reflexivity.
    + destruct (de t buf) as [x r|e r| |] eqn:Ex; try discriminate.
      * destruct (de_array (de t) (default t) n r) as [y r'|e r'| |] eqn:Ey; try discriminate.
        cbn [dmap dbind] in E. injection E as <- <-.
        specialize (IHn r y r' (sane_ok _ _ _ _ (de_sane t) Hb Ex) Ey).
        cbn [length]. rewrite forallb_cons, (IH _ _ _ Hb Ex). exact IHn.
      * destruct (de_array (de t) (default t) n r) as [y r'|e' r'| |] eqn:Ey; try discriminate.
        cbn [dmap dbind] in E. injection E as <- <-.
        specialize (IHn r y r' (sane_err _ _ _ _ (de_sane t) Hb Ex) Ey).
        cbn [length]. rewrite forallb_cons, default_valid. exact IHn.
  - cbn [de valid] in *. unfold de_vec in E. revert E. generalize (S (length buf)). intros fuel.
    revert buf v rest Hb. induction fuel as [|fuel IHf]; intros buf v rest Hb E; cbn [vec_loop] in E;
      [discriminate|].
    destruct buf as [|b buf]; [injection E as <- _; reflexivity|].
    destruct (de t (b :: buf)) as [x r|e r| |] eqn:Ex; try discriminate. cbn [dbind] in E.
    destruct (vec_loop (de t) fuel r) as [y r'|e r'| |] eqn:Ey; try discriminate.
    cbn [dmap dbind] in E. injection E as <- <-.
    rewrite forallb_cons, (IH _ _ _ Hb Ex).
    exact (IHf r y r' (sane_ok _ _ _ _ (de_sane t) Hb Ex) Ey).
  - reflexivity.
  - change (de_tuple_cons (de t) (de (TTuple ts)) buf = DOk v rest) in E.
    change (valid t (fst v) && valid (TTuple ts) (snd v) = true).
    unfold de_tuple_cons in E. destruct (de t buf) as [x r|e r| |] eqn:Ex; try discriminate.
    cbn [dbind] in E. destruct (de (TTuple ts) r) as [y r'|e r'| |] eqn:Ey; try discriminate.
    cbn [dbind] in E. injection E as <- <-. cbn [fst snd].
    rewrite (IHt _ _ _ Hb Ex), (IHts _ _ _ (sane_ok _ _ _ _ (de_sane t) Hb Ex) Ey). reflexivity.
  - cbn [de valid] in *. unfold deserialize_len in E.
    destruct (de_uint (lf_size lf) buf) as [n r|e r| |] eqn:En; try discriminate. cbn [dbind] in E.
    unfold with_take in E.
    destruct (de t (firstn (N.to_nat (N.min n (len r))) r)) as [x r'|e r'| |] eqn:Ex; try discriminate.
    injection E as <- _. eapply IH; [|exact Ex].
    apply bytes_ok_firstn. apply (sane_ok _ _ _ _ (de_uint_sane (lf_size lf)) Hb En).
Qed.

(** * Strict types: accepted input re-encodes to itself *)

Lemma be_from_be k buf : bytes_ok buf -> (k <= length buf)%nat ->
  be k (from_be_bytes (firstn k buf)) = firstn k buf.
Proof.
  intros Hb Hk. assert (H := bytes_ok_firstn k buf Hb). rewrite from_be_value by exact H.
  replace k with (length (firstn k buf)) at 1 by (rewrite firstn_length; lia).
  apply be_be_value. exact H.
Qed.

Lemma strict_reencode t : strict t = true -> forall buf v rest, bytes_ok buf ->
  de t buf = DOk v rest -> exists used, wire t v = Some used /\ buf = used ++ rest.
Proof.
  ty_induction t; intros Hs buf v rest Hb E; try discriminate Hs.
  - cbn [de wire] in *. destruct (de_uint_cases (isize_bytes s) buf) as [[H E']|[H E']];
      rewrite E' in E; [discriminate|]. injection E as <- <-.
    eexists. split; [reflexivity|]. rewrite be_from_be by assumption. symmetry. apply firstn_skipn.
  - cbn [de wire] in *. unfold de_sint in E.
    destruct (de_uint_cases (isize_bytes s) buf) as [[H E']|[H E']];
      rewrite E' in E; [discriminate|]. injection E as <- <-.
    eexists. split; [reflexivity|].
    match goal with |- context [of_twos ?k ?n] =>
      change (Z.to_N (of_twos k n mod 2 ^ (8 * Z.of_nat k))) with (to_twos k (of_twos k n)) end.
    rewrite to_of_twos; [|apply isize_pos|apply from_be_lt; assumption].
    rewrite be_from_be by assumption. symmetry. apply firstn_skipn.
  - cbn [de wire] in *. unfold de_float in E.
    destruct (de_uint_cases (fsize_bytes s) buf) as [[H E']|[H E']];
      rewrite E' in E; [discriminate|]. injection E as <- <-.
    eexists. split; [reflexivity|]. rewrite be_from_be by assumption. symmetry. apply firstn_skipn.
  - injection E as <- <-. exists buf. split; [reflexivity|]. rewrite app_nil_r. reflexivity.
  - cbn [strict de wire] in *. unfold de_vec in E. revert E. generalize (S (length buf)). intros fuel.
    revert buf v rest Hb. induction fuel as [|fuel IHf]; intros buf v rest Hb E; cbn [vec_loop] in E;
      [discriminate|].
    destruct buf as [|b buf]; [injection E as <- <-; exists []; split; reflexivity|].
    destruct (de t (b :: buf)) as [x r|e r| |] eqn:Ex; try discriminate. cbn [dbind] in E.
    destruct (vec_loop (de t) fuel r) as [y r'|e r'| |] eqn:Ey; try discriminate.
    cbn [dmap dbind] in E. injection E as <- <-.
    destruct (IH Hs _ _ _ Hb Ex) as [u1 [Hw1 Hu1]].
    destruct (IHf r y r' (sane_ok _ _ _ _ (de_sane t) Hb Ex) Ey) as [u2 [Hw2 Hu2]].
    exists (u1 ++ u2). cbn [map concat_all]. rewrite Hw1, Hw2. split; [reflexivity|].
    rewrite Hu1, Hu2, app_assoc. reflexivity.
  - injection E as _ <-. exists []. split; reflexivity.
  - change (strict t && strict (TTuple ts) = true) in Hs. apply andb_true_iff in Hs as [Hs1 Hs2].
    change (de_tuple_cons (de t) (de (TTuple ts)) buf = DOk v rest) in E.
    unfold de_tuple_cons in E. destruct (de t buf) as [x r|e r| |] eqn:Ex; try discriminate.
    cbn [dbind] in E. destruct (de (TTuple ts) r) as [y r'|e r'| |] eqn:Ey; try discriminate.
    cbn [dbind] in E. injection E as <- <-.
    destruct (IHt Hs1 _ _ _ Hb Ex) as [u1 [Hw1 Hu1]].
    destruct (IHts Hs2 _ _ _ (sane_ok _ _ _ _ (de_sane t) Hb Ex) Ey) as [u2 [Hw2 Hu2]].
    exists (u1 ++ u2).
    change (concat_all [wire t x; wire (TTuple ts) y] = Some (u1 ++ u2) /\ buf = (u1 ++ u2) ++ r').
    rewrite Hw1, Hw2, concat_all_2. split; [reflexivity|]. rewrite Hu1, Hu2, app_assoc. reflexivity.
Qed.

(** * Fixed-size types *)

Lemma fixed_tuple_cons t ts n : fixed_size (TTuple (t :: ts)) = Some n ->
  exists a b, fixed_size t = Some a /\ fixed_size (TTuple ts) = Some b /\ n = a + b.
Proof.
  cbn [fixed_size fold_right]. destruct (fixed_size t) as [a|]; [|discriminate].
  destruct (fold_right _ (Some 0) ts) as [b|]; [|discriminate].
  intros E. injection E as <-. exists a, b. repeat split.
Qed.

Lemma dropn_app {A} (used rest : list A) n : len used = n -> skipn (N.to_nat n) (used ++ rest) = rest.
Proof. intros <-. replace (N.to_nat (len used)) with (length used) by (unfold len; lia). apply skipn_app_exact. Qed.

Lemma uint_fixed k used : len used = N.of_nat k ->
  forall rest, de_uint k (used ++ rest) = DOk (from_be_bytes used) rest.
Proof.
  intros H rest. apply len_length in H. subst k.
  destruct (de_uint_cases (length used) (used ++ rest)) as [[H E]|[H E]].
  - rewrite app_length in H. lia.
  - rewrite E, firstn_app_exact, skipn_app_exact. reflexivity.
Qed.

Lemma fixed_complete t : forall n, fixed_size t = Some n -> forall used, len used = n ->
  exists v, forall rest, de t (used ++ rest) = DOk v rest.
Proof.
  ty_induction t; intros m Hf used Hu; cbn [fixed_size] in Hf; try discriminate Hf.
  - injection Hf as <-. eexists. intros rest. apply uint_fixed. exact Hu.
  - injection Hf as <-. eexists. intros rest. cbn [de]. unfold de_sint. rewrite uint_fixed by exact Hu. reflexivity.
  - injection Hf as <-. eexists. intros rest. apply uint_fixed. exact Hu.
  - injection Hf as <-. eexists. intros rest. cbn [de]. rewrite de_bool_unfold, uint_fixed by exact Hu. reflexivity.
  - destruct (fixed_size t) as [k|]; [|discriminate]. injection Hf as <-.
    revert used Hu. induction n as [|n IHn]; intros used Hu.
    + exists []. intros rest. replace used with (@nil N); [reflexivity|].
      symmetry. apply len_zero. lia.
    + set (u1 := firstn (N.to_nat k) used). set (u2 := skipn (N.to_nat k) used).
      assert (Hsplit : used = u1 ++ u2) by (symmetry; apply firstn_skipn).
      assert (H1 : len u1 = k) by (unfold u1, len in *; rewrite firstn_length; lia).
      assert (H2 : len u2 = N.of_nat n * k).
      { rewrite Hsplit, len_app in Hu. lia. }
      destruct (IH k eq_refl u1 H1) as [x Hx]. destruct (IHn u2 H2) as [y Hy].
      exists (x :: y). intros rest. rewrite Hsplit, <- app_assoc. cbn [de de_array]. rewrite Hx.
      cbn [de] in Hy. rewrite Hy. reflexivity.
  - injection Hf as <-. exists tt. intros rest. replace used with (@nil N); [reflexivity|].
    symmetry. apply len_zero. exact Hu.
  - apply (fixed_tuple_cons t ts m) in Hf as [a [b [Ha [Hb ->]]]].
    set (u1 := firstn (N.to_nat a) used). set (u2 := skipn (N.to_nat a) used).
    assert (Hsplit : used = u1 ++ u2) by (symmetry; apply firstn_skipn).
    assert (H1 : len u1 = a) by (unfold u1, len in *; rewrite firstn_length; lia).
    assert (H2 : len u2 = b) by (rewrite Hsplit, len_app in Hu; lia).
    destruct (IHt a Ha u1 H1) as [x Hx]. destruct (IHts b Hb u2 H2) as [y Hy].
    exists (x, y). intros rest. rewrite Hsplit, <- app_assoc.
    change (de_tuple_cons (de t) (de (TTuple ts)) (u1 ++ u2 ++ rest) = DOk (x, y) rest).
    unfold de_tuple_cons. rewrite Hx. cbn [dbind]. rewrite Hy. reflexivity.
Qed.

Lemma fixed_short t : array_free t = true -> forall n, fixed_size t = Some n ->
  forall buf, len buf < n ->
  exists expected available rest, available < expected /\
    de t buf = DErr (InsufficientData expected available) rest.
Proof.
  ty_induction t; intros Ha m Hf buf Hb; cbn [fixed_size] in Hf; try discriminate Hf; try discriminate Ha.
  - injection Hf as <-. exists (N.of_nat (isize_bytes s)), (len buf), buf. split; [exact Hb|].
    apply de_uint_short. unfold len in Hb. lia.
  - injection Hf as <-. exists (N.of_nat (isize_bytes s)), (len buf), buf. split; [exact Hb|].
    cbn [de]. unfold de_sint. rewrite de_uint_short by (unfold len in Hb; lia). reflexivity.
  - injection Hf as <-. exists (N.of_nat (fsize_bytes s)), (len buf), buf. split; [exact Hb|].
    apply de_uint_short. unfold len in Hb. lia.
  - injection Hf as <-. exists 1, (len buf), buf. split; [exact Hb|].
    cbn [de]. rewrite de_bool_unfold, de_uint_short by (unfold len in Hb; lia). reflexivity.
  - injection Hf as <-. lia.
  - change (array_free t && array_free (TTuple ts) = true) in Ha. apply andb_true_iff in Ha as [Ha1 Ha2].
    apply (fixed_tuple_cons t ts m) in Hf as [a [b [Hfa [Hfb ->]]]].
    destruct (N.ltb_spec (len buf) a) as [Hlt|Hge].
    + destruct (IHt Ha1 a Hfa buf Hlt) as [e [av [r [H1 H2]]]]. exists e, av, r. split; [exact H1|].
      change (de_tuple_cons (de t) (de (TTuple ts)) buf = DErr (InsufficientData e av) r).
      unfold de_tuple_cons. rewrite H2. reflexivity.
    + set (u1 := firstn (N.to_nat a) buf). set (u2 := skipn (N.to_nat a) buf).
      assert (Hsplit : buf = u1 ++ u2) by (symmetry; apply firstn_skipn).
      assert (H1 : len u1 = a) by (unfold u1, len in *; rewrite firstn_length; lia).
      destruct (fixed_complete t a Hfa u1 H1) as [x Hx].
      destruct (IHts Ha2 b Hfb u2) as [e [av [r [H3 H4]]]].
      { rewrite Hsplit, len_app in Hb. lia. }
      exists e, av, r. split; [exact H3|].
      change (de_tuple_cons (de t) (de (TTuple ts)) buf = DErr (InsufficientData e av) r).
      unfold de_tuple_cons. rewrite Hsplit, Hx. cbn [dbind]. rewrite H4. reflexivity.
Qed.

(** * Termination *)

Definition never_hangs {A} (d : Deserialize A) : Prop := forall buf, d buf <> DHang.

Lemma de_uint_never_hangs k : never_hangs (de_uint k).
Proof. intros buf. destruct (de_uint_cases k buf) as [[_ ->]|[_ ->]]; discriminate. Qed.

Lemma de_bytes_eats (buf : list N) : buf <> [] -> (length (@nil N) < length buf)%nat.
Proof. destruct buf; [congruence|cbn [length]; lia]. Qed.

Lemma sane_le {A} (d : Deserialize A) buf : sane d ->
  match d buf with
  | DOk _ rest | DErr _ rest => (length rest <= length buf)%nat
  | _ => True
  end.
Proof.
  intros H. specialize (H buf). destruct (d buf) as [v rest|e rest| |]; try exact I;
    destruct H as [u ->]; rewrite app_length; lia.
Qed.

Lemma ok_le {A} (d : Deserialize A) buf v rest : sane d -> d buf = DOk v rest ->
  (length rest <= length buf)%nat.
Proof. intros Hs E. assert (H := sane_le d buf Hs). rewrite E in H. exact H. Qed.
Lemma err_le {A} (d : Deserialize A) buf e rest : sane d -> d buf = DErr e rest ->
  (length rest <= length buf)%nat.
Proof. intros Hs E. assert (H := sane_le d buf Hs). rewrite E in H. exact H. Qed.

Lemma vec_loop_ok_empty {A} (d : Deserialize A) fuel : forall buf v rest,
  vec_loop d fuel buf = DOk v rest -> rest = [].
Proof.
  induction fuel as [|fuel IH]; intros buf v rest E; cbn [vec_loop] in E; [discriminate|].
  destruct buf as [|b buf]; [injection E as _ <-; reflexivity|].
  destruct (d (b :: buf)) as [x r|e r| |]; try discriminate. cbn [dbind] in E.
  destruct (vec_loop d fuel r) as [y r'|e r'| |] eqn:Ey; try discriminate.
  cbn [dmap dbind] in E. injection E as _ <-. exact (IH _ _ _ Ey).
Qed.

Lemma de_uint_ok_eats k buf v rest : (0 < k)%nat -> de_uint k buf = DOk v rest ->
  (length rest < length buf)%nat.
Proof.
  intros Hk E. destruct (de_uint_cases k buf) as [[H E']|[H E']]; rewrite E' in E; [discriminate|].
  injection E as _ <-. rewrite skipn_length. lia.
Qed.

Lemma deserialize_len_ok_eats {A} (d : Deserialize A) lf buf v rest : sane d ->
  deserialize_len d lf buf = DOk v rest -> (length rest < length buf)%nat.
Proof.
  intros Hs E. unfold deserialize_len in E.
  destruct (de_uint (lf_size lf) buf) as [n r|e r| |] eqn:En; try discriminate. cbn [dbind] in E.
  apply de_uint_ok_eats in En; [|destruct lf; cbn; lia].
  assert (H := ok_le (with_take d n) r v rest (with_take_sane d n Hs) E). lia.
Qed.

Lemma string_eats buf s rest : de_string Little buf = DOk s rest -> (length rest < length buf)%nat.
Proof.
  unfold de_string. intros E. destruct (de_uint 2 buf) as [m r|e r| |] eqn:Em; try discriminate.
  cbn [dbind] in E. apply de_uint_ok_eats in Em; [|lia].
  destruct (m =? 0xEFBB); [|destruct (m =? 0xFEFF); [|destruct (m =? 0xFFFE); [|discriminate]]].
  - assert (H := ok_le _ _ _ _ deserialize_utf8_sane E). lia.
  - assert (H := ok_le _ _ _ _ (deserialize_utf16_sane Little true) E). lia.
  - assert (H := ok_le _ _ _ _ (deserialize_utf16_sane Little false) E). lia.
Qed.

Definition eats_always_spec t := eats_always t = true -> forall buf, buf <> [] ->
  match de t buf with
  | DOk _ rest | DErr _ rest => (length rest < length buf)%nat
  | _ => True
  end.

Lemma de_u1_eats buf : buf <> [] -> 
  match de_uint 1 buf with
  | DOk _ rest | DErr _ rest => (length rest < length buf)%nat
  | _ => True
  end.
Proof.
  intros H. destruct (de_uint_cases 1 buf) as [[H1 E]|[H1 E]]; rewrite E.
  - destruct buf; [congruence|cbn [length] in H1; lia].
  - rewrite skipn_length. lia.
Qed.

Lemma de_array_le {A} (d : Deserialize A) dflt n buf v rest : sane d ->
  de_array d dflt n buf = DOk v rest -> (length rest <= length buf)%nat.
Proof. intros Hs E. apply (ok_le _ _ _ _ (de_array_sane d dflt n Hs) E). Qed.

Lemma de_array_no_err {A} (d : Deserialize A) dflt n : forall buf e rest,
  de_array d dflt n buf <> DErr e rest.
Proof.
  induction n as [|n IH]; intros buf e rest; cbn [de_array]; [discriminate|].
  destruct (d buf) as [x r|e' r| |]; try discriminate; specialize (IH r);
    destruct (de_array d dflt n r) as [y r'|e'' r'| |]; cbn [dmap dbind]; try discriminate;
    exfalso; eapply IH; reflexivity.
Qed.

Lemma eats_always_sound t : eats_always_spec t.
Proof.
  ty_induction t; intros He buf Hne; cbn [eats_always] in He; try discriminate He.
  - destruct s; try discriminate. apply de_u1_eats. exact Hne.
  - destruct s; try discriminate. cbn [de]. unfold de_sint. cbn [isize_bytes].
    assert (H := de_u1_eats buf Hne). destruct (de_uint 1 buf); exact H.
  - cbn [de]. rewrite de_bool_unfold.
    assert (H := de_u1_eats buf Hne). destruct (de_uint 1 buf); exact H.
  - cbn [de de_bytes]. apply de_bytes_eats. exact Hne.
  - destruct n as [|n]; [discriminate|]. specialize (IH He buf Hne). cbn [de de_array].
    destruct (de t buf) as [x r|e r| |]; try exact I;
      (destruct (de_array (de t) (default t) n r) as [y r'|e' r'| |] eqn:Ey; cbn [dmap dbind]; try exact I;
       [apply (de_array_le _ _ _ _ _ _ (de_sane t)) in Ey; lia|apply de_array_no_err in Ey; destruct Ey]).
  - specialize (IH He buf Hne). cbn [de]. unfold de_vec. cbn [vec_loop].
    destruct buf as [|b buf]; [congruence|].
    destruct (de t (b :: buf)) as [x r|e r| |]; try exact I; [|exact IH]. cbn [dbind].
    assert (H := sane_le (vec_loop (de t) (length (b :: buf))) r (vec_loop_sane _ _ (de_sane t))).
    destruct (vec_loop (de t) (length (b :: buf)) r) as [y r'|e r'| |]; cbn [dmap dbind]; try exact I; lia.
  - specialize (IHt He buf Hne).
    change (match de_tuple_cons (de t) (de (TTuple ts)) buf with
            | DOk _ rest | DErr _ rest => (length rest < length buf)%nat | DPanic | DHang => True end).
    unfold de_tuple_cons. destruct (de t buf) as [x r|e r| |]; try exact I; [|exact IHt]. cbn [dbind].
    assert (H := sane_le (de (TTuple ts)) r (de_sane (TTuple ts))).
    destruct (de (TTuple ts) r) as [y r'|e r'| |]; cbn [dbind]; try exact I; lia.
  - destruct lf; try discriminate. cbn [de]. unfold deserialize_len. cbn [lf_size].
    assert (H := de_u1_eats buf Hne). destruct (de_uint 1 buf) as [n r|e r| |]; try exact I; [|exact H].
    cbn [dbind]. assert (H' := sane_le (with_take (de t) n) r (with_take_sane _ n (de_sane t))).
    destruct (with_take (de t) n r); try exact I; lia.
Qed.

Lemma eats_on_success_sound t : eats_on_success t = true -> forall buf v rest, buf <> [] ->
  de t buf = DOk v rest -> (length rest < length buf)%nat.
Proof.
  ty_induction t; intros He buf v rest Hne E.
  - cbn [de] in E. apply de_uint_ok_eats in E; [exact E|apply isize_pos].
  - cbn [de] in E. unfold de_sint in E.
    destruct (de_uint (isize_bytes s) buf) as [x r|e r| |] eqn:Ex; try discriminate.
    injection E as _ <-. apply de_uint_ok_eats in Ex; [exact Ex|apply isize_pos].
  - cbn [de] in E. apply de_uint_ok_eats in E; [exact E|apply fsize_pos].
  - cbn [de] in E. rewrite de_bool_unfold in E.
    destruct (de_uint 1 buf) as [x r|e r| |] eqn:Ex; try discriminate.
    injection E as _ <-. apply de_uint_ok_eats in Ex; [exact Ex|lia].
  - injection E as _ <-. apply de_bytes_eats. exact Hne.
  - cbn [de] in E. apply (string_eats _ _ _ E).
  - assert (H := eats_always_sound (TArray t n)). cbn [eats_on_success] in He.
    specialize (H He buf Hne). rewrite E in H. exact H.
  - cbn [de] in E. apply vec_loop_ok_empty in E. subst rest. apply de_bytes_eats. exact Hne.
  - discriminate.
  - change (eats_on_success t || eats_on_success (TTuple ts) = true) in He.
    change (de_tuple_cons (de t) (de (TTuple ts)) buf = DOk v rest) in E.
    unfold de_tuple_cons in E. destruct (de t buf) as [x r|e r| |] eqn:Ex; try discriminate.
    cbn [dbind] in E. destruct (de (TTuple ts) r) as [y r'|e r'| |] eqn:Ey; try discriminate.
    cbn [dbind] in E. injection E as _ <-.
    assert (H1 := ok_le _ _ _ _ (de_sane t) Ex). assert (H2 := ok_le _ _ _ _ (de_sane (TTuple ts)) Ey).
    apply orb_true_iff in He as [He|He].
    + specialize (IHt He _ _ _ Hne Ex). lia.
    + destruct r as [|b r].
      * destruct buf; [congruence|cbn [length] in *; lia].
      * assert (Hne' : b :: r <> []) by congruence. specialize (IHts He _ _ _ Hne' Ey). lia.
  - cbn [de] in E. apply (deserialize_len_ok_eats _ _ _ _ _ (de_sane t) E).
Qed.

Lemma vec_never_hangs {A} (d : Deserialize A) : sane d -> never_hangs d ->
  (forall buf v rest, buf <> [] -> d buf = DOk v rest -> (length rest < length buf)%nat) ->
  never_hangs (de_vec d).
Proof.
  intros Hs Hn He buf. unfold de_vec.
  enough (H : forall fuel buf, (length buf < fuel)%nat -> vec_loop d fuel buf <> DHang)
    by (apply H; lia).
  clear buf. induction fuel as [|fuel IH]; intros buf Hf; [lia|]. cbn [vec_loop].
  destruct buf as [|b buf]; [discriminate|].
  destruct (d (b :: buf)) as [x r|e r| |] eqn:Ex; cbn [dbind]; try discriminate.
  - assert (Hne : b :: buf <> []) by congruence.
    specialize (He _ _ _ Hne Ex). specialize (IH r ltac:(cbn [length] in *; lia)).
    destruct (vec_loop d fuel r); cbn [dmap dbind]; try discriminate. congruence.
  - exfalso. exact (Hn _ Ex).
Qed.

Lemma terminating_sound t : terminating t = true -> never_hangs (de t).
Proof.
  ty_induction t; intros Ht.
  - apply de_uint_never_hangs.
  - intros buf. cbn [de]. unfold de_sint. assert (H := de_uint_never_hangs (isize_bytes s) buf).
    destruct (de_uint (isize_bytes s) buf); cbn [dmap dbind]; congruence.
  - apply de_uint_never_hangs.
  - intros buf. cbn [de]. rewrite de_bool_unfold. assert (H := de_uint_never_hangs 1 buf).
    destruct (de_uint 1 buf); cbn [dmap dbind]; congruence.
  - intros buf. discriminate.
  - intros buf. apply de_string_no_hang.
  - specialize (IH Ht). clear Ht. cbn [de]. intros buf. revert buf. induction n as [|n IHn]; intros buf; cbn [de_array];
      [discriminate|]. specialize (IH buf).
    destruct (de t buf) as [x r|e r| |]; try discriminate; [| |congruence]; specialize (IHn r);
      destruct (de_array (de t) (default t) n r) eqn:Ey; cbn [dmap dbind]; try discriminate;
      elim (IHn eq_refl).
  - cbn [terminating] in Ht. apply andb_true_iff in Ht as [H1 H2]. cbn [de].
    apply (vec_never_hangs (de t) (de_sane t) (IH H1)). intros buf v rest Hne E.
    apply (eats_on_success_sound t H2 _ _ _ Hne E).
  - intros buf. discriminate.
  - change (terminating t && terminating (TTuple ts) = true) in Ht. apply andb_true_iff in Ht as [H1 H2].
    intros buf. change (de_tuple_cons (de t) (de (TTuple ts)) buf <> DHang).
    unfold de_tuple_cons. specialize (IHt H1 buf).
    destruct (de t buf) as [x r|e r| |]; cbn [dbind]; try discriminate; [|congruence].
    specialize (IHts H2 r). destruct (de (TTuple ts) r); cbn [dbind]; congruence.
  - specialize (IH Ht). intros buf. cbn [de]. unfold deserialize_len.
    assert (H := de_uint_never_hangs (lf_size lf) buf).
    destruct (de_uint (lf_size lf) buf) as [n r|e r| |]; cbn [dbind]; try congruence.
    unfold with_take. specialize (IH (firstn (N.to_nat (N.min n (len r))) r)).
    destruct (de t _); congruence.
Qed.
